(** Model of the text parsers of fpga/database-parsers.cc: line splitting,
    pseudo-pips, segbits, package pins, YAML mappings. *)
From Verif Require Import Base Absl Part.

Local Notation "x <- e ;; f" := (obind e (fun x => f))
  (at level 61, e at next level, right associativity).
Local Notation "' p <- e ;; f" := (obind e (fun p => f))
  (at level 61, p pattern, e at next level, right associativity).

Definition nl : ascii := "010"%char.

(** A content together with what lies in memory right after it: [Some c], a
    readable byte; [None], not readable (reading it is undefined behaviour).
    database-parsers.cc:405-406 [skip_to_eol] reads [*it] before testing
    [it < end]. *)
Fixpoint to_eol (after : option ascii) (it : text) : outcome (text * text) :=
  match it with
  | [] => match after with Some _ => Ok ([], []) | None => UB end
  | c :: r =>
      if Ascii.eqb c nl then Ok ([], it)
      else '(l, r') <- to_eol after r ;; Ok (c :: l, r')
  end.

(** database-parsers.cc:413-431 [LinesGenerator]; the sink is a function from the
    state it updates, the 32-bit line number and the line to the new state or an
    error.  [++it] at the end of a text without final newline leaves it < end
    false: [tl [] = []]. *)
Fixpoint lines_loop {S} (fuel : nat) (after : option ascii)
    (sink : S -> N -> text -> outcome S) (line_number : N) (s : S) (it : text)
  : outcome S :=
  match it with
  | [] => Ok s
  | _ =>
      match fuel with
      | O => NoFuel
      | S fuel' =>
          let line_number := u32 (line_number + 1) in
          '(line, it) <- to_eol after it ;;
          s <- sink s line_number line ;;
          lines_loop fuel' after sink line_number s (tl it)
      end
  end.
(** database-parsers.cc:413-433: from the first line on. *)
Definition lines_generator {S} (after : option ascii)
    (sink : S -> N -> text -> outcome S) (s : S) (content : text) : outcome S :=
  lines_loop (List.length content) after sink 0 s content.

(** ** Pseudo pips *)
(** database-parsers.h:72-76 *)
Inductive ppip_type := PpAlways | PpDefault | PpHint.
(** database-parsers.h:79 *)
Definition ppips := list (text * ppip_type).

(** absl::StrSplit(line, ByAsciiWhitespace(), SkipEmpty()) *)
Definition words (line : text) : list text := skip_empty (split is_space line).

(** database-parsers.cc:441-455 *)
Definition ppip_type_of (v : text) : outcome ppip_type :=
  if text_eqb v (tx "always") then Ok PpAlways
  else if text_eqb v (tx "default") then Ok PpDefault
  else if text_eqb v (tx "hint") then Ok PpHint
  else Err.

(** database-parsers.cc:457-473 *)
Definition ppip_line (out : ppips) (line_count : N) (line : text) : outcome ppips :=
  match line with
  | [] => Ok out
  | _ =>
      match words line with
      | [name; kind] => t <- ppip_type_of kind ;; Ok (hm_insert text_eqb name t out)
      | _ => Err
      end
  end.

(** database-parsers.cc:476-489 *)
Definition parse_ppips (after : option ascii) (content : text) : outcome ppips :=
  match content with
  | [] => Ok []
  | _ => lines_generator after ppip_line [] content
  end.

(** ** Segbits *)
(** database-parsers.h:81-90 *)
Record segment_bit := { sb_column : N; sb_bit : N; sb_set : bool }.
(** database-parsers.h:92-104 TileFeature *)
Definition tile_feature : Type := text * N.
(** database-parsers.h:81-104: operator== of TileFeature. *)
Definition tf_eqb (a b : tile_feature) : bool :=
  text_eqb (fst a) (fst b) && (snd a =? snd b).
(** database-parsers.h:106 *)
Definition segbits := list (tile_feature * list segment_bit).

(** database-parsers.cc:494-519 ParseTileFeatureNameAndAddress.  On a bracket whose
    content is not a number the name is kept whole, and the address is what
    SimpleAtoi left in it. *)
Definition feature_name_address (value : text) : tile_feature :=
  if ends_with (tx "]") value
  then match rfind_char "[" value with
       | None => (value, 0)
       | Some pos =>
           let inside := firstn (List.length value - pos - 2) (skipn (pos + 1) value) in
           match atoi_u32 inside with
           | (address, true) => (firstn pos value, address)
           | (address, false) => (value, address)
           end
       end
  else (value, 0).

(** database-parsers.cc:534-554: one bit "CC_BB" or "!CC_BB" (never empty:
    SkipEmpty). *)
Definition segbit_of (bit : text) : outcome segment_bit :=
  let is_neg := match bit with c :: _ => Ascii.eqb c "!" | [] => false end in
  match split_char "_" (if is_neg then tl bit else bit) with
  | [c0; c1] =>
      match atoi_u32 c0 with
      | (_, false) => Err
      | (column, true) =>
          match atoi_u32 c1 with
          | (_, false) => Err
          | (word_bit, true) => Ok {| sb_column := column; sb_bit := word_bit; sb_set := negb is_neg |}
          end
      end
  | _ => Err
  end.

(** database-parsers.cc:533-554: the loop over the bits of a line. *)
Fixpoint segbits_of (l : list text) : outcome (list segment_bit) :=
  match l with
  | [] => Ok []
  | b :: r => sb <- segbit_of b ;; sbs <- segbits_of r ;; Ok (sb :: sbs)
  end.

(** database-parsers.cc:521-557 *)
Definition segbits_line (out : segbits) (line_count : N) (line : text) : outcome segbits :=
  match words line with
  | [] => Ok out
  | [_] => Err
  | name :: bits =>
      sbs <- segbits_of bits ;;
      Ok (hm_insert tf_eqb (feature_name_address name) sbs out)
  end.

(** database-parsers.cc:560-574 *)
Definition parse_segbits (after : option ascii) (content : text) : outcome segbits :=
  match content with
  | [] => Ok []
  | _ => lines_generator after segbits_line [] content
  end.

(** ** Package pins *)
(** database-parsers.h:108-114 *)
Record package_pin := {
  pp_pin : text; pp_bank : N; pp_site : text; pp_tile : text; pp_function : text
}.

(** database-parsers.cc:577-588 *)
Definition pins_header : list text :=
  [tx "pin"; tx "bank"; tx "site"; tx "tile"; tx "pin_function"].
(** database-parsers.cc:581-587: comparison with the header. *)
Fixpoint texts_eqb (a b : list text) : bool :=
  match a, b with
  | [], [] => true
  | x :: a', y :: b' => text_eqb x y && texts_eqb a' b'
  | _, _ => false
  end.

(** database-parsers.cc:600-629 (StripAsciiWhitespaces 590-598 is [map strip]) *)
Definition pin_line (out : list package_pin) (line_count : N) (line : text)
  : outcome (list package_pin) :=
  let segments := map strip (skip_empty (split_char "," line)) in
  if line_count =? 1
  then if texts_eqb segments pins_header then Ok out else Err
  else match segments with
       | [] => Ok out
       | [pin; bank; site; tile; fn] =>
           match atoi_u32 bank with
           | (_, false) => Err
           | (b, true) => Ok (out ++ [{| pp_pin := pin; pp_bank := b; pp_site := site;
                                         pp_tile := tile; pp_function := fn |}])
           end
       | _ => Err
       end.

(** database-parsers.cc:632-645 *)
Definition parse_pins (after : option ascii) (content : text) : outcome (list package_pin) :=
  match content with
  | [] => Ok []
  | _ => lines_generator after pin_line [] content
  end.

(** ** YAML mappings *)
(** database-parsers.cc:661-662: the properties handed to the sink. *)
Definition props := list (text * text).

(** database-parsers.cc:666-676 RemoveSurroundingQuotes *)
Definition unquote (s : text) : text :=
  match s with
  | a :: r =>
      let b := last r a in
      match r with
      | [] => s
      | _ => if (Ascii.eqb a "034" && Ascii.eqb b "034") || (Ascii.eqb a "'" && Ascii.eqb b "'")
             then removelast r else s
      end
  | [] => s
  end.

(** database-parsers.cc:699-700 and 716-722, the state of the loop: current_key, properties, and the state of the sink. *)
Definition yaml_flush {S} (sink : S -> text -> props -> outcome S)
    (key : text) (ps : props) (s : S) : outcome S :=
  match key with [] => Ok s | _ => sink s key ps end.

(** database-parsers.cc:702-752: the body of the loop.  The lines are those of
    StrSplit(content, '\n').  [indent] is compared with 0 only; its conversion to
    int is ignored (lines of more than 2^31 blanks). *)
Definition yaml_line {S} (sink : S -> text -> props -> outcome S)
    (st : text * props * S) (line : text) : outcome (text * props * S) :=
  let '(key, ps, s) := st in
  let trimmed := strip line in
  match trimmed with
  | [] => Ok st
  | c :: _ =>
      if Ascii.eqb c "#" then Ok st
      else if (List.length line =? List.length (strip_leading line))%nat
      then
        s <- yaml_flush sink key ps s ;;
        if ends_with (tx ":") trimmed
        then Ok (unquote (removelast trimmed), [], s)
        else Err
      else
        match find_char ":" trimmed with
        | None => Err
        | Some pos =>
            let k := strip (firstn pos trimmed) in
            let v := strip (skipn (pos + 1) trimmed) in
            Ok (key, hm_set text_eqb k (unquote v) ps, s)
        end
  end.

(** database-parsers.cc:696-763 ParseMappingYAML *)
Definition parse_yaml {S} (sink : S -> text -> props -> outcome S)
    (content : text) (s : S) : outcome S :=
  '(key, ps, s) <- ofold (yaml_line sink) (split_char nl content) ([], [], s) ;;
  yaml_flush sink key ps s.

(** ** Part infos *)
(** database-parsers.h:139-144 *)
Record part_info := {
  pi_device : text; pi_fabric : text; pi_package : text; pi_speedgrade : text
}.

(** database-parsers.cc:793-803 the sink of the devices *)
Definition fabric_sink (fabrics : props) (part : text) (ps : props) : outcome props :=
  match hm_find text_eqb (tx "fabric") ps with
  | None => Err
  | Some f => Ok (hm_insert text_eqb part f fabrics)
  end.

(** database-parsers.cc:808-832 the sink of the parts (ValueOrStatus 776-784) *)
Definition part_sink (fabrics : props) (infos : list (text * part_info)) (part : text)
    (ps : props) : outcome (list (text * part_info)) :=
  match hm_find text_eqb (tx "device") ps, hm_find text_eqb (tx "package") ps,
        hm_find text_eqb (tx "speedgrade") ps with
  | Some d, Some p, Some sg =>
      match hm_find text_eqb d fabrics with
      | None => Err
      | Some f => Ok (hm_insert text_eqb part
          {| pi_device := d; pi_fabric := f; pi_package := p; pi_speedgrade := sg |} infos)
      end
  | _, _, _ => Err
  end.

(** database-parsers.cc:787-836 ParsePartsInfos *)
Definition parse_parts_infos (parts_yaml devices_yaml : text)
  : outcome (list (text * part_info)) :=
  fabrics <- parse_yaml fabric_sink devices_yaml [] ;;
  parse_yaml (part_sink fabrics) parts_yaml [].
