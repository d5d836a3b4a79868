(** Model of what the FASM parser prints to errstream (fpga/fasm-parser.h): the same control flow as in
    Fasm.v with the [fprintf] calls in the order they are made.  [P_Messages] shows that leaving the
    messages out gives back Fasm.v. *)
From Verif Require Import Base Absl Fasm.

Local Notation "x <- e ;; f" := (obind e (fun x => f))
  (at level 61, e at next level, right associativity).
Local Notation "' p <- e ;; f" := (obind e (fun p => f))
  (at level 61, p pattern, e at next level, right associativity).

(** One call of fprintf; the arguments are those of the call. *)
Inductive message : Type :=
| MNoFinalNewline                                              (* fasm-parser.h:183 *)
| MBracket (line : N) (seen : text)                            (* fasm-parser.h:220-221 *)
| MInverted (line : N) (feature : text) (mx mn : N)            (* fasm-parser.h:228-230 *)
| MWidth (line value : N) (feature : text) (mx mn width : N)   (* fasm-parser.h:258-263 *)
| MTooWide (line : N) (feature : text) (mx mn width : N)       (* fasm-parser.h:273-277, 308-313 *)
| MBase (line : N) (c : ascii)                                 (* fasm-parser.h:295-298 *)
| MNoValue (line : N) (feature : text) (mx mn : N)             (* fasm-parser.h:324-327 *)
| MAnnotEqual (line : N) (name : text)                         (* fasm-parser.h:364-365 *)
| MAnnotQuote (line : N) (feature name : text)                 (* fasm-parser.h:373-376 *)
| MAnnotOpen (line : N)                                        (* fasm-parser.h:391-393 *)
| MAnnotEnd (line : N) (c : ascii)                             (* fasm-parser.h:405-406 *)
| MEol (line : N) (c : ascii).                                 (* fasm-parser.h:418 *)

(** [%d] of a 32-bit unsigned argument (fasm-parser.h:364,373,391,405,418): read as an int. *)
Definition as_int (n : N) : text :=
  if n <? 2 ^ 31 then dec_text n else tx "-" ++ dec_text (2 ^ 32 - n).
(** fasm-parser.h:228-230 [%.*s[%d:%d]]; bit positions are below 2^16. *)
Definition ranged (feature : text) (mx mn : N) : text :=
  feature ++ tx "[" ++ dec_text mx ++ tx ":" ++ dec_text mn ++ tx "]".
(** fasm-parser.h:183 and the other messages: the line feed that ends a message. *)
Definition msg_nl : text := [ch_nl].

(** The text printed; [%.*s] stops at a NUL byte (fasm-parser.h:220-221). *)
Definition render (m : message) : text :=
  match m with
  | MNoFinalNewline => tx "content does not end with a newline" ++ msg_nl
  | MBracket line seen => dec_text line ++ tx ": ERR expected ']' : '" ++ c_str seen ++ tx "'" ++ msg_nl
  | MInverted line f mx mn => dec_text line ++ tx ": SKIP inverted range " ++ ranged f mx mn ++ msg_nl
  | MWidth line v f mx mn w =>
      dec_text line ++ tx ": WARN Attempt to assign more bits (" ++ dec_text v ++ tx "') for " ++ ranged f mx mn
      ++ tx " with supported bit width of " ++ dec_text w ++ msg_nl
  | MTooWide line f mx mn w =>
      dec_text line ++ tx ": ERR: Sorry, can only deal with ranges <= 64 bit currently for integers " ++ ranged f mx mn
      ++ tx "; trimming width " ++ dec_text w ++ tx " to 64" ++ msg_nl
  | MBase line c =>
      dec_text line ++ tx ": unknown base signifier '" ++ [c] ++ tx "'; expected one of b, d, h, o" ++ msg_nl
  | MNoValue line f mx mn =>
      dec_text line ++ tx ": INFO Range of bits " ++ ranged f mx mn ++ tx ", but no assignment" ++ msg_nl
  | MAnnotEqual line n => as_int line ++ tx ": annotation " ++ n ++ tx ": expected '='" ++ msg_nl
  | MAnnotQuote line f n =>
      as_int line ++ tx ": " ++ f ++ tx " : annotation '" ++ n ++ tx "': value not quoted" ++ msg_nl
  | MAnnotOpen line => as_int line ++ tx ": annotation not finished before end of line" ++ msg_nl
  | MAnnotEnd line c =>
      as_int line ++ tx ": annotations: expected ',' or '}'; got '" ++ [c] ++ tx "'" ++ msg_nl
  | MEol line c => as_int line ++ tx ": expected newline, got '" ++ [c] ++ tx "'" ++ msg_nl
  end.

(** fasm-parser.h:174-200: the calls made, [result], and what was printed so far. *)
Record lstate : Type := { l_events : list event; l_result : N; l_messages : list message }.

(** A call of a callback (fasm-parser.h:341-343,398). *)
Definition l_emit (e : event) (st : lstate) : lstate :=
  {| l_events := l_events st ++ [e]; l_result := l_result st; l_messages := l_messages st |}.
(** [result = std::max(result, r)] without a message (fasm-parser.h:344). *)
Definition l_raise (r : N) (st : lstate) : lstate :=
  {| l_events := l_events st; l_result := N.max (l_result st) r; l_messages := l_messages st |}.
(** [fprintf(errstream, ...)] followed by [result = ...], e.g. fasm-parser.h:220-222. *)
Definition say (m : message) (r : N) (st : lstate) : lstate :=
  {| l_events := l_events st; l_result := N.max (l_result st) r; l_messages := l_messages st ++ [m] |}.

(** fasm-parser.h:205-236: the optional [max:min]. *)
Inductive lrange : Type :=
| LRangeOk (max_bit min_bit : N) (it : text)
| LRangeErr (it : text)
| LRangeInverted (max_bit min_bit : N) (it : text).

(** fasm-parser.h:205-245: the optional bit range of a feature. *)
Definition log_range (it : text) : outcome lrange :=
  c <- peek it ;;
  if ch_is c "["
  then
    '(max_bit, it) <- parse_number 10 (2 ^ 16) 0 (tl it) ;;
    it <- skip_blank it ;;
    c <- peek it ;;
    '(min_bit, it) <-
      (if ch_is c ":"
       then '(min_bit, it) <- parse_number 10 (2 ^ 16) 0 (tl it) ;;
            it <- skip_blank it ;;
            Ok (min_bit, it)
       else Ok (max_bit, it)) ;;
    c <- peek it ;;
    if negb (ch_is c "]") then Ok (LRangeErr it)
    else if max_bit <? min_bit then Ok (LRangeInverted max_bit min_bit (tl it))
    else Ok (LRangeOk max_bit min_bit (tl it))
  else Ok (LRangeOk 0 0 it).

(** fasm-parser.h:242-330: the optional assignment. *)
Definition log_assign (line : N) (feature : text) (max_bit min_bit width : N) (st : lstate) (it : text)
  : outcome (list N * N * lstate * text) :=
  c <- peek it ;;
  if ch_is c "="
  then
    it <- skip_blank (tl it) ;;
    c <- peek it ;;
    '(value_or_width, it) <-
      (if (digit_of c <=? 9)%Z then parse_number 10 (2 ^ 64) 0 it
       else Ok (0, it)) ;;
    it <- skip_blank it ;;
    c <- peek it ;;
    if ch_is c ch_tick
    then
      it <- skip_blank (tl it) ;;
      let st := if width <? value_or_width
                then say (MWidth line value_or_width feature max_bit min_bit width) kNonCritical st else st in
      format_type <- peek it ;;
      let it := tl it in
      let clamp := (64 <? width) &&
                   (ch_is format_type "d" || ch_is format_type "o") in
      let st := if clamp then say (MTooWide line feature max_bit min_bit width) kError st else st in
      let width := if clamp then 64 else width in
      '(bitset, bad, it) <- parse_based format_type it ;;
      let st := if (bad : bool) then say (MBase line format_type) kError st else st in
      it <- skip_blank it ;;
      Ok (bitset, width, st, it)
    else
      let clamp := 64 <? width in
      let st := if clamp then say (MTooWide line feature max_bit min_bit width) kError st else st in
      let width := if clamp then 64 else width in
      Ok ([value_or_width], width, st, it)
  else
    let st := if min_bit =? max_bit then st else say (MNoValue line feature max_bit min_bit) kInfo st in
    Ok ([1], width, st, it).

(** fasm-parser.h:332-347: report the chunks of the bitset. *)
Fixpoint log_report (sm : shift_model) (cb : list event -> bool)
    (line : N) (feature : text) (min_bit width total chunk : N)
    (bitset : list N) (st : lstate) : outcome lstate :=
  match bitset with
  | [] => Ok st
  | value :: rest =>
      let value_width :=
        if chunk =? total - 1
        then u32 (u64 (width + 2 ^ 64 - u64 (64 * (total - 1))))
        else 64 in
      mask <- clamp_mask sm value_width ;;
      let st := l_emit (EFeature line feature (u32 (min_bit + u32 (chunk * 64)))
                          value_width (N.land value mask)) st in
      if cb (l_events st)
      then log_report sm cb line feature min_bit width total (chunk + 1) rest st
      else Ok (l_raise kUserAbort st)
  end.

(** fasm-parser.h:353-401: the do-while over annotations. *)
Fixpoint log_annotations (fuel : nat) (line : N) (feature : text) (st : lstate)
    (it : text) : outcome (lstate * text) :=
  match fuel with
  | O => NoFuel
  | S fuel =>
      it <- skip_blank (tl it) ;;
      '(aname, it) <- read_ident it ;;
      it <- skip_blank it ;;
      c <- peek it ;;
      if negb (ch_is c "=") then Ok (say (MAnnotEqual line aname) kError st, it)
      else
        it <- skip_blank (tl it) ;;
        c <- peek it ;;
        if negb (ch_is c ch_quote) then Ok (say (MAnnotQuote line feature aname) kError st, it)
        else
          '(avalue, it) <- scan_value ch_quote (tl it) ;;
          c <- peek it ;;
          if ch_is c ch_nl then Ok (say (MAnnotOpen line) kError st, it)
          else
            let st := l_emit (EAnnotation line feature aname avalue) st in
            it <- skip_blank (tl it) ;;
            c <- peek it ;;
            if ch_is c "," then log_annotations fuel line feature st it
            else Ok (st, it)
  end.

(** fasm-parser.h:350-411: annotations might follow. *)
Definition log_annotation_part (annot : bool) (line : N) (feature : text)
    (st : lstate) (it : text) : outcome (lstate * text) :=
  c <- peek it ;;
  if ch_is c "{"
  then
    '(st, it) <-
      (if annot
       then
         '(st, it) <- log_annotations (S (List.length it)) line feature st it ;;
         c <- peek it ;;
         Ok ((if ch_is c "}" then st else say (MAnnotEnd line c) kError st), it)
       else Ok (st, it)) ;;
    it <- skip_to_eol it ;;
    Ok (st, it)
  else Ok (st, it).

(** fasm-parser.h:413-422: the end of the line. *)
Definition log_eol (line : N) (st : lstate) (it : text) : outcome (lstate * text) :=
  c <- peek it ;;
  it <- (if ch_is c "#" || ch_is c ch_cr then skip_to_eol it else Ok it) ;;
  c <- peek it ;;
  if ch_is c ch_nl then Ok (st, tl it)
  else it' <- skip_to_eol it ;; Ok (say (MEol line c) kError st, tl it').

(** fasm-parser.h:191-422: the body of the loop over lines. *)
Definition log_line (sm : shift_model) (cb : list event -> bool) (annot : bool)
    (line : N) (st : lstate) (it : text) : outcome (lstate * text) :=
  it <- skip_blank it ;;
  let start_feature := it in
  '(feature, it) <- read_ident it ;;
  it <- skip_blank it ;;
  match feature with
  | [] =>
      '(st, it) <- log_annotation_part annot line feature st it ;;
      log_eol line st it
  | _ =>
      r <- log_range it ;;
      match r with
      | LRangeErr it =>
          let seen := firstn (S (List.length start_feature - List.length it)) start_feature in
          it <- skip_to_eol it ;; Ok (say (MBracket line seen) kError st, tl it)
      | LRangeInverted max_bit min_bit it =>
          it <- skip_to_eol it ;; Ok (say (MInverted line feature max_bit min_bit) kSkipped st, tl it)
      | LRangeOk max_bit min_bit it =>
          it <- skip_blank it ;;
          let width := u32 (max_bit - min_bit + 1) in
          '(bitset, width, st, it) <- log_assign line feature max_bit min_bit width st it ;;
          st <- log_report sm cb line feature min_bit width
                  (N.of_nat (List.length bitset)) 0 bitset st ;;
          '(st, it) <- log_annotation_part annot line feature st it ;;
          log_eol line st it
      end
  end.

(** fasm-parser.h:186-423: the loop over lines. *)
Fixpoint log_lines (fuel : nat) (sm : shift_model) (cb : list event -> bool)
    (annot : bool) (line : N) (st : lstate) (it : text) : outcome lstate :=
  match fuel with
  | O => NoFuel
  | S fuel =>
      match it with
      | [] => Ok st
      | _ =>
          let line := u32 (line + 1) in
          '(st, it) <- log_line sm cb annot line st it ;;
          log_lines fuel sm cb annot line st it
      end
  end.

(** fasm-parser.h:174-425 [Parse] with its messages. *)
Definition fasm_log (sm : shift_model) (cb : list event -> bool) (annot : bool)
    (content : text) : outcome lstate :=
  let start := {| l_events := []; l_result := kSuccess; l_messages := [] |} in
  match content with
  | [] => Ok start
  | _ =>
      if ch_is (last content ch_nl) ch_nl
      then log_lines (S (List.length content)) sm cb annot 0 start content
      else Ok (say MNoFinalNewline kError start)
  end.
