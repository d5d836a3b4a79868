(** The absl / libc string helpers used by the database parsers and the
    assembler.  These are library functions, not code of /repo; they are modelled
    from their documented behaviour (abseil-cpp strings/{numbers,str_split,strip,
    match,ascii}). *)
From Verif Require Import Base.

Local Notation "x <- e ;; f" := (obind e (fun x => f))
  (at level 61, e at next level, right associativity).

(** The value of a char as unsigned char (the casts of absl::ascii_isspace). *)
Definition ccode (c : ascii) : N := N_of_ascii c.

(** absl::ascii_isspace: tab, line feed, vertical tab, form feed, carriage
    return, space. *)
Definition is_space (c : ascii) : bool :=
  ((9 <=? ccode c) && (ccode c <=? 13)) || (ccode c =? 32).

(** absl::StripLeadingAsciiWhitespace (database-parsers.cc:713) *)
Fixpoint strip_leading (s : text) : text :=
  match s with
  | [] => []
  | c :: r => if is_space c then strip_leading r else s
  end.
(** absl::StripTrailingAsciiWhitespace (part of StripAsciiWhitespace, database-parsers.cc:704) *)
Definition strip_trailing (s : text) : text := rev (strip_leading (rev s)).
(** absl::StripAsciiWhitespace (database-parsers.cc:595,704,743,745) *)
Definition strip (s : text) : text := strip_trailing (strip_leading s).

(** absl::StrSplit(s, d) (database-parsers.cc:462,525,538,604,698): the pieces between the delimiters, always at least
    one.  [is_d] says which characters are delimiters (one character, or
    ByAsciiWhitespace). *)
Fixpoint split (is_d : ascii -> bool) (s : text) : list text :=
  match s with
  | [] => [[]]
  | c :: r =>
      if is_d c then [] :: split is_d r
      else match split is_d r with
           | [] => [[c]]
           | p :: ps => (c :: p) :: ps
           end
  end.
(** StrSplit by one character: assembler.cc:101,198, database-parsers.cc:538,604,698. *)
Definition split_char (d : ascii) (s : text) : list text := split (Ascii.eqb d) s.

(** absl::SkipEmpty (database-parsers.cc:462,525,604) *)
Definition skip_empty (l : list text) : list text :=
  filter (fun p => match p with [] => false | _ => true end) l.

(** absl::StrSplit(s, absl::MaxSplits(d, n)) (assembler.cc:101,198, database.cc:380): at most [n] splits. *)
Fixpoint split_max (n : nat) (d : ascii) (s : text) : list text :=
  match s with
  | [] => [[]]
  | c :: r =>
      match n with
      | O => [s]
      | S n' =>
          if Ascii.eqb d c then [] :: split_max n' d r
          else match split_max n d r with
               | [] => [[c]]
               | p :: ps => (c :: p) :: ps
               end
      end
  end.

(** absl::StrJoin (database.cc:386,407,414) *)
Fixpoint join (sep : text) (l : list text) : text :=
  match l with
  | [] => []
  | [p] => p
  | p :: ps => p ++ sep ++ join sep ps
  end.

(** absl::StartsWith (database.cc:236) *)
Fixpoint starts_with (p s : text) : bool :=
  match p, s with
  | [], _ => true
  | a :: p', b :: s' => Ascii.eqb a b && starts_with p' s'
  | _, [] => false
  end.
(** absl::EndsWith (database.cc:237, database-parsers.cc:503) *)
Definition ends_with (p s : text) : bool := starts_with (rev p) (rev s).
(** absl::StrContains (assembler.cc:46,205,209,227,246) *)
Fixpoint str_contains (needle s : text) : bool :=
  starts_with needle s
  || match s with [] => false | _ :: r => str_contains needle r end.

(** s.find(c) (database-parsers.cc:736): position of the first occurrence. *)
Fixpoint find_char (c : ascii) (s : text) : option nat :=
  match s with
  | [] => None
  | x :: r => if Ascii.eqb c x then Some O else option_map S (find_char c r)
  end.
(** s.rfind(c) (database-parsers.cc:504): position of the last occurrence. *)
Fixpoint rfind_char (c : ascii) (s : text) : option nat :=
  match s with
  | [] => None
  | x :: r => match rfind_char c r with
              | Some n => Some (S n)
              | None => if Ascii.eqb c x then Some O else None
              end
  end.

(** abseil numbers.cc kAsciiToInt below base 10 (for SimpleAtoi, below). *)
Definition dec_digit (c : ascii) : option N :=
  let n := ccode c in
  if (48 <=? n) && (n <=? 57) then Some (n - 48) else None.

(** numbers.cc safe_parse_positive_int, base 10: the value left in [*value_p]
    and the success flag. *)
Fixpoint atoi_pos (vmax value : N) (s : text) : N * bool :=
  match s with
  | [] => (value, true)
  | c :: r =>
      match dec_digit c with
      | None => (value, false)
      | Some d =>
          if vmax / 10 <? value then (vmax, false)
          else if vmax - d <? value * 10 then (vmax, false)
          else atoi_pos vmax (value * 10 + d) r
      end
  end.
(** numbers.cc safe_parse_negative_int on the absolute value: [vmin] is the
    absolute value of the smallest representable number. *)
Definition atoi_neg (vmin : N) (s : text) : N * bool := atoi_pos vmin 0 s.

(** numbers.cc safe_parse_sign_and_base with base 10: whitespace, one sign;
    [None] on an empty number. *)
Definition atoi_sign (s : text) : option (bool * text) :=
  match strip s with
  | [] => None
  | c :: r =>
      if Ascii.eqb c "-" then match r with [] => None | _ => Some (true, r) end
      else if Ascii.eqb c "+" then match r with [] => None | _ => Some (false, r) end
      else Some (false, c :: r)
  end.

(** absl::SimpleAtoi<uint32_t> (database-parsers.cc:251,510,545,549,619, assembler.cc:73): the value left in the destination and the flag. *)
Definition atoi_u32 (s : text) : N * bool :=
  match atoi_sign s with
  | None | Some (true, _) => (0, false)
  | Some (false, r) => atoi_pos (2 ^ 32 - 1) 0 r
  end.

(** absl::SimpleAtoi<int32_t> (database-parsers.cc:275,316, assembler.cc:50) *)
Definition atoi_i32 (s : text) : Z * bool :=
  match atoi_sign s with
  | None => (0%Z, false)
  | Some (false, r) => let (v, ok) := atoi_pos (2 ^ 31 - 1) 0 r in (Z.of_N v, ok)
  | Some (true, r) => let (v, ok) := atoi_neg (2 ^ 31) r in ((- Z.of_N v)%Z, ok)
  end.

(** ** std::strtol(s, &end, 0) (database-parsers.cc:170) on a NUL-terminated copy of [s]. *)
(** Digit of base up to 16 (strtol, database-parsers.cc:170). *)
Definition any_digit (c : ascii) : option N :=
  let n := ccode c in
  if (48 <=? n) && (n <=? 57) then Some (n - 48)
  else if (97 <=? n) && (n <=? 122) then Some (n - 87)
  else if (65 <=? n) && (n <=? 90) then Some (n - 55)
  else None.
(** A digit of the given base (database-parsers.cc:170, strtol). *)
Definition base_digit (base : N) (c : ascii) : option N :=
  match any_digit c with
  | Some d => if d <? base then Some d else None
  | None => None
  end.
(** The value of the longest prefix of digits (strtol, database-parsers.cc:170). *)
Fixpoint digits_prefix (base acc : N) (s : text) : N :=
  match s with
  | [] => acc
  | c :: r => match base_digit base c with
              | Some d => digits_prefix base (acc * base + d) r
              | None => acc
              end
  end.
(** database-parsers.cc:170.  isspace in the C locale is [is_space].  "0x" counts as a prefix only if a
    hexadecimal digit follows (otherwise the number is the single 0). *)
Definition strtol_magnitude (s : text) : N :=
  match s with
  | z :: x :: r =>
      if Ascii.eqb z "0" then
        if Ascii.eqb x "x" || Ascii.eqb x "X" then
          match r with
          | h :: _ => match base_digit 16 h with
                      | Some _ => digits_prefix 16 0 r
                      | None => 0
                      end
          | [] => 0
          end
        else digits_prefix 8 0 s
      else digits_prefix 10 0 s
  | _ => digits_prefix 10 0 s
  end.
(** database-parsers.cc:168-171: the value (a long) and whether errno is ERANGE. *)
Definition strtol0 (s : text) : Z * bool :=
  let s := strip_leading s in
  let (neg, r) := match s with
                  | c :: r => if Ascii.eqb c "-" then (true, r)
                              else if Ascii.eqb c "+" then (false, r)
                              else (false, s)
                  | [] => (false, [])
                  end in
  let m := strtol_magnitude r in
  if neg
  then if m <=? 2 ^ 63 then ((- Z.of_N m)%Z, false) else ((- 2 ^ 63)%Z, true)
  else if m <? 2 ^ 63 then (Z.of_N m, false) else ((2 ^ 63 - 1)%Z, true).

(** A char array read as a C string (database-parsers.cc:160,170,209): up to the first NUL. *)
Fixpoint c_str (s : text) : text :=
  match s with
  | [] => []
  | c :: r => if Ascii.eqb c "000" then [] else c :: c_str r
  end.

(** absl::StrFormat("%d", n) / std::to_string (assembler.cc:49,55,72,74) on a non-negative or negative
    number. *)
Definition dec_char (d : N) : ascii := ascii_of_N (48 + d).
(** The digits, most significant first (assembler.cc:49,55,72,74). *)
Fixpoint dec_fuel (fuel : nat) (n : N) (acc : text) : text :=
  match fuel with
  | O => acc
  | S fuel' =>
      let acc' := dec_char (n mod 10) :: acc in
      if n / 10 =? 0 then acc' else dec_fuel fuel' (n / 10) acc'
  end.
(** A non-negative number in decimal (assembler.cc:49,55,72,74). *)
Definition dec_text (n : N) : text := dec_fuel (S (N.to_nat (N.log2 n))) n [].
(** A number in decimal, with its sign (assembler.cc:55,74). *)
Definition dec_text_z (z : Z) : text :=
  if (z <? 0)%Z then "-"%char :: dec_text (Z.to_N (- z)) else dec_text (Z.to_N z).
