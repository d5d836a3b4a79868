(** Model of the FASM parser, fpga/fasm-parser.h.

    The buffer is the list of the bytes from [it] to [end]; dereferencing [it]
    at [end] or beyond is undefined behaviour ([UB]).  The feature callback is
    an arbitrary function of the history of all calls made so far (which
    includes the present one), so any stateful callback is covered; the
    annotation callback returns nothing, only its presence matters.
    Messages to errstream are left out here; FasmLog.v models the same functions with them. *)
From Verif Require Import Base.

Local Notation "x <- e ;; f" := (obind e (fun x => f))
  (at level 61, e at next level, right associativity).
Local Notation "' p <- e ;; f" := (obind e (fun p => f))
  (at level 61, p pattern, e at next level, right associativity).

(** fasm-parser.h:91-108 [kDigitToInt] (kDigitSeparator = -1, line 90). *)
Definition kDigitToInt : list Z :=
  [99; 99; 99; 99; 99; 99; 99; 99; 99; 99; 99; 99; 99; 99; 99; 99;
   99; 99; 99; 99; 99; 99; 99; 99; 99; 99; 99; 99; 99; 99; 99; 99;
   99; 99; 99; 99; 99; 99; 99; 99; 99; 99; 99; 99; 99; 99; 99; 99;
    0;  1;  2;  3;  4;  5;  6;  7;  8;  9; 99; 99; 99; 99; 99; 99;
   99; 10; 11; 12; 13; 14; 15; 99; 99; 99; 99; 99; 99; 99; 99; 99;
   99; 99; 99; 99; 99; 99; 99; 99; 99; 99; 99; 99; 99; 99; 99; -1;
   99; 10; 11; 12; 13; 14; 15; 99; 99; 99; 99; 99; 99; 99; 99; 99;
   99; 99; 99; 99; 99; 99; 99; 99; 99; 99; 99; 99; 99; 99; 99; 99;
   99; 99; 99; 99; 99; 99; 99; 99; 99; 99; 99; 99; 99; 99; 99; 99;
   99; 99; 99; 99; 99; 99; 99; 99; 99; 99; 99; 99; 99; 99; 99; 99;
   99; 99; 99; 99; 99; 99; 99; 99; 99; 99; 99; 99; 99; 99; 99; 99;
   99; 99; 99; 99; 99; 99; 99; 99; 99; 99; 99; 99; 99; 99; 99; 99;
   99; 99; 99; 99; 99; 99; 99; 99; 99; 99; 99; 99; 99; 99; 99; 99;
   99; 99; 99; 99; 99; 99; 99; 99; 99; 99; 99; 99; 99; 99; 99; 99;
   99; 99; 99; 99; 99; 99; 99; 99; 99; 99; 99; 99; 99; 99; 99; 99;
   99; 99; 99; 99; 99; 99; 99; 99; 99; 99; 99; 99; 99; 99; 99; 99]%Z.

(** fasm-parser.h:111-128 [kValidIdentifier]. *)
Definition kValidIdentifier : list N :=
  [0; 0; 0; 0; 0; 0; 0; 0; 0; 0; 0; 0; 0; 0; 0; 0;
   0; 0; 0; 0; 0; 0; 0; 0; 0; 0; 0; 0; 0; 0; 0; 0;
   0; 0; 0; 0; 0; 0; 0; 0; 0; 0; 0; 0; 0; 0; 1; 0;
   1; 1; 1; 1; 1; 1; 1; 1; 1; 1; 0; 0; 0; 0; 0; 0;
   0; 1; 1; 1; 1; 1; 1; 1; 1; 1; 1; 1; 1; 1; 1; 1;
   1; 1; 1; 1; 1; 1; 1; 1; 1; 1; 1; 0; 0; 0; 0; 1;
   0; 1; 1; 1; 1; 1; 1; 1; 1; 1; 1; 1; 1; 1; 1; 1;
   1; 1; 1; 1; 1; 1; 1; 1; 1; 1; 1; 0; 0; 0; 0; 0;
   0; 0; 0; 0; 0; 0; 0; 0; 0; 0; 0; 0; 0; 0; 0; 0;
   0; 0; 0; 0; 0; 0; 0; 0; 0; 0; 0; 0; 0; 0; 0; 0;
   0; 0; 0; 0; 0; 0; 0; 0; 0; 0; 0; 0; 0; 0; 0; 0;
   0; 0; 0; 0; 0; 0; 0; 0; 0; 0; 0; 0; 0; 0; 0; 0;
   0; 0; 0; 0; 0; 0; 0; 0; 0; 0; 0; 0; 0; 0; 0; 0;
   0; 0; 0; 0; 0; 0; 0; 0; 0; 0; 0; 0; 0; 0; 0; 0;
   0; 0; 0; 0; 0; 0; 0; 0; 0; 0; 0; 0; 0; 0; 0; 0;
   0; 0; 0; 0; 0; 0; 0; 0; 0; 0; 0; 0; 0; 0; 0; 0].

(** fasm-parser.h:91-108: table look-up. *)
Definition digit_of (c : ascii) : Z := nth (nat_of_ascii c) kDigitToInt 99%Z.
(** fasm-parser.h:111-128: table look-up. *)
Definition ident_char (c : ascii) : bool :=
  negb (nth (nat_of_ascii c) kValidIdentifier 0 =? 0).

(** fasm-parser.h:142: the character constants of the parser. *)
Definition ch_nl : ascii := "010"%char.
(** fasm-parser.h:413 *)
Definition ch_cr : ascii := "013"%char.
(** fasm-parser.h:137-138 *)
Definition ch_tab : ascii := "009"%char.
(** fasm-parser.h:384 *)
Definition ch_quote : ascii := "034"%char.
(** fasm-parser.h:387 *)
Definition ch_backslash : ascii := "092"%char.
(** fasm-parser.h:252: the quote of a Verilog number *)
Definition ch_tick : ascii := "039"%char.
(** fasm-parser.h:413: comparison of characters *)
Definition ch_is (a c : ascii) : bool := Ascii.eqb a c.

(** [*it], e.g. fasm-parser.h:142 (nothing there: read past the end of the buffer). *)
Definition peek (it : text) : outcome ascii :=
  match it with
  | [] => UB
  | c :: _ => Ok c
  end.

(** fasm-parser.h:137-138 [fasm_skip_blank]. *)
Fixpoint skip_blank (it : text) : outcome text :=
  match it with
  | [] => UB
  | c :: r => if ch_is c " " || ch_is c ch_tab then skip_blank r else Ok it
  end.

(** fasm-parser.h:141-142 [fasm_skip_to_eol]. *)
Fixpoint skip_to_eol (it : text) : outcome text :=
  match it with
  | [] => UB
  | c :: r => if ch_is c ch_nl then Ok it else skip_to_eol r
  end.

(** fasm-parser.h:197-201 and 356-360: maximal run of identifier characters. *)
Fixpoint read_ident (it : text) : outcome (text * text) :=
  match it with
  | [] => UB
  | c :: r =>
      if ident_char c
      then '(n, r') <- read_ident r ;; Ok (c :: n, r')
      else Ok ([], it)
  end.

(** fasm-parser.h:150-155 [fasm_parse_number_with_base], the [for] loop; [wrap]
    is 2^16 or 2^64, the modulus of the unsigned type of the variable. *)
Fixpoint number_loop (base : Z) (wrap v : N) (it : text) : outcome (N * text) :=
  match it with
  | [] => UB
  | c :: r =>
      let d := digit_of c in
      if (d <? base)%Z
      then if (d =? -1)%Z then number_loop base wrap v r
           else number_loop base wrap ((v * Z.to_N base + Z.to_N d) mod wrap) r
      else Ok (v, it)
  end.

(** fasm-parser.h:150-155 [fasm_parse_number_with_base]. *)
Definition parse_number (base : Z) (wrap v : N) (it : text) : outcome (N * text) :=
  it <- skip_blank it ;; number_loop base wrap v it.

(** fasm-parser.h:158-172, the [for] loop.  The vector is kept back to front
    (its [back()] is the head of [v]), so that the [std::reverse] of line 172
    is the identity on this representation: the list returned is the vector
    after the reversal, front first.  [n] is only used modulo 64, so its 32-bit
    wrap around is invisible. *)
Fixpoint long_loop (l2base : N) (n : N) (v : list N) (it : text)
  : outcome (list N * text) :=
  match it with
  | [] => UB
  | c :: r =>
      let d := digit_of c in
      if (d <? Z.of_N (2 ^ l2base))%Z
      then if (d =? -1)%Z then long_loop l2base n v r
           else
             let v1 := if n mod 64 =? 0 then 0 :: v else v in
             let v2 := match v1 with
                       | [] => []
                       | b :: t => u64 (b * 2 ^ l2base + Z.to_N d) :: t
                       end in
             long_loop l2base (n + l2base) v2 r
      else Ok (v, it)
  end.

(** fasm-parser.h:158-172 [fasm_parse_long_number_with_base]. *)
Definition parse_long (l2base : N) (it : text) : outcome (list N * text) :=
  it <- skip_blank it ;;
  '(v, it) <- long_loop l2base 0 [] it ;;
  Ok ((match v with [] => [0] | _ => v end), it).

(** fasm-parser.h:45-52 [ParseResult], in increasing severity. *)
Definition kSuccess : N := 0.
(** fasm-parser.h:47 *)
Definition kInfo : N := 1.
(** fasm-parser.h:48 *)
Definition kNonCritical : N := 2.
(** fasm-parser.h:49 *)
Definition kSkipped : N := 3.
(** fasm-parser.h:50 *)
Definition kUserAbort : N := 4.
(** fasm-parser.h:51 *)
Definition kError : N := 5.

(** One call of a callback: fasm-parser.h:33-42. *)
Inductive event : Type :=
| EFeature (line : N) (feature : text) (start_bit width bits : N)
| EAnnotation (line : N) (feature name value : text).

(** fasm-parser.h:174-200, the local state of Parse that survives a line: the calls made so far
    (oldest first) and [result]. *)
Record pstate : Type := { p_events : list event; p_result : N }.

(** A call of a callback (fasm-parser.h:341-343,398). *)
Definition p_emit (e : event) (st : pstate) : pstate :=
  {| p_events := p_events st ++ [e]; p_result := p_result st |}.
(** [result = std::max(result, r)], e.g. fasm-parser.h:231,328,344; also [result = kError] since kError is the
    largest value. *)
Definition p_raise (r : N) (st : pstate) : pstate :=
  {| p_events := p_events st; p_result := N.max (p_result st) r |}.

(** fasm-parser.h:205-236: the optional [max:min]. *)
Inductive range_res : Type :=
| RangeOk (max_bit min_bit : N) (it : text)
| RangeErr (it : text)
| RangeInverted (it : text).

(** fasm-parser.h:205-245: the optional bit range of a feature. *)
Definition parse_range (it : text) : outcome range_res :=
  c <- peek it ;;
  if ch_is c "["
  then
    '(max_bit, it) <- parse_number 10 (2 ^ 16) 0 (tl it) ;;
    it <- skip_blank it ;;
    c <- peek it ;;
    '(min_bit, it) <-
      (if ch_is c ":"
       then '(min_bit, it) <- parse_number 10 (2 ^ 16) 0 (tl it) ;;
            it <- skip_blank it ;;
            Ok (min_bit, it)
       else Ok (max_bit, it)) ;;
    c <- peek it ;;
    if negb (ch_is c "]") then Ok (RangeErr it)
    else if max_bit <? min_bit then Ok (RangeInverted (tl it))
    else Ok (RangeOk max_bit min_bit (tl it))
  else Ok (RangeOk 0 0 it).

(** fasm-parser.h:284-304: the switch on the base signifier; the vector, a flag
    saying that the signifier is unknown, and the position. *)
Definition parse_based (format_type : ascii) (it : text)
  : outcome (list N * bool * text) :=
  if ch_is format_type "h"
  then '(v, it) <- parse_long 4 it ;; Ok (v, false, it)
  else if ch_is format_type "b"
  then '(v, it) <- parse_long 1 it ;; Ok (v, false, it)
  else if ch_is format_type "o"
  then '(v, it) <- parse_number 8 (2 ^ 64) 0 it ;; Ok ([v], false, it)
  else if ch_is format_type "d"
  then '(v, it) <- parse_number 10 (2 ^ 64) 0 it ;; Ok ([v], false, it)
  else it <- skip_to_eol it ;; Ok ([1], true, it).

(** fasm-parser.h:242-330: the optional assignment.  Returns the bitset, the
    possibly clamped width, the state and the position. *)
Definition parse_assign (max_bit min_bit width : N) (st : pstate) (it : text)
  : outcome (list N * N * pstate * text) :=
  c <- peek it ;;
  if ch_is c "="
  then
    it <- skip_blank (tl it) ;;
    c <- peek it ;;
    '(value_or_width, it) <-
      (if (digit_of c <=? 9)%Z then parse_number 10 (2 ^ 64) 0 it
       else Ok (0, it)) ;;
    it <- skip_blank it ;;
    c <- peek it ;;
    if ch_is c ch_tick
    then
      it <- skip_blank (tl it) ;;
      let st := if width <? value_or_width then p_raise kNonCritical st else st in
      format_type <- peek it ;;
      let it := tl it in
      let clamp := (64 <? width) &&
                   (ch_is format_type "d" || ch_is format_type "o") in
      let st := if clamp then p_raise kError st else st in
      let width := if clamp then 64 else width in
      '(bitset, bad, it) <- parse_based format_type it ;;
      let st := if (bad : bool) then p_raise kError st else st in
      it <- skip_blank it ;;
      Ok (bitset, width, st, it)
    else
      let clamp := 64 <? width in
      let st := if clamp then p_raise kError st else st in
      let width := if clamp then 64 else width in
      Ok ([value_or_width], width, st, it)
  else
    let st := if min_bit =? max_bit then st else p_raise kInfo st in
    Ok ([1], width, st, it).

(** fasm-parser.h:339-340: how [x >> n] on a 64-bit operand behaves when [n] is not in 0..63:
    [Iso] undefined behaviour (the language standard), [Hw] the count is taken
    modulo 64 (what x86-64 and AArch64 shift instructions do). *)
Inductive shift_model : Type := Iso | Hw.

(** fasm-parser.h:339-340 [uint64_t(-1) >> (64 - value_width)]; [value_width]
    is a 32-bit unsigned, so the subtraction wraps modulo 2^32. *)
Definition clamp_mask (sm : shift_model) (value_width : N) : outcome N :=
  let n := (64 + 2 ^ 32 - value_width) mod 2 ^ 32 in
  match sm with
  | Iso => if n <? 64 then Ok (N.shiftr (N.ones 64) n) else UB
  | Hw => Ok (N.shiftr (N.ones 64) (n mod 64))
  end.

(** fasm-parser.h:332-347: report the chunks of the bitset; [total] is the size
    of the bitset, [chunk] the loop counter.  The [break] after a callback
    returning false leaves this loop only. *)
Fixpoint report (sm : shift_model) (cb : list event -> bool)
    (line : N) (feature : text) (min_bit width total chunk : N)
    (bitset : list N) (st : pstate) : outcome pstate :=
  match bitset with
  | [] => Ok st
  | value :: rest =>
      let value_width :=
        if chunk =? total - 1
        then u32 (u64 (width + 2 ^ 64 - u64 (64 * (total - 1))))
        else 64 in
      mask <- clamp_mask sm value_width ;;
      let st := p_emit (EFeature line feature (u32 (min_bit + u32 (chunk * 64)))
                          value_width (N.land value mask)) st in
      if cb (p_events st)
      then report sm cb line feature min_bit width total (chunk + 1) rest st
      else Ok (p_raise kUserAbort st)
  end.

(** fasm-parser.h:381-388: the characters of a quoted value; [prev] is
    [*(it - 1)].  The value ends at a newline or at a quote whose preceding
    character is not a backslash. *)
Fixpoint scan_value (prev : ascii) (it : text) : outcome (text * text) :=
  match it with
  | [] => UB
  | c :: r =>
      if ch_is c ch_nl then Ok ([], it)
      else if ch_is c ch_quote && negb (ch_is prev ch_backslash) then Ok ([], it)
      else '(v, r') <- scan_value c r ;; Ok (c :: v, r')
  end.

(** fasm-parser.h:353-401: the do-while over annotations; [it] is on the '{' or
    ','.  [fuel] bounds the iterations ([P_Fasm] shows the length of the buffer
    is always enough). *)
Fixpoint annotations (fuel : nat) (line : N) (feature : text) (st : pstate)
    (it : text) : outcome (pstate * text) :=
  match fuel with
  | O => NoFuel
  | S fuel =>
      it <- skip_blank (tl it) ;;
      '(aname, it) <- read_ident it ;;
      it <- skip_blank it ;;
      c <- peek it ;;
      if negb (ch_is c "=") then Ok (p_raise kError st, it)
      else
        it <- skip_blank (tl it) ;;
        c <- peek it ;;
        if negb (ch_is c ch_quote) then Ok (p_raise kError st, it)
        else
          '(avalue, it) <- scan_value ch_quote (tl it) ;;
          c <- peek it ;;
          if ch_is c ch_nl then Ok (p_raise kError st, it)
          else
            let st := p_emit (EAnnotation line feature aname avalue) st in
            it <- skip_blank (tl it) ;;
            c <- peek it ;;
            if ch_is c "," then annotations fuel line feature st it
            else Ok (st, it)
  end.

(** fasm-parser.h:350-411: annotations might follow. *)
Definition parse_annotations (annot : bool) (line : N) (feature : text)
    (st : pstate) (it : text) : outcome (pstate * text) :=
  c <- peek it ;;
  if ch_is c "{"
  then
    '(st, it) <-
      (if annot
       then
         '(st, it) <- annotations (S (List.length it)) line feature st it ;;
         c <- peek it ;;
         Ok ((if ch_is c "}" then st else p_raise kError st), it)
       else Ok (st, it)) ;;
    it <- skip_to_eol it ;;
    Ok (st, it)
  else Ok (st, it).

(** fasm-parser.h:413-422: the end of the line. *)
Definition parse_eol (st : pstate) (it : text) : outcome (pstate * text) :=
  c <- peek it ;;
  it <- (if ch_is c "#" || ch_is c ch_cr then skip_to_eol it else Ok it) ;;
  c <- peek it ;;
  if ch_is c ch_nl then Ok (st, tl it)
  else it <- skip_to_eol it ;; Ok (p_raise kError st, tl it).

(** fasm-parser.h:191-422: the body of the loop over lines. *)
Definition parse_line (sm : shift_model) (cb : list event -> bool) (annot : bool)
    (line : N) (st : pstate) (it : text) : outcome (pstate * text) :=
  it <- skip_blank it ;;
  '(feature, it) <- read_ident it ;;
  it <- skip_blank it ;;
  match feature with
  | [] =>
      '(st, it) <- parse_annotations annot line feature st it ;;
      parse_eol st it
  | _ =>
      r <- parse_range it ;;
      match r with
      | RangeErr it => it <- skip_to_eol it ;; Ok (p_raise kError st, tl it)
      | RangeInverted it => it <- skip_to_eol it ;; Ok (p_raise kSkipped st, tl it)
      | RangeOk max_bit min_bit it =>
          it <- skip_blank it ;;
          let width := u32 (max_bit - min_bit + 1) in
          '(bitset, width, st, it) <- parse_assign max_bit min_bit width st it ;;
          st <- report sm cb line feature min_bit width
                  (N.of_nat (List.length bitset)) 0 bitset st ;;
          '(st, it) <- parse_annotations annot line feature st it ;;
          parse_eol st it
      end
  end.

(** fasm-parser.h:186-423: the loop over lines. *)
Fixpoint parse_lines (fuel : nat) (sm : shift_model) (cb : list event -> bool)
    (annot : bool) (line : N) (st : pstate) (it : text) : outcome pstate :=
  match fuel with
  | O => NoFuel
  | S fuel =>
      match it with
      | [] => Ok st
      | _ =>
          let line := u32 (line + 1) in
          '(st, it) <- parse_line sm cb annot line st it ;;
          parse_lines fuel sm cb annot line st it
      end
  end.

(** fasm-parser.h:174-425 [Parse].  [annot]: whether an annotation callback is
    given. *)
Definition fasm_parse (sm : shift_model) (cb : list event -> bool) (annot : bool)
    (content : text) : outcome pstate :=
  match content with
  | [] => Ok {| p_events := []; p_result := kSuccess |}
  | _ =>
      if ch_is (last content ch_nl) ch_nl
      then parse_lines (S (List.length content)) sm cb annot 0
             {| p_events := []; p_result := kSuccess |} content
      else Ok {| p_events := []; p_result := kError |}
  end.
