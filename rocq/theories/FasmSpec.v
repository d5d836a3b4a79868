(** What a FASM text means, stated independently of the parser: the grammar of
    lines with arbitrary blanks, how a line is written ([item_text]) and which
    calls it must produce ([item_events]).  Only the type of calls ([event])
    is shared with the model. *)
From Verif Require Import Base Fasm.

Definition code (c : ascii) : N := N_of_ascii c.
Definition between (lo hi : N) (c : ascii) : Prop := lo <= code c <= hi.

Definition is_blank (c : ascii) : Prop := c = " "%char \/ c = "009"%char.
Definition blanks (b : text) : Prop := Forall is_blank b.

(** Letters, digits, '.', '_'. *)
Definition is_name_char (c : ascii) : Prop :=
  between 65 90 c \/ between 97 122 c \/ between 48 57 c
  \/ c = "."%char \/ c = "_"%char.

(** The value of a hexadecimal digit. *)
Definition digit_value (c : ascii) : option N :=
  let n := code c in
  if (48 <=? n) && (n <=? 57) then Some (n - 48)
  else if (97 <=? n) && (n <=? 102) then Some (n - 87)
  else if (65 <=? n) && (n <=? 70) then Some (n - 55)
  else None.

(** Digits of base [b], with '_' as a separator anywhere. *)
Definition numeral (b : N) (s : text) : Prop :=
  Forall (fun c => c = "_"%char \/ exists d, digit_value c = Some d /\ d < b) s.

(** The digits, separators dropped, most significant first. *)
Fixpoint numeral_digits (s : text) : list N :=
  match s with
  | [] => []
  | c :: r => match digit_value c with
              | Some d => d :: numeral_digits r
              | None => numeral_digits r
              end
  end.

Definition digits_value (b : N) (ds : list N) : N :=
  fold_left (fun a d => a * b + d) ds 0.

Definition numeral_value (b : N) (s : text) : N :=
  digits_value b (numeral_digits s).

Inductive radix : Type := Hex | Bin | Oct | Dec.
Definition radix_value (r : radix) : N :=
  match r with Hex => 16 | Bin => 2 | Oct => 8 | Dec => 10 end.
Definition radix_char (r : radix) : ascii :=
  match r with Hex => "h" | Bin => "b" | Oct => "o" | Dec => "d" end.

(** [hi] or [hi:lo], blanks anywhere inside. *)
Record range : Type := {
  r_b0 : text; r_hi : text; r_b1 : text;
  r_lo : option (text * text * text) (* blanks, digits, blanks after the ':' *)
}.

(** The right-hand side of '='. *)
Inductive rhs : Type :=
| Plain (digits b : text)                 (* = 42 *)
| Based (declared b1 b2 : text) (r : radix) (b3 digits b4 : text). (* = 8'hff *)

Record feature : Type := {
  f_name : text; f_b1 : text;
  f_range : option range; f_b2 : text;
  f_assign : option (text * rhs)          (* blanks after '=', value *)
}.

(** name = "value" *)
Record annotation : Type := {
  a_b0 : text; a_name : text; a_b1 : text; a_b2 : text;
  a_value : text; a_b3 : text
}.

(** What ends a line. *)
Inductive ending : Type :=
| EndNone
| EndComment (s : text)                    (* # ... *)
| EndCr (s : text)                         (* carriage return *)
| EndAnnot (first : annotation) (rest : list annotation) (junk : text).

Record item : Type := {
  i_b0 : text; i_feature : option feature; i_end : ending
}.

(** ** How it is written *)
Definition range_text (r : range) : text :=
  tx "[" ++ r_b0 r ++ r_hi r ++ r_b1 r
  ++ match r_lo r with
     | None => []
     | Some (b, lo, b') => tx ":" ++ b ++ lo ++ b'
     end ++ tx "]".

Definition rhs_text (v : rhs) : text :=
  match v with
  | Plain d b => d ++ b
  | Based w b1 b2 r b3 d b4 => w ++ b1 ++ tx "'" ++ b2 ++ [radix_char r] ++ b3 ++ d ++ b4
  end.

Definition feature_text (f : feature) : text :=
  f_name f ++ f_b1 f
  ++ match f_range f with None => [] | Some r => range_text r end
  ++ f_b2 f
  ++ match f_assign f with None => [] | Some (b, v) => tx "=" ++ b ++ rhs_text v end.

Definition dquote : text := ["034"%char].
Definition annotation_text (a : annotation) : text :=
  a_b0 a ++ a_name a ++ a_b1 a ++ tx "=" ++ a_b2 a
  ++ dquote ++ a_value a ++ dquote ++ a_b3 a.

Definition ending_text (e : ending) : text :=
  match e with
  | EndNone => []
  | EndComment s => tx "#" ++ s
  | EndCr s => ["013"%char] ++ s
  | EndAnnot a l junk =>
      tx "{" ++ annotation_text a
      ++ concat (map (fun x => tx "," ++ annotation_text x) l)
      ++ tx "}" ++ junk
  end.

Definition newline : text := ["010"%char].
Definition item_text (i : item) : text :=
  i_b0 i
  ++ match i_feature i with None => [] | Some f => feature_text f end
  ++ ending_text (i_end i) ++ newline.

(** ** Shape: which characters may stand where *)
Definition no_newline (s : text) : Prop := Forall (fun c => c <> "010"%char) s.

Definition range_shape (r : range) : Prop :=
  blanks (r_b0 r) /\ numeral 10 (r_hi r) /\ blanks (r_b1 r)
  /\ match r_lo r with
     | None => True
     | Some (b, lo, b') => blanks b /\ numeral 10 lo /\ blanks b'
     end.

Definition rhs_shape (v : rhs) : Prop :=
  match v with
  | Plain d b => numeral 10 d /\ blanks b
  | Based w b1 b2 r b3 d b4 =>
      numeral 10 w /\ blanks b1 /\ blanks b2 /\ blanks b3
      /\ numeral (radix_value r) d /\ blanks b4
  end.

Definition feature_shape (f : feature) : Prop :=
  f_name f <> [] /\ Forall is_name_char (f_name f) /\ blanks (f_b1 f)
  /\ match f_range f with None => True | Some r => range_shape r end
  /\ blanks (f_b2 f)
  /\ match f_assign f with None => True | Some (b, v) => blanks b /\ rhs_shape v end.

(** No newline, a quote only right after a backslash, no backslash at the end. *)
Fixpoint quotable (prev : ascii) (s : text) : Prop :=
  match s with
  | [] => prev <> "092"%char
  | c :: r => c <> "010"%char
              /\ (c = "034"%char -> prev = "092"%char)
              /\ quotable c r
  end.

Definition annotation_shape (a : annotation) : Prop :=
  blanks (a_b0 a) /\ Forall is_name_char (a_name a) /\ blanks (a_b1 a)
  /\ blanks (a_b2 a) /\ quotable "034"%char (a_value a) /\ blanks (a_b3 a).

Definition ending_shape (e : ending) : Prop :=
  match e with
  | EndNone => True
  | EndComment s | EndCr s => no_newline s
  | EndAnnot a l junk => Forall annotation_shape (a :: l) /\ no_newline junk
  end.

Definition item_shape (i : item) : Prop :=
  blanks (i_b0 i)
  /\ match i_feature i with None => True | Some f => feature_shape f end
  /\ ending_shape (i_end i).

(** ** Meaning *)
Definition range_hi (f : feature) : N :=
  match f_range f with None => 0 | Some r => numeral_value 10 (r_hi r) end.
Definition range_lo (f : feature) : N :=
  match f_range f with
  | None => 0
  | Some r => match r_lo r with
              | None => numeral_value 10 (r_hi r)
              | Some (_, lo, _) => numeral_value 10 lo
              end
  end.
Definition feature_width (f : feature) : N := range_hi f - range_lo f + 1.

Definition feature_value (f : feature) : N :=
  match f_assign f with
  | None => 1
  | Some (_, Plain d _) => numeral_value 10 d
  | Some (_, Based _ _ _ r _ d _) => numeral_value (radix_value r) d
  end.

(** The bits [64 i ... 64 i + 63] of a value of [width] bits, for every chunk
    [i] with [64 i < width], least significant chunk first. *)
Definition chunk_count (width : N) : N := (width + 63) / 64.
Definition chunk_event (line : N) (name : text) (lo width value i : N) : event :=
  let w := N.min 64 (width - 64 * i) in
  EFeature line name (lo + 64 * i) w ((value / 2 ^ (64 * i)) mod 2 ^ w).
Definition value_events (line : N) (name : text) (lo width value : N) : list event :=
  map (fun i => chunk_event line name lo width value (N.of_nat i))
      (seq 0 (N.to_nat (chunk_count width))).

Definition feature_events (line : N) (f : feature) : list event :=
  value_events line (f_name f) (range_lo f) (feature_width f) (feature_value f).

Definition annotation_event (line : N) (name : text) (a : annotation) : event :=
  EAnnotation line name (a_name a) (a_value a).

Definition item_name (i : item) : text :=
  match i_feature i with None => [] | Some f => f_name f end.

Definition item_events (line : N) (i : item) : list event :=
  match i_feature i with None => [] | Some f => feature_events line f end
  ++ match i_end i with
     | EndAnnot a l _ => map (annotation_event line (item_name i)) (a :: l)
     | _ => []
     end.

(** The worst message a line of good shape produces: a range without value is
    an information, a declared width larger than the range a warning. *)
Definition item_severity (i : item) : N :=
  match i_feature i with
  | None => kSuccess
  | Some f =>
      match f_assign f with
      | None => if range_lo f =? range_hi f then kSuccess else kInfo
      | Some (_, Plain _ _) => kSuccess
      | Some (_, Based w _ _ _ _ _ _) =>
          if feature_width f <? numeral_value 10 w then kNonCritical else kSuccess
      end
  end.

(** ** Numbers in range: indices fit 16 bits, the range is not inverted, a
    decimal or octal value fits 64 bits and stands for at most 64 bits, and a
    hexadecimal or binary value has as many digits as its range takes, rounded
    up to 64-bit chunks (for at most 64 bits: at most one chunk of digits). *)
Definition radix_bits (r : radix) : N := match r with Hex => 4 | _ => 1 end.
Definition rhs_in_range (width : N) (v : rhs) : Prop :=
  match v with
  | Plain d _ => numeral_value 10 d < 2 ^ 64 /\ width <= 64
  | Based w _ _ r _ d _ =>
      numeral_value 10 w < 2 ^ 64
      /\ match r with
         | Oct | Dec => numeral_value (radix_value r) d < 2 ^ 64 /\ width <= 64
         | Hex | Bin =>
             let bits := radix_bits r * N.of_nat (List.length (numeral_digits d)) in
             if width <=? 64 then bits <= 64
             else bits = 64 * chunk_count width
         end
  end.

Definition feature_in_range (f : feature) : Prop :=
  range_hi f < 2 ^ 16 /\ range_lo f <= range_hi f
  /\ match f_assign f with
     | None => feature_width f <= 64
     | Some (_, v) => rhs_in_range (feature_width f) v
     end.

Definition item_in_range (i : item) : Prop :=
  match i_feature i with None => True | Some f => feature_in_range f end.

(** ** Whole files *)
Definition file_text (l : list item) : text := concat (map item_text l).

Fixpoint file_events (line : N) (l : list item) : list event :=
  match l with
  | [] => []
  | i :: l' => item_events line i ++ file_events (line + 1) l'
  end.

Definition file_severity (l : list item) : N :=
  fold_left N.max (map item_severity l) 0.

(** ** Arbitrary texts *)

(** A callback that always asks for more. *)
Definition agrees (cb : list event -> bool) : Prop := forall h, cb h = true.

(** A text that ends in a single quote followed by blanks only. *)
Definition tick_ended (p : text) : Prop :=
  exists u b, p = u ++ "'"%char :: b /\ blanks b.


(** A text made of complete lines. *)
Definition unlines (ps : list text) : text := concat (map (fun p => p ++ newline) ps).

Definition good_line (p : text) : Prop := no_newline p /\ ~ tick_ended p.

(** Newline-terminated texts are the texts of lists of lines. *)
Definition nl_text (t : text) : Prop := t = [] \/ last t "010"%char = "010"%char.


(** The same call, for a line [k] lines further down (32-bit line numbers). *)
Definition shift_event (k : N) (e : event) : event :=
  match e with
  | EFeature l f s w b => EFeature (u32 (l + k)) f s w b
  | EAnnotation l f n v => EAnnotation (u32 (l + k)) f n v
  end.


(** A feature call whose width is between 1 and 64. *)
Definition sane_event (e : event) : Prop :=
  match e with EFeature _ _ _ w _ => 1 <= w <= 64 | _ => True end.


(** Feature calls that put a value together, least significant bits first: each
    call is for 1 to 64 bits, starts where the previous one stopped and carries
    the next bits of the value. *)
Inductive pieces (line : N) (name : text) : N -> N -> N -> list event -> Prop :=
| pieces_nil : forall at_, pieces line name at_ at_ 0 []
| pieces_cons : forall at_ stop w value l,
    1 <= w <= 64 ->
    pieces line name (at_ + w) stop (value / 2 ^ w) l ->
    pieces line name at_ stop value
      (EFeature line name at_ w (value mod 2 ^ w) :: l).

(** Only the last call is for fewer than 64 bits. *)
Definition full_but_last (l : list event) : Prop :=
  forall a ln n s w v b, l = a ++ EFeature ln n s w v :: b -> b <> [] -> w = 64.

Definition one_item_text (b0 : text) (f : feature) : text :=
  item_text {| i_b0 := b0; i_feature := Some f; i_end := EndNone |}.

(** A text with one newline, at its end. *)
Definition one_line (l : text) : Prop := exists p, no_newline p /\ l = p ++ newline.

(** A line with an inverted range: blanks, a name, blanks, the range, anything. *)
Definition skipped_line (line : text) : Prop :=
  exists b0 name b1 rg hi lo rest,
    line = b0 ++ name ++ b1 ++ range_text rg ++ rest ++ newline /\
    blanks b0 /\ name <> [] /\ Forall is_name_char name /\ blanks b1 /\ range_shape rg /\ no_newline rest /\
    hi = numeral_value 10 (r_hi rg) /\
    (exists b t b', r_lo rg = Some (b, t, b') /\ lo = numeral_value 10 t) /\
    hi mod 2 ^ 16 < lo mod 2 ^ 16.
