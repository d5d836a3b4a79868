(** Where a reported feature or annotation stands in the text: the guarantee that
    fasm-parser.h:60-64 gives ("the strings handed out are backed by the content"). *)
From Verif Require Import Base Fasm FasmSpec.

(** [a] ends where a line begins. *)
Definition at_line_start (a : text) : Prop := a = [] \/ exists a', a = a' ++ newline.

(** The text [t], which begins with a line, has that feature name at its start: after blanks,
    and not followed by a further character of a name. *)
Definition names_first (name t : text) : Prop :=
  exists b m, t = b ++ name ++ m /\ blanks b /\ Forall is_name_char name
  /\ (forall c m', m = c :: m' -> ~ is_name_char c).

(** [t] has the annotation [an = "av"] literally, opened by a brace or a comma; [v] does not
    run over a newline and has no double quote but those after a backslash. *)
Definition annotation_stands (an av t : text) : Prop :=
  exists u o b0 b1 b2 m,
    t = u ++ [o] ++ b0 ++ an ++ b1 ++ tx "=" ++ b2 ++ dquote ++ av ++ dquote ++ m
    /\ (o = "{"%char \/ o = ","%char) /\ blanks b0 /\ blanks b1 /\ blanks b2
    /\ Forall is_name_char an /\ quotable "034" av.

(** What a line says when [t] is the text from its start. *)
Definition line_says (annot : bool) (t : text) (e : event) : Prop :=
  match e with
  | EFeature _ name _ _ _ => name <> [] /\ names_first name t
  | EAnnotation _ name an av =>
      annot = true /\ names_first name t
      /\ exists b m, t = b ++ name ++ m /\ blanks b /\ annotation_stands an av m
  end.

Definition event_line (e : event) : N :=
  match e with EFeature l _ _ _ _ => l | EAnnotation l _ _ _ => l end.

(** The number of complete lines of a text. *)
Definition newlines (a : text) : N := N.of_nat (count_occ ascii_dec a "010"%char).

(** Some line of [t] says so; the line number is at most that line's (a line cut after a single
    quote swallows the next one, which is then not counted). *)
Definition stands_in (annot : bool) (t : text) (e : event) : Prop :=
  exists a t', t = a ++ t' /\ at_line_start a /\ line_says annot t' e
               /\ event_line e <= 1 + newlines a.

Definition feature_of (e : event) : text :=
  match e with EFeature _ f _ _ _ => f | EAnnotation _ f _ _ => f end.
