(** Specification for the report files of run-clang-tidy-cached: their text. *)
From Verif Require Import Base DbSpec LoadLogSpec.

(** The detail file: for each source file with a non-empty output its path, a colon, a newline and the output. *)
Definition block (path output b : text) : Prop :=
  output = [] /\ b = [] \/ output <> [] /\ b = path ++ tx ":" ++ [ascii_of_N 10] ++ output.
Definition details (outputs : list (text * text)) (s : text) : Prop :=
  exists bs, Forall2 (fun o b => block (fst o) (snd o) b) outputs bs /\ s = concat bs.

(** A row of the summary: the count, right-aligned in five columns if it fits, a space, the name. *)
Definition row_text (name : text) (count : N) (r : text) : Prop :=
  exists blanks digits, r = blanks ++ digits ++ tx " " ++ name /\ (forall c, In c blanks -> c = " "%char) /\ decimal_text count digits /\
    ((List.length digits <= 5)%nat -> List.length (blanks ++ digits) = 5%nat) /\ ((5 < List.length digits)%nat -> blanks = []).
Definition rows_text (rows : list (text * N)) (s : text) : Prop :=
  exists ls, Forall2 (fun row l => row_text (fst row) (snd row) l) rows ls /\ s = flat_map (fun l => l ++ [ascii_of_N 10]) ls.
