(** A text that is accepted in place of the input of a command. *)
From Verif Require Import Base Part Fasm DbText DbJson Database Assembler AsmSpec DbSpec JsonSpec LoadSpec EndSpec.

(** Every run on this text that differs from [c] in the input only ends with status 0. *)
Definition accepted_alone (c : command) (t : text) : Prop :=
  forall ord c', good_orders ord ->
    c_db_flag c' = c_db_flag c -> c_db_env c' = c_db_env c -> c_part c' = c_part c -> c_env c' = c_env c ->
    c_date c' = c_date c -> c_time c' = c_time c -> c_stdout c' = c_stdout c -> (List.length (c_args c') <= 2)%nat -> input_text c' = Some t ->
    exists fuel0 s, forall fuel, (fuel0 <= fuel)%nat -> main_program fuel Iso ord c' = Ok (0, s).
(** No feature asks for STEPDOWN. *)
Definition no_stepdown (fs : list fasm_feature) : Prop :=
  forall f tile site tag, In f fs -> uses f tile site tag -> ~ contains (tx "STEPDOWN") tag.
