(** Files that are replaced while the program runs.
    [seen i path]: what the file [path] holds (None: it cannot be opened) at the moment of the run's open number [i]; a file once opened keeps its
    bytes: a replacement by rename leaves the mapped file alone (database files written over in place are not covered). *)
From Verif Require Import Base Absl Part Fasm Database Assembler OpensSpec Opens.

Definition sight := nat -> text -> option text.

(** A fixed directory [e] that explains a run: same entries, and every file the run opens on it holds what is seen at that moment. *)
Definition snapshot (sm : shift_model) (ord : orders) (c : command) (seen : sight) (e : environment) : Prop :=
  same_directory (c_env c) e /\
  forall i path, nth_error (main_opens sm ord (with_env e c)) i = Some path -> e_read e path = seen i path.

(** One replacement: before open number [k] the old contents, from then on the new ones. *)
Definition replaced_at (k : nat) (old new : text -> option text) : sight := fun i path => if (i <? k)%nat then old path else new path.
