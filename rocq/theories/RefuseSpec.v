(** When a database directory cannot be loaded, and when the command line is not usable. *)
From Verif Require Import Base Part DbText DbJson Database Assembler AsmSpec DbSpec JsonSpec LoadSpec.

Section Refuse.
  Context (e : environment) (root part : text).
  (** The tile grid of the fabric of the part. *)
  Definition grid_document (j : json) : Prop :=
    exists info fabdir content, part_listed e root part info /\ inside root (pi_fabric info) fabdir /\
      file_in e fabdir (tx "tilegrid.json") content /\ e_json e content = Some j.
  (** The description of the part. *)
  Definition part_document (j : json) : Prop :=
    exists partdir content, inside root part partdir /\ file_in e partdir (tx "part.json") content /\
      e_json e content = Some j.
  (** Loading aborts in the tile grid, or the grid is read, the directory can be walked and loading
      aborts in the part. *)
  Definition loading_aborts : Prop :=
    exists gj, grid_document gj /\
      (grid_aborts gj \/
       (exists g, json_grid gj g) /\ e_walk e root <> None /\ exists pj, part_document pj /\ part_aborts pj).
  (** The directory describes a database and can be walked. *)
  Definition loadable : Prop := e_walk e root <> None /\ exists g p pins, database_says e root part g p pins.
End Refuse.

(** The command line, before any file of the database is read. *)
Inductive unusable_command (c : command) : Prop :=
| more_than_one_file : (2 < List.length (c_args c))%nat -> unusable_command c
| path_not_given : db_path c = None -> unusable_command c
| path_not_there : forall root, db_path c = Some root -> root = [] \/ e_exists (c_env c) root = false -> unusable_command c
| part_not_given : c_part c = [] -> unusable_command c.
