(** Which files of a database directory a run needs. *)
From Verif Require Import Base Absl Part DbText DbJson Database Assembler AsmSpec DbSpec JsonSpec LoadSpec.

Section Needed.
  Context (e : environment) (root part : text).
  (** The five files about the part. *)
  Inductive part_file : text -> Prop :=
  | part_file_parts : forall dir p, inside root (tx "mapping") dir -> inside dir (tx "parts.yaml") p -> part_file p
  | part_file_devices : forall dir p, inside root (tx "mapping") dir -> inside dir (tx "devices.yaml") p -> part_file p
  | part_file_grid : forall info dir p, part_listed e root part info -> inside root (pi_fabric info) dir -> inside dir (tx "tilegrid.json") p -> part_file p
  | part_file_part : forall dir p, inside root part dir -> inside dir (tx "part.json") p -> part_file p
  | part_file_pins : forall dir p, inside root part dir -> inside dir (tx "package_pins.csv") p -> part_file p.
  (** The files of a tile type, those that exist. *)
  Definition type_file (ty path : text) : Prop :=
    exists dir clb bram pips, type_dir e root ty dir /\ type_paths dir ty clb bram pips /\
      (path = clb \/ path = bram \/ path = pips) /\ e_exists e path = true.
  (** The names of the tile types: without dots, and different when written in lower case. *)
  Definition distinct_types : Prop :=
    forall all p p' dir dir' ty ty' low, e_walk e root = Some all -> In p all -> In p' all ->
      tile_type_file p dir ty -> tile_type_file p' dir' ty' -> ~ In dot ty /\ (lower ty low -> lower ty' low -> ty = ty').
End Needed.

(** Some feature with a 1 in its value is about a tile that is looked up under this type. *)
Definition uses_type (g : tilegrid) (design : fasm_feature -> Prop) (ty : text) : Prop :=
  exists f tile rest k t seen, design f /\ first_dot (ff_name f) tile rest /\ enables f k /\ maps_to g tile t /\ seen_as t rest ty seen.

(** The same directory and parser, with other contents in some files. *)
Definition same_directory (e e' : environment) : Prop :=
  (forall p, e_exists e' p = e_exists e p) /\ (forall p, e_walk e' p = e_walk e p) /\ (forall t, e_json e' t = e_json e t).
(** The same command in another environment. *)
Definition with_env (e : environment) (c : command) : command :=
  {| c_args := c_args c; c_db_flag := c_db_flag c; c_db_env := c_db_env c; c_part := c_part c; c_stdin := c_stdin c; c_open := c_open c;
     c_env := e; c_date := c_date c; c_time := c_time c; c_stdout := c_stdout c |}.
