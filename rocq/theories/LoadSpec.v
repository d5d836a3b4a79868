(** Which files of a database directory are used and what is taken from them. *)
From Verif Require Import Base Part DbText DbJson Database AsmSpec DbSpec JsonSpec.

(** ** Paths *)
Definition slash : ascii := "/"%char.
(** [dir]/[name]; an absolute name stands for itself. *)
Definition relative (name : text) : Prop := forall r, name <> slash :: r.
Inductive inside (dir name : text) : text -> Prop :=
| inside_absolute : ~ relative name -> inside dir name name
| inside_here : relative name -> dir = [] -> inside dir name name
| inside_slash : forall d, relative name -> dir = d ++ [slash] -> inside dir name (dir ++ name)
| inside_plain : relative name -> dir <> [] -> (forall d, dir <> d ++ [slash]) -> inside dir name (dir ++ slash :: name).

(** A tile type file and its directory. *)
Definition tile_type_file (path dir ty : text) : Prop :=
  exists d, path = d ++ slash :: tx "tile_type_" ++ ty ++ tx ".json" /\ ~ In slash ty /\
    (d = [] /\ dir = [slash] \/ d <> [] /\ dir = d).
(** ASCII lower case. *)
Definition lower_char (c c' : ascii) : Prop :=
  (65 <= N_of_ascii c <= 90 /\ N_of_ascii c' = N_of_ascii c + 32) \/
  (~ (65 <= N_of_ascii c <= 90) /\ c' = c).
Definition lower : text -> text -> Prop := Forall2 lower_char.

(** ** Contents *)
Definition segbits_content (content : text) (m : segbits) : Prop :=
  exists ls es, text_lines content ls /\ Forall2 seg_line ls es /\ collects (concat es) m.
Definition pips_content (content : text) (m : ppips) : Prop :=
  exists ls es, text_lines content ls /\ Forall2 pip_line ls es /\ collects (concat es) m.
Definition pins_content (content : text) (pins : list package_pin) : Prop :=
  content = [] /\ pins = [] \/
  exists h ls es, text_lines content (h :: ls) /\ pin_header h /\ Forall2 pin_row ls es /\ pins = concat es.

Section Files.
  Context (e : environment).
  (** The content of the file at a path. *)
  Definition file (path content : text) : Prop := e_read e path = Some content.
  Definition file_in (dir name : text) (content : text) : Prop := exists p, inside dir name p /\ file p content.
  (** No file is so large that its lines cannot be numbered, and all can be split. *)
  Definition sound_files : Prop := forall path content, file path content ->
    N.of_nat (List.length content) < 2 ^ 32 - 1 /\ splittable (after_mapping content) content.
  (** A file that need not exist. *)
  Inductive opt_file {A} (path : text) (says : text -> A -> Prop) : option A -> Prop :=
  | file_absent : e_exists e path = false -> opt_file path says None
  | file_present : forall content x, e_exists e path = true -> file path content -> says content x -> opt_file path says (Some x).

  (** ** A tile type *)
  Definition of_option {A} (o : option (list A)) : list A := match o with Some l => l | None => [] end.
  (** The three files of a tile type. *)
  Definition type_paths (dir ty clb bram pips : text) : Prop :=
    exists low, lower ty low /\
      inside dir (tx "segbits_" ++ low ++ tx ".db") clb /\
      inside dir (tx "segbits_" ++ low ++ tx ".block_ram.db") bram /\
      inside dir (tx "ppips_" ++ low ++ tx ".db") pips.
  (** What they say: segment bits for the configuration bus and for block RAM, pseudo pips. *)
  Definition type_says (clb bram pips : text) (d : tile_db) : Prop :=
    exists oc ob op, opt_file clb segbits_content oc /\ opt_file bram segbits_content ob /\ opt_file pips pips_content op /\
      td_pips d = of_option op /\
      (forall bus m, maps_to (td_bits d) bus m <-> (bus = BusCLBIOCLK /\ oc = Some m \/ bus = BusBlockRam /\ ob = Some m)).

  (** The directory used for a tile type: that of the first file of its name. *)
  Definition type_dir (root ty dir : text) : Prop :=
    exists all before path after, e_walk e root = Some all /\ all = before ++ path :: after /\
      tile_type_file path dir ty /\ forall p d, In p before -> ~ tile_type_file p d ty.

  (** ** The whole database *)
  (** [part] is listed in the tables of the mapping directory, all entries of which can be resolved. *)
  Definition part_listed (root part : text) (info : part_info) : Prop :=
    exists mapping parts devices esp esd ps, inside root (tx "mapping") mapping /\
      file_in mapping (tx "parts.yaml") parts /\ file_in mapping (tx "devices.yaml") devices /\
      yaml_document parts esp /\ yaml_document devices esd /\
      (forall k ps, In (k, ps) (named esd) -> has_key ps (tx "fabric")) /\
      (forall k ps, In (k, ps) (named esp) -> exists i, resolves esd ps i) /\
      maps_to (named esp) part ps /\ resolves esd ps info.
  Definition database_says (root part : text) (g : tilegrid) (p : db_part) (pins : list package_pin) : Prop :=
    exists info fabdir partdir gc gj pc pj csv,
      part_listed root part info /\
      inside root (pi_fabric info) fabdir /\ inside root part partdir /\
      file_in fabdir (tx "tilegrid.json") gc /\ e_json e gc = Some gj /\ json_grid gj g /\
      file_in partdir (tx "part.json") pc /\ e_json e pc = Some pj /\ json_part pj p /\
      file_in partdir (tx "package_pins.csv") csv /\ pins_content csv pins.
End Files.
