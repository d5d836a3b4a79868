(** When two database directories say the same, in another order or another form, and when a JSON text is another one re-ordered. *)
From Verif Require Import Base Part DbText DbJson Database Assembler AsmSpec DbSpec JsonSpec LoadSpec EndSpec SameSpec GrowthSpec.
From Coq Require Import Permutation.

(** The same names are pseudo pips, the same bits of the same names have the same segment bits, in any order. *)
Record same_contents (d d' : tile_db) : Prop := {
  sd_pips : forall n, is_pip d n <-> is_pip d' n;
  sd_bits : forall n k bus l, has_bits d n k bus l -> exists l', has_bits d' n k bus l' /\ forall sb, In sb l <-> In sb l';
  sd_back : forall n k bus l', has_bits d' n k bus l' -> exists l, has_bits d n k bus l /\ forall sb, In sb l <-> In sb l'
}.
(** The tile types of two directories. *)
Definition same_types (e : environment) (root : text) (e' : environment) (root' : text) : Prop :=
  (forall ty d, type_data e root ty d -> exists d', type_data e' root' ty d' /\ same_contents d d') /\
  (forall ty d', type_data e' root' ty d' -> exists d, type_data e root ty d /\ same_contents d d').
(** The package: the same tiles in the same banks; if the order differs, no tile is in two banks. *)
Definition in_pins (pins : list package_pin) (bank : N) (tile : text) : Prop := exists q, In q pins /\ pp_bank q = bank /\ pp_tile q = tile.
Definition same_pins (pins pins' : list package_pin) : Prop :=
  pins' = pins \/
  (forall bank tile, in_pins pins bank tile <-> in_pins pins' bank tile) /\
  (forall bank bank' tile, in_pins pins bank tile -> in_pins pins bank' tile -> bank = bank').

Record same_database (e : environment) (root : text) (g : tilegrid) (p : db_part) (pins : list package_pin)
    (e' : environment) (root' : text) (g' : tilegrid) (p' : db_part) (pins' : list package_pin) : Prop := {
  sb_grid : same_grid g g';
  sb_part : same_part p p';
  sb_pins : same_pins pins pins';
  sb_types : same_types e root e' root'
}.

(** A name as a C string sees it. *)
Fixpoint before_nul (s : text) : text :=
  match s with [] => [] | c :: r => if Ascii.eqb c nul then [] else c :: before_nul r end.
(** The members of the objects of a JSON value in another order, at any depth; no object has a name twice. *)
Inductive reordered : json -> json -> Prop :=
| re_same : forall j, reordered j j
| re_members : forall l l' l'', NoDup (map (fun kv => before_nul (fst kv)) l) ->
    Forall2 (fun kv kv' => fst kv = fst kv' /\ reordered (snd kv) (snd kv')) l l' -> Permutation l' l'' ->
    reordered (JObj l) (JObj l'').

(** A key is given under one name only. *)
Definition one_name {K} (key : text -> K -> Prop) (j : json) : Prop :=
  forall l s s' k, j = JObj l -> In s (map fst l) -> In s' (map fst l) -> key s k -> key s' k -> before_nul s = before_nul s'.

(** The lines of a text in another order. *)
Definition lines_moved (content content' : text) : Prop :=
  exists ls ls', text_lines content ls /\ text_lines content' ls' /\ Permutation ls ls'.
(** No entry is given twice. *)
Definition no_repeats {A K} (line : text -> list (K * A) -> Prop) (content : text) : Prop :=
  forall ls es, text_lines content ls -> Forall2 line ls es -> NoDup (map fst (concat es)).
(** Two files that need not exist: neither does, or the lines of the one are those of the other in another order, and no entry is given twice. *)
Definition moved_file {A K} (line : text -> list (K * A) -> Prop) (e : environment) (q : text) (e' : environment) (q' : text) : Prop :=
  e_exists e q = e_exists e' q' /\
  (forall c, file e q c -> no_repeats line c /\ exists c', file e' q' c' /\ lines_moved c c') /\
  (forall c', file e' q' c' -> exists c, file e q c /\ lines_moved c c').
(** The tile types of the one directory are those of the other, with moved files. *)
Definition moved_types (e : environment) (root : text) (e' : environment) (root' : text) : Prop :=
  (forall ty dir, type_dir e root ty dir -> exists dir', type_dir e' root' ty dir') /\
  (forall ty dir', type_dir e' root' ty dir' -> exists dir, type_dir e root ty dir) /\
  (forall ty dir dir' clb bram pips clb' bram' pips', type_dir e root ty dir -> type_dir e' root' ty dir' ->
     type_paths dir ty clb bram pips -> type_paths dir' ty clb' bram' pips' ->
     moved_file seg_line e clb e' clb' /\ moved_file seg_line e bram e' bram' /\ moved_file pip_line e pips e' pips').
