(** When two readings of a database directory differ only in the iteration order of their hash
    containers, and what makes the order irrelevant to the program. *)
From Verif Require Import Base Part DbText DbJson Database AsmSpec.

(** The same keys with related values, in any order. *)
Definition same_entries {K A} (R : A -> A -> Prop) (m m' : list (K * A)) : Prop :=
  NoDup (map fst m) /\ NoDup (map fst m') /\
  (forall k x, maps_to m k x -> exists x', maps_to m' k x' /\ R x x') /\
  (forall k x', maps_to m' k x' -> exists x, maps_to m k x /\ R x x').

Definition same_alias (a a' : bits_alias) : Prop :=
  same_entries eq (al_sites a) (al_sites a') /\
  al_start_offset a = al_start_offset a' /\ al_type a = al_type a'.
Definition same_block (b b' : bits_block) : Prop :=
  bb_base b = bb_base b' /\ bb_frames b = bb_frames b' /\ bb_offset b = bb_offset b' /\ bb_words b = bb_words b' /\
  match bb_alias b, bb_alias b' with
  | Some a, Some a' => same_alias a a'
  | None, None => True
  | _, _ => False
  end.
Definition same_tile (t t' : tile) : Prop :=
  t_type t = t_type t' /\ t_x t = t_x t' /\ t_y t = t_y t' /\ t_clock_region t = t_clock_region t' /\
  t_prohibited t = t_prohibited t' /\
  same_entries same_block (t_bits t) (t_bits t') /\
  same_entries eq (t_pin_functions t) (t_pin_functions t') /\
  same_entries eq (t_sites t) (t_sites t').
Definition same_grid (g g' : tilegrid) : Prop := same_entries same_tile g g'.

Definition same_part (p p' : db_part) : Prop :=
  dp_idcode p = dp_idcode p' /\
  same_entries eq (dp_iobanks p) (dp_iobanks p') /\
  Forall2 (same_entries eq) (dp_bottom_rows p) (dp_bottom_rows p') /\
  Forall2 (same_entries eq) (dp_top_rows p) (dp_top_rows p').

(** At most one pin of the device is PUDC_B. *)
Definition one_pudcb (g : tilegrid) : Prop :=
  forall tile site tile' site', pudcb_pin g tile site -> pudcb_pin g tile' site' -> tile = tile' /\ site = site'.
(** No two I/O banks share their HCLK tile. *)
Definition distinct_banks (p : db_part) : Prop := NoDup (map snd (dp_iobanks p)).
