(** When a database directory is a newer edition of another one: nothing taken away, nothing re-defined. *)
From Verif Require Import Base Part DbText Database AsmSpec DbSpec LoadSpec EndSpec.

(** Bit [k] of the name has these segment bits; the name is a pseudo pip. *)
Definition has_bits (d : tile_db) (name : text) (k : N) (bus : bus_type) (l : list segment_bit) : Prop :=
  exists segs, maps_to (td_bits d) bus segs /\ maps_to segs (name, k) l.
Definition is_pip (d : tile_db) (name : text) : Prop := has_key (td_pips d) name.

(** [d'] is a newer edition of [d] for tile type [ty]: what [d] lists is still listed; a bit of a name that has segment bits gets no others; and a
    name that has segment bits does not become a pseudo pip (under the name of the type or of a tile). *)
Record grows (ty : text) (d d' : tile_db) : Prop := {
  gr_pips : forall n, is_pip d n -> is_pip d' n;
  gr_bits : forall n k bus l, has_bits d n k bus l -> has_bits d' n k bus l;
  gr_new_bits : forall n k bus l, has_bits d' n k bus l -> has_bits d n k bus l \/ forall bus0 l0, ~ has_bits d n k bus0 l0;
  gr_new_pips : forall head rest, head = ty \/ ~ In dot head -> is_pip d' (dotted head rest) ->
    is_pip d (dotted head rest) \/ forall k bus l, ~ has_bits d (dotted ty rest) k bus l
}.

(** Every tile type of the directory [root] of [e] is there in [e'], in a newer edition. *)
Definition newer (e e' : environment) (root : text) : Prop :=
  forall ty d, type_data e root ty d ->
    (exists d', type_data e' root ty d') /\ forall d', type_data e' root ty d' -> grows ty d d'.

(** A text that ends with its last line. *)
Definition full_lines (s : text) : Prop := s = [] \/ ends_in_newline s.
