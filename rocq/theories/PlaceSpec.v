(** Where the bits of a frame lie in a .bit file: only the frames of the device decide. *)
From Verif Require Import Base Part PartSpec ConfigSpec.

(** The frames of the device below [a], in order. *)
Definition frames_below (p : db_part) (a : N) (l : list N) : Prop :=
  StronglySorted N.lt l /\ forall x, In x l <-> is_frame_address p x /\ x < a.
(** The device rows (block type, half and row) with frames that come before the row of [a]. *)
Definition rows_below (p : db_part) (a : N) (l : list N) : Prop :=
  StronglySorted N.lt l /\ forall r, In r l <-> r < device_row a /\ exists x, is_frame_address p x /\ device_row x = r.
(** Frame [a] comes after [k] words of payload: 101 for each frame below, 202 for each row before. *)
Definition frame_place (p : db_part) (a k : N) : Prop :=
  exists fs rs, frames_below p a fs /\ rows_below p a rs /\
    k = 101 * N.of_nat (List.length fs) + 202 * N.of_nat (List.length rs).

(** The byte of the file with bit [i] of word [w] of a frame at place [k]: words are written high byte first, after 328 bytes of
    header and commands.  In the byte it is bit [i mod 8]. *)
Definition byte_place (k w i : N) : N := 328 + 4 * (k + w) + (3 - i / 8).

(** All frames and all rows of a device. *)
Definition all_frames (p : db_part) (l : list N) : Prop :=
  StronglySorted N.lt l /\ forall x, In x l <-> is_frame_address p x.
Definition all_rows (p : db_part) (l : list N) : Prop :=
  StronglySorted N.lt l /\ forall r, In r l <-> exists x, is_frame_address p x /\ device_row x = r.
