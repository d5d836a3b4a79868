(** Specification of designs and of what a bitstream must contain. *)
From Verif Require Import Base Part PartSpec.

(** All frame addresses of a device, listed from its description. *)
Fixpoint count_up (n : nat) : list N :=
  match n with O => [] | S n' => count_up n' ++ [N.of_nat n'] end.
Fixpoint enum {A} (i : N) (l : list A) : list (N * A) :=
  match l with [] => [] | x :: l' => (i, x) :: enum (i + 1) l' end.
Definition half_frames (bottom : bool) (h : clock_region_half) : list N :=
  flat_map (fun rr => flat_map (fun bus => flat_map (fun cc =>
      map (fun m => address (bus_block (fst bus)) bottom (fst rr) (fst cc) m)
          (count_up (N.to_nat (snd cc))))
    (enum 0 (snd bus))) (snd rr)) (enum 0 h).
Definition device_frames (dp : db_part) : list N :=
  half_frames false (dp_top_rows dp) ++ half_frames true (dp_bottom_rows dp).

(** The content of address [a] in a frame set given as a list of pairs. *)
Fixpoint content (fd : list (N * list N)) (a : N) : option (list N) :=
  match fd with
  | [] => None
  | (k, f) :: fd' => if a =? k then Some f else content fd' a
  end.

(** A design: a map from frame addresses of the device to frames of 101 words. *)
Definition is_frame_content (f : list N) : Prop :=
  length f = 101%nat /\ Forall (fun w => w < 2 ^ 32) f.
Definition design (dp : db_part) (fd : list (N * list N)) : Prop :=
  NoDup (map fst fd) /\
  Forall (fun kv => is_frame_address dp (fst kv) /\ is_frame_content (snd kv)) fd.

(** A usable device: everything fits the address fields, frames are numbered without
    holes, frame 0 exists, the IDCODE is a 32-bit number and the payload fits a type 2
    packet. *)
Definition usable_device (dp : db_part) : Prop :=
  part_fits dp /\ no_holes dp /\ is_frame_address dp 0 /\ dp_idcode dp < 2 ^ 32 /\
  (length (device_frames dp) <= N.to_nat 400000)%nat.

(** What a device holds after being configured with a design: the given frames, zeros in
    every other frame of the device, nothing elsewhere. *)
Definition completed (dp : db_part) (fd : list (N * list N)) (a : N) : option (list N) :=
  match content fd a with
  | Some f => Some f
  | None => if existsb (N.eqb a) (device_frames dp) then Some (repeat 0 101) else None
  end.
