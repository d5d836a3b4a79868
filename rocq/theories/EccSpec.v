(** Small specification of the frame error-correcting code, independent of the code
    that computes it: positions, single-bit flips, the stored check bits. *)
From Verif Require Import Base Frame.

(** A bit position of a frame: word index below 101, bit index below 32. *)
Definition bitpos : Type := (nat * N)%type.
Definition bitpos_ok (p : bitpos) : Prop := (fst p < 101)%nat /\ snd p < 32.

(** Check bits: bits 0..12 of word 50; every other bit is payload. *)
Definition is_check (p : bitpos) : Prop := fst p = 50%nat /\ snd p < 13.
Definition is_payload (p : bitpos) : Prop := bitpos_ok p /\ ~ is_check p.

(** A frame: exactly 101 words of 32 bits. *)
Definition frame_ok (f : frame) : Prop :=
  length f = 101%nat /\ Forall (fun w => w < 2 ^ 32) f.

Definition frame_bit (f : frame) (p : bitpos) : bool := N.testbit (nth (fst p) f 0) (snd p).

(** [g] is [f] with exactly the bit at [p] inverted. *)
Definition flipped (p : bitpos) (f g : frame) : Prop :=
  frame_ok f /\ frame_ok g /\
  forall q, frame_bit g q = xorb (frame_bit f q)
                              (Nat.eqb (fst p) (fst q) && (snd p =? snd q)).

(** The check bits stored in a frame. *)
Definition stored_ecc (f : frame) : N := nth 50 f 0 mod 2 ^ 13.

(** ** Configuration CRC: a register updated by a sequence of writes. *)
Fixpoint reg_run {A} (step : A -> N -> N) (ws : list A) (c : N) : N :=
  match ws with
  | [] => c
  | w :: ws' => reg_run step ws' (step w c)
  end.

(** The CRC register after a sequence of register writes (address, data). *)
Definition crc_write (w : N * N) (c : N) : N := icap_crc (fst w) (snd w) c.
Definition crc_run : list (N * N) -> N -> N := reg_run crc_write.

Definition write_ok (w : N * N) : Prop := fst w < 2 ^ 5 /\ snd w < 2 ^ 32.
