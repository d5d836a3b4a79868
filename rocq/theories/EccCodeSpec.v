(** The code words of the frame error-correcting code, written down independently of the code that computes the
    check bits: a Hamming code extended by one parity bit. *)
From Verif Require Import Base Frame EccSpec.

(** Each of the 101 words of a frame stands for 32 consecutive code positions.  The words take the blocks of 32 from
    0x320 up to 0xFE0, in order; the blocks at 0x400 and 0x800 are left out because they hold a power of two. *)
Definition code_blocks : list N :=
  filter (fun b => negb (b =? 2 ^ N.log2 b)) (map (fun i => 32 * N.of_nat i) (seq 25 103)).

(** Check bit [i] of the twelve (word 50, bits 0..11) is at position 2^i; the thirteenth is the parity bit and has
    no position.  Every other bit of a frame is at its word's block plus its bit number. *)
Definition code_position (p : bitpos) : N :=
  if Nat.eqb (fst p) 50 && (snd p <? 13)
  then (if snd p <? 12 then 2 ^ snd p else 0)
  else nth (fst p) code_blocks 0 + snd p.

(** All bits of a frame, and those that are set in [f]. *)
Definition frame_bits : list bitpos := list_prod (seq 0 101) (map N.of_nat (seq 0 32)).
Definition set_bits (f : frame) : list bitpos := filter (frame_bit f) frame_bits.

(** A code word: the positions of the set bits sum to nothing, and their number is even. *)
Definition code_word (f : frame) : Prop :=
  fold_right N.lxor 0 (map code_position (set_bits f)) = 0 /\ Nat.Even (length (set_bits f)).
