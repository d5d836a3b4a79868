(** CRC-32C as division of polynomials over GF(2), independent of the register that computes it. *)
From Verif Require Import Base EccSpec.

(** A polynomial is the number whose bit [i] is the coefficient of x^i; addition is xor. *)
Fixpoint pmul_pos (a : positive) (b : N) : N :=
  match a with
  | xH => b
  | xO a' => N.double (pmul_pos a' b)
  | xI a' => N.lxor b (N.double (pmul_pos a' b))
  end.
Definition pmul (a b : N) : N := match a with N0 => 0 | Npos p => pmul_pos p b end.
Definition congruent (p a b : N) : Prop := exists q, N.lxor a b = pmul q p.

(** The Castagnoli polynomial x^32 + x^28 + x^27 + x^26 + x^25 + x^23 + x^22 + x^20 + x^19 + x^18 + x^14
    + x^13 + x^11 + x^10 + x^9 + x^8 + x^6 + 1. *)
Definition castagnoli : N := 0x11EDC6F41.

(** The coefficients in a list, highest power first. *)
Definition poly (l : list bool) : N := fold_left (fun v b => 2 * v + N.b2n b) l 0.

(** The [n] low bits of a number, lowest first. *)
Definition low_bits (n : nat) (v : N) : list bool := map (fun i => N.testbit v (N.of_nat i)) (seq 0 n).

(** What goes over the wire for a sequence of register writes: of each the 32 data bits, then the 5 address
    bits, lowest first. *)
Definition wire (ws : list (N * N)) : list bool :=
  flat_map (fun w => low_bits 32 (snd w) ++ low_bits 5 (fst w)) ws.

(** The register as a polynomial: its bit 0 is the highest coefficient. *)
Definition register_poly (c : N) : N := poly (low_bits 32 c).

(** The sum of bits modulo 2. *)
Definition parity (l : list bool) : bool := fold_right xorb false l.

(** In how many positions two lists differ. *)
Fixpoint distance (l m : list bool) : nat :=
  match l, m with
  | a :: l', b :: m' => (if Bool.eqb a b then 0 else 1) + distance l' m'
  | _, _ => 0
  end.
