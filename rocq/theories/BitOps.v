(** Model of fpga/xilinx/bit-ops.h (whole file, lines 14-49). *)
From Verif Require Import Base.

Section Width.
  (** [w] = number of bits of the template parameter [UInt] (unsigned). *)
  Variable w : N.

  (** bit-ops.h:14-17 [bit_mask]: [static_cast<UInt>(1) << bit]. *)
  Definition bit_mask (bit : N) : N := N.shiftl 1 bit mod 2 ^ w.

  (** bit-ops.h:24-27 [bit_all_ones]: [~static_cast<UInt>(0)]. *)
  Definition bit_all_ones : N := 2 ^ w - 1.

  (** bit-ops.h:29-34 [bit_mask_range].  The right operand is
      [all_ones - (1 << bottom) + 1], an unsigned computation modulo 2^w.
      [bit_sizeof] is bit-ops.h:19-22.  Out-of-range bit numbers are undefined
      shifts in C++; theorems assume [bottom <= top < w]. *)
  Definition bit_mask_range (top bottom : N) : N :=
    N.land (N.shiftr bit_all_ones (w - 1 - top))
           ((bit_all_ones - bit_mask bottom + 1) mod 2 ^ w).

  (** bit-ops.h:36-40 [bit_field_get]. *)
  Definition bit_field_get (value top bottom : N) : N :=
    N.shiftr (N.land value (bit_mask_range top bottom)) bottom.

  (** bit-ops.h:42-49 [bit_field_set]; [static_cast<UInt>(field_value)] truncates,
      the left shift of an unsigned value wraps. *)
  Definition bit_field_set (reg_value top bottom field_value : N) : N :=
    N.lor (N.ldiff reg_value (bit_mask_range top bottom))
          (N.land (N.shiftl (field_value mod 2 ^ w) bottom mod 2 ^ w)
                  (bit_mask_range top bottom)).
End Width.

(** The instance [UInt = int] (32-bit two's complement, C++20), which is what
    [bit_field_set(0, 25, 23, block_type)] in arch-xc7-frame.h:66 deduces because
    the first argument is the literal [0].  [~0 >> n] is an arithmetic shift, so the
    upper end of the mask is lost: the mask is [-(1 << bottom)].  The result is
    given as the 32-bit pattern it has after conversion to [uint32_t]. *)
Definition bit_mask_range_int (top bottom : Z) : Z :=
  Z.land (Z.shiftr (-1) (32 - 1 - top)) (-1 - Z.shiftl 1 bottom + 1).

(** bit-ops.h:42-49 [bit_field_set] with [UInt = int], as called at arch-xc7-frame.h:66. *)
Definition bit_field_set_int (reg_value : Z) (top bottom : Z) (field_value : N) : N :=
  let m := bit_mask_range_int top bottom in
  let v := Z.shiftl (Z.of_N field_value) bottom in
  Z.to_N (Z.lor (Z.land reg_value (Z.lnot m)) (Z.land v m) mod 2 ^ 32)%Z.
