(** Model of fpga/xilinx/arch-xc7-frame.h and arch-xc7-frame.cc
    (the ostream printers, arch-xc7-frame.cc:11-31, are in Print.v). *)
From Verif Require Import Base BitOps.

(** arch-xc7-frame.h:32-35 frame_words_count<kBase>; frame.h:37-45 give the
    UltraScale (123) and UltraScale+ (93) values, which the assembler never uses
    (assembler.cc:443 instantiates kXC7 only). *)
Definition kWordsPerFrame : nat := 101.

(** arch-xc7-frame.h:50-56 enum class BlockType : unsigned int. *)
Definition kCLBIOCLK : N := 0.
(** arch-xc7-frame.h:52 *)
Definition kBlockRam : N := 1.
(** arch-xc7-frame.h:53 *)
Definition kCFGCLB : N := 2.
(** arch-xc7-frame.h:54 *)
Definition kReserved : N := 3.
(** arch-xc7-frame.h:55 *)
Definition kInvalid : N := 0xFFFFFFFF.

(** arch-xc7-frame.h:62-86 class FrameAddress: a 32-bit value. *)

(** arch-xc7-frame.h:64-71, constructor from fields.  Parameter types truncate:
    row and minor are uint8_t, column is uint16_t.  The first field write is the
    [int] instance of bit_field_set (literal 0), the others the [uint32_t] one. *)
Definition fa_make (block_type : N) (is_bottom_half_rows : bool)
           (row column minor : N) : N :=
  let v := bit_field_set_int 0 25 23 block_type in
  let v := bit_field_set 32 v 22 22 (N.b2n is_bottom_half_rows) in
  let v := bit_field_set 32 v 21 17 (u8 row) in
  let v := bit_field_set 32 v 16 7 (u16 column) in
  let v := bit_field_set 32 v 6 0 (u8 minor) in
  v.

(** arch-xc7-frame.h:75-77 *)
Definition fa_block_type (a : N) : N := bit_field_get 32 a 25 23.
(** arch-xc7-frame.h:78 *)
Definition fa_is_bottom (a : N) : bool := negb (bit_field_get 32 a 22 22 =? 0).
(** arch-xc7-frame.h:79 (the uint8_t conversion is lossless on 5 bits) *)
Definition fa_row (a : N) : N := u8 (bit_field_get 32 a 21 17).
(** arch-xc7-frame.h:80 *)
Definition fa_column (a : N) : N := u16 (bit_field_get 32 a 16 7).
(** arch-xc7-frame.h:81 *)
Definition fa_minor (a : N) : N := u8 (bit_field_get 32 a 6 0).

(** A frame: std::array<uint32_t, 101> (arch-xc7-frame.h:91-92), a list of
    [kWordsPerFrame] words. *)
Definition frame := list N.
(** frames.h:59: [FrameWords{}] / the value-initialised array of database.h:60. *)
Definition zero_frame : frame := repeat 0 kWordsPerFrame.

(** arch-xc7-frame.h:99 *)
Definition kECCFrameNumber : nat := 50.

(** arch-xc7-frame.cc:34-41: bit offset of the word, skipping power-of-two codes.
    [idx] is below 2^27 so the uint32_t products and sums do not wrap for frames. *)
Definition ecc_val (idx : N) : N :=
  u32 (u32 (idx * 32) +
       (if 0x25 <? idx then 0x1360 else if 0x6 <? idx then 0x1340 else 0x1320)).

(** arch-xc7-frame.cc:47-53: the bit loop [for (i = 0; i < 32; i++)]. *)
Fixpoint ecc_bits (n : nat) (i : N) (val word ecc : N) : N :=
  match n with
  | O => ecc
  | S n' =>
      let ecc' := if N.testbit word 0 then N.lxor ecc (u32 (val + i)) else ecc in
      ecc_bits n' (i + 1) val (N.shiftr word 1) ecc'
  end.

(** arch-xc7-frame.cc:54-61: parity of the low 12 bits into bit 12. *)
Definition ecc_parity (ecc : N) : N :=
  let v := N.land ecc 0xFFF in
  let v := N.lxor v (N.shiftr v 8) in
  let v := N.lxor v (N.shiftr v 4) in
  let v := N.lxor v (N.shiftr v 2) in
  let v := N.lxor v (N.shiftr v 1) in
  N.lxor ecc (N.shiftl (N.land v 1) 12).

(** arch-xc7-frame.cc:33-63 ICAPECC *)
Definition icap_ecc (idx word ecc : N) : N :=
  let val := ecc_val idx in
  let word := if idx =? 0x32 then N.land word 0xFFFFE000 else word in
  let ecc := ecc_bits 32 0 val word ecc in
  if idx =? 0x64 then ecc_parity ecc else ecc.

(** arch-xc7-frame.h:125-132 CalculateECC: the loop from index [i] on. *)
Fixpoint calc_ecc_from (i : N) (ws : list N) (ecc : N) : N :=
  match ws with
  | [] => ecc
  | w :: ws' => calc_ecc_from (i + 1) ws' (icap_ecc i w ecc)
  end.
(** arch-xc7-frame.h:125-132 CalculateECC *)
Definition calculate_ecc (ws : list N) : N := calc_ecc_from 0 ws 0.

(** words[n] = f(words[n]), as at arch-xc7-frame.h:137-141 *)
Fixpoint list_update {A} (n : nat) (f : A -> A) (l : list A) : list A :=
  match l, n with
  | [], _ => []
  | x :: l', O => f x :: l'
  | x :: l', S n' => x :: list_update n' f l'
  end.

(** arch-xc7-frame.h:136-142 UpdateECC.  The CHECK (size >= 50) always holds for
    101 words. *)
Definition update_ecc (ws : list N) : list N :=
  let ws1 := list_update kECCFrameNumber (fun w => N.land w 0xFFFFE000) ws in
  let ecc := calculate_ecc ws1 in
  list_update kECCFrameNumber (fun w => N.lor w (N.land ecc 0x1FFF)) ws1.

(** arch-xc7-frame.h:100,107-123 ICAPCRC.  The loop is over 5+32 = 37 bits of
    [addr:data], least significant first; arithmetic is on uint64_t and never
    overflows; the result is truncated to uint32_t on return. *)
Definition kCrcPoly : N := 0x82F63B78.

(** arch-xc7-frame.h:114-121: the bit loop. *)
Fixpoint crc_bits (n : nat) (val crc : N) : N :=
  match n with
  | O => crc
  | S n' =>
      let crc' := if xorb (N.testbit val 0) (N.testbit crc 0)
                  then N.lxor crc (N.shiftl kCrcPoly 1) else crc in
      crc_bits n' (N.shiftr val 1) (N.shiftr crc' 1)
  end.

(** arch-xc7-frame.h:107-123 ICAPCRC *)
Definition icap_crc (addr data prev : N) : N :=
  u32 (crc_bits 37 (u64 (N.lor (u64 (N.shiftl addr 32)) data)) prev).
