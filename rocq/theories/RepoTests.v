(** The repository's unit tests of fpga/xilinx, replayed on the model: evidence that the model reads the code as the tests do.
    (The one test over whole .bit files is not here: their 2 MB are too large a term.) *)
From Verif Require Import Base BitOps Frame Part PartList Frames Packet Config Writer Reader BigEndian P_PartList.

(** arch-xc7-frame_test.cc:23-48 *)
Example test_icap_crc :
  (icap_crc 0 0 0, icap_crc (N.shiftl 1 4) 0 0, icap_crc 0xFFFFFFFF 0xFFFFFFFF 0, icap_crc 0 0 0xFFFFFFFF) = (0, 0x82F63B78, 0xBF86D4DF, 0xC631E365).
Proof. vm_compute. reflexivity. Qed.
Example test_icap_ecc :
  (icap_ecc 0 0 0, icap_ecc 0 1 0, icap_ecc 7 1 0, icap_ecc 0x26 1 0, icap_ecc 0x32 0xFFFFFFFF 0, icap_ecc 0x64 0 1) = (0, 0x1320, 0x1420, 0x1820, 0x19AC, 0x1001).
Proof. vm_compute. reflexivity. Qed.

(** bit-ops_test.cc *)
Example test_bit_mask : (bit_mask 32 0, bit_mask 32 3) = (1, 8).
Proof. vm_compute. reflexivity. Qed.
Example test_bit_mask_range : (bit_mask_range 32 23 23, bit_mask_range 32 7 0, bit_mask_range 32 18 8) = (0x800000, 0xFF, 0x7FF00).
Proof. vm_compute. reflexivity. Qed.
Example test_bit_field_get : (bit_field_get 32 0xFFFFFFFF 23 23, bit_field_get 32 0xFFCCBBAA 7 0, bit_field_get 32 0xFFCCBBAA 18 8) = (1, 0xAA, 0x4BB).
Proof. vm_compute. reflexivity. Qed.
Example test_bit_field_set :
  (bit_field_set 32 0 23 23 1, bit_field_set 32 0 23 23 3, bit_field_set 32 0 18 8 0x123, bit_field_set 32 0 18 8 0x1234) = (0x800000, 0x800000, 0x12300, 0x23400).
Proof. vm_compute. reflexivity. Qed.

(** big-endian-span_test.cc *)
Example test_big_endian_span :
  (be_size 4 [], be_size 4 [0; 1; 2], be_size 4 [0; 1; 2; 3], be_size 4 [0; 1; 2; 3; 4; 5; 6; 7]) = (0, 0, 1, 2)%nat /\
  (be_at 4 [0; 1; 2; 3] 0, be_at 4 [0; 1; 2; 3; 4; 5; 6; 7] 0, be_at 4 [0; 1; 2; 3; 4; 5; 6; 7] 1) = (Ok 0x00010203, Ok 0x00010203, Ok 0x04050607) /\
  be_store 4 [0; 1; 2; 3] 0 0x04050607 = Ok [4; 5; 6; 7].
Proof. vm_compute. repeat split; reflexivity. Qed.

(** A part of a list of addresses, and what a test does with it. *)
Definition from_list {A} (idcode : N) (l : list N) (f : part -> A) : outcome A :=
  omap f (part_of by_insertion by_filter idcode l).
Definition fill (w : N) : frame := repeat w 101.

(** frames-xc7_test.cc:34-72 *)
Example test_fill_in_missing_frames :
  let addresses := map (fun m => fa_make kCLBIOCLK false 0 0 m) [0; 1; 2; 3; 4] in
  from_list 0x1234 addresses (fun p => add_missing_frames 100 p (bt_insert 4 (fill 0xEE) (bt_insert 3 (fill 0xDD) (bt_insert 2 (fill 0xCC) [])))) =
  Ok (Ok (combine addresses [fill 0; fill 0; fill 0xCC; fill 0xDD; fill 0xEE])).
Proof. vm_compute. reflexivity. Qed.

(** arch-xc7-configuration-packet_test.cc *)
Definition make_type1 (opcode address word_count : N) : N :=
  bit_field_set 32 (bit_field_set 32 (bit_field_set 32 (bit_field_set 32 0 31 29 1) 28 27 opcode) 26 13 address) 10 0 word_count.
Definition make_type2 (opcode word_count : N) : N :=
  bit_field_set 32 (bit_field_set 32 (bit_field_set 32 0 31 29 2) 28 27 opcode) 26 0 word_count.
Definition one_to_twelve : list N := [1; 2; 3; 4; 5; 6; 7; 8; 9; 10; 11; 12].
Example test_config_packet :
  init_with_words [] None = ([], None) /\
  init_with_words [bit_field_set 32 0 31 29 1] None = ([], Some {| pk_type := 1; pk_op := opNOP; pk_addr := regCRC; pk_data := [] |}) /\
  init_with_words [make_type1 1 2 2; 0xAA; 0xBB] None = ([], Some {| pk_type := 1; pk_op := opRead; pk_addr := regFDRI; pk_data := [0xAA; 0xBB] |}) /\
  init_with_words [make_type1 2 3 2; 0xAA; 0xBB] None = ([], Some {| pk_type := 1; pk_op := opWrite; pk_addr := regFDRO; pk_data := [0xAA; 0xBB] |}) /\
  init_with_words [make_type2 1 12] None = ([make_type2 1 12], None) /\
  init_with_words (make_type2 1 12 :: one_to_twelve) (Some {| pk_type := 1; pk_op := opRead; pk_addr := regMFWR; pk_data := [] |}) =
    ([], Some {| pk_type := 2; pk_op := opRead; pk_addr := regMFWR; pk_data := one_to_twelve |}).
Proof. vm_compute. repeat split; reflexivity. Qed.

(** bitstream-reader-xc7_test.cc *)
Definition sync : list N := [0xAA; 0x99; 0x55; 0x66].
Definition packets_of (bs : list N) : outcome (option (list packet)) :=
  obind (init_with_bytes bs) (fun o => match o with None => Ok None | Some ws => omap Some (reader_packets ws) end).
Example test_reader :
  packets_of [] = Ok None /\ packets_of sync = Ok (Some []) /\ packets_of ([0xFF; 0xFE] ++ sync) = Ok (Some []) /\
  packets_of ([0xFF; 0xFE; 0xFD; 0xFC] ++ sync) = Ok (Some []) /\
  packets_of (sync ++ [0x20; 0; 0; 0]) = Ok (Some [{| pk_type := 1; pk_op := opNOP; pk_addr := 0; pk_data := [] |}]) /\
  packets_of (sync ++ [0x40; 0; 0; 0]) = Ok (Some []) /\
  packets_of (sync ++ [0x28; 0; 0x60; 0; 0x48; 0; 0; 4; 1; 2; 3; 4; 5; 6; 7; 8; 9; 0xA; 0xB; 0xC; 0xD; 0xE; 0xF; 0x10]) =
    Ok (Some [{| pk_type := 1; pk_op := opRead; pk_addr := regFDRO; pk_data := [] |};
              {| pk_type := 2; pk_op := opRead; pk_addr := regFDRO; pk_data := [0x01020304; 0x05060708; 0x090A0B0C; 0x0D0E0F10] |}]).
Proof. vm_compute. repeat split; reflexivity. Qed.

(** bitstream-writer_test.cc; the packets are made by the parser as in the test. *)
Definition parsed (ws : list N) (previous : option packet) : list packet := match snd (init_with_words ws previous) with Some k => [k] | None => [] end.
Definition type0 : list packet := [{| pk_type := 0; pk_op := opNOP; pk_addr := regCRC; pk_data := [] |}].
Definition type1 : list packet := parsed [make_type1 2 3 2; 0xAA; 0xBB] None.
Definition type1e : list packet := parsed [make_type1 2 3 0] None.
(** The type 2 packet takes its register from [packets[0]], whatever that is. *)
Definition type2 (before : list packet) : list packet :=
  let ks := before ++ type1e in ks ++ parsed (make_type2 1 12 :: one_to_twelve) (hd_error ks).
Definition ref_header : list N :=
  [0xFFFFFFFF; 0xFFFFFFFF; 0xFFFFFFFF; 0xFFFFFFFF; 0xFFFFFFFF; 0xFFFFFFFF; 0xFFFFFFFF; 0xFFFFFFFF; 0x000000BB; 0x11220044; 0xFFFFFFFF; 0xFFFFFFFF; 0xAA995566].
Example test_writer :
  writer_words 100 [] = Ok ref_header /\
  writer_words 100 type0 = Ok (ref_header ++ [0]) /\
  writer_words 100 type1 = Ok (ref_header ++ [0x30006002; 0xAA; 0xBB]) /\
  writer_words 100 (type2 []) = Ok (ref_header ++ [0x30006000; 0x4800000C] ++ one_to_twelve) /\
  writer_words 100 (type2 (type1 ++ type1e) ++ type1e) =
    Ok (ref_header ++ [0x30006002; 0xAA; 0xBB] ++ [0x30006000] ++ [0x30006000; 0x4800000C] ++ one_to_twelve ++ [0x30006000]).
Proof. vm_compute. repeat split; reflexivity. Qed.

(** configuration-xc7_test.cc *)
Definition four_packets (address : N) (data : list N) : list packet :=
  [write1 regIDCODE 0x1234; write1 regFAR address; write1 regCMD 1; {| pk_type := 1; pk_op := opWrite; pk_addr := regFDRI; pk_data := data |}].
Example test_single_frame :
  from_list 0x1234 [0x4567; 0x4568] (fun p => init_with_packets p (four_packets 0x4567 (fill 0xAA))) = Ok (Some [(0x4567, fill 0xAA)]).
Proof. vm_compute. reflexivity. Qed.
Definition from_to (a : N) (n : nat) : list N := map (fun i => a + N.of_nat i) (seq 0 n).
Example test_autoincrement :
  from_list 0x1234 (from_to 0x4560 16 ++ from_to 0x4580 16) (fun p => init_with_packets p (four_packets 0x456F (fill 0xAA ++ fill 0xBB))) =
  Ok (Some [(0x456F, fill 0xAA); (0x4580, fill 0xBB)]).
Proof. vm_compute. reflexivity. Qed.
Example test_padding_frames :
  let addresses := [fa_make kCLBIOCLK false 0 0 0; fa_make kCLBIOCLK true 0 0 0; fa_make kCLBIOCLK true 1 0 0; fa_make kBlockRam false 0 0 0; fa_make kBlockRam false 1 0 0] in
  let frames := combine addresses (map fill [0xAA; 0xBB; 0xCC; 0xDD; 0xEE]) in
  from_list 0x1234 addresses (fun p => (List.length (type2_data p frames), init_with_packets p (four_packets 0 (type2_data p frames)))) =
  Ok ((15 * 101)%nat, Some frames).
Proof. vm_compute. reflexivity. Qed.

(** arch-xc7-part_test.cc *)
Example test_column :
  (col_valid 10 (fa_make kCLBIOCLK false 1 2 3), col_valid 10 (fa_make kCLBIOCLK false 1 2 10)) = (true, false) /\
  (col_next 10 (fa_make kCLBIOCLK false 1 2 3), col_next 10 (fa_make kCLBIOCLK false 1 2 9), col_next 10 (fa_make kCLBIOCLK false 1 2 10)) =
    (Some (fa_make kCLBIOCLK false 1 2 4), None, None).
Proof. vm_compute. repeat split; reflexivity. Qed.
Definition clb (h : bool) (r c m : N) : N := fa_make kCLBIOCLK h r c m.
Definition ram (h : bool) (r c m : N) : N := fa_make kBlockRam h r c m.
Example test_bus :
  omap (fun b => (map (bus_valid b) [ram false 0 0 0; ram false 0 1 1; ram false 0 0 2], map (bus_next b) [ram false 0 0 0; ram false 0 0 1; ram false 0 1 1]))
    (bus_of by_insertion [ram false 0 0 0; ram false 0 0 1; ram false 0 1 0; ram false 0 1 1]) =
  Ok ([true; true; false], [Some (ram false 0 0 1); Some (ram false 0 1 0); None]).
Proof. vm_compute. reflexivity. Qed.
Definition row_addresses : list N :=
  [clb false 0 0 0; clb false 0 0 1; clb false 0 1 0; clb false 0 1 1; ram false 0 0 0; ram false 0 0 1; ram false 0 0 2].
Example test_row :
  omap (fun r => (map (row_valid r) [clb false 0 0 0; clb false 0 1 0; ram false 0 0 2; clb false 0 0 2; clb false 0 2 0],
                  map (row_next r) [clb false 0 0 0; clb false 0 0 1; clb false 0 1 1; ram false 0 0 1; ram false 0 0 2]))
    (row_of by_insertion row_addresses) =
  Ok ([true; true; true; false; false], [Some (clb false 0 0 1); Some (clb false 0 1 0); None; Some (ram false 0 0 2); None]).
Proof. vm_compute. reflexivity. Qed.
Definition region_addresses : list N := row_addresses ++ [clb false 1 0 0; clb false 1 0 1].
Example test_region :
  omap (fun g => (map (region_valid g) [clb false 0 0 0; clb false 0 1 0; ram false 0 0 2; clb false 1 0 0; clb false 0 0 2; clb false 0 2 0; clb false 2 0 0; fa_make kCFGCLB false 0 0 2],
                  map (region_next g) [clb false 0 0 0; clb false 0 0 1; clb false 0 1 1; ram false 0 0 1; clb false 1 0 1; ram false 0 0 2]))
    (region_of_list by_insertion region_addresses) =
  Ok ([true; true; true; true; false; false; false; false],
      [Some (clb false 0 0 1); Some (clb false 0 1 0); Some (clb false 1 0 0); Some (ram false 0 0 2); None; None]).
Proof. vm_compute. reflexivity. Qed.
Example test_part :
  from_list 0x1234 (region_addresses ++ [clb true 0 0 0; clb true 0 0 1]) (fun p =>
    (map (part_valid p) [clb false 0 0 0; clb false 0 1 0; ram false 0 0 2; clb false 1 0 0; clb true 0 0 0;
                         clb false 0 0 2; clb false 0 2 0; clb false 2 0 0; fa_make kCFGCLB false 0 0 2; clb true 0 1 0],
     map (part_next p) [clb false 0 0 0; clb false 0 0 1; clb false 0 1 1; clb false 1 0 1; clb true 0 0 1; ram false 0 0 2])) =
  Ok ([true; true; true; true; true; false; false; false; false; false],
      [Some (clb false 0 0 1); Some (clb false 0 1 0); Some (clb false 1 0 0); Some (clb true 0 0 0); Some (ram false 0 0 0); None]).
Proof. vm_compute. reflexivity. Qed.
