(** Model of fpga/xilinx/bitstream.h (BitStream<kXC7>::Encode), and the decoder the
    library offers for its output (reader + InitWithPackets). *)
From Verif Require Import Base BitOps Frame Part Frames Packet Config Writer Reader.

(** bitstream.h:43 kGeneratorName *)
Definition kGeneratorName : text := tx "fpga-assembler".

(** bitstream.h:38-42: [converted_frames.emplace(FrameAddress(address), words)].
    The address is uint64_t in fpga::Frames (database.h:59-60) and is truncated to
    32 bits by the FrameAddress constructor; the first of two colliding addresses
    (in iteration order) wins. *)
Definition convert_frames (frames_data : list (N * frame)) : frame_map :=
  fold_left (fun m (kv : N * frame) => bt_insert (u32 (fst kv)) (snd kv) m) frames_data [].

(** bitstream.h:33-70 Encode.  [fuel] bounds AddMissingFrames and the word loop. *)
Definition encode (fuel : nat) (dp : db_part) (part_name source_name : text)
           (date time : text) (frames_data : list (N * frame)) (out : stream)
  : outcome stream :=
  let p := part_from dp in
  obind (add_missing_frames fuel p (convert_frames frames_data)) (fun fs =>
    let data := type2_data p fs in
    let ks := configuration_package data p in
    write_bitstream fuel ks part_name source_name kGeneratorName date time out).

(** Reading a bitstream back: BitstreamReader::InitWithBytes, iterate, and
    Configuration::InitWithPackets (as in bitstream-reader-xc7_test.cc and
    configuration-xc7_test.cc). *)
Definition decode (dp : db_part) (bytes : list N) : outcome (option frame_map) :=
  obind (init_with_bytes bytes) (fun ow =>
    match ow with
    | None => Ok None
    | Some ws => obind (reader_packets ws) (fun ks =>
        Ok (init_with_packets (part_from dp) ks))
    end).
