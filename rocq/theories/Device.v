(** Model of the output at the level of single bytes: the order in which fpga-as sends bytes and positions to the file behind std::cout
    (bitstream-writer.h:158-188, bitstream.h:33-70, assembler.cc:374-452), and a device that has no room for all of them.  The code is that of
    Writer.v, Encode.v and Assembler.v; [P_Device] shows that without a limit it is the same program.  Buffering is not modelled: a buffer
    delays the operations but keeps their order. *)
From Verif Require Import Base BitOps Frame Part Frames Packet Config Writer Encode Fasm DbText DbJson Database Assembler.

(** What the file sees. *)
Inductive file_op := PutByte (b : N) | SetPos (pos : nat).
(** The stream, the operations that went through so far, and the size at which the device is full. *)
Record device := { d_stream : stream; d_ops : list file_op; d_room : option nat }.

(** A byte that has no room sets badbit (std::ostream::write, put). *)
Definition has_room (room : option nat) (s : stream) : bool :=
  match room with
  | None => true
  | Some r => match st_kind s with Seekable => (st_pos s <? r)%nat | _ => (List.length (st_bytes s) <? r)%nat end
  end.
Definition set_bad (s : stream) : stream := {| st_kind := st_kind s; st_bytes := st_bytes s; st_pos := st_pos s; st_fail := true |}.
(** One byte of out.write / out.put (bitstream-writer.h:166,177,185). *)
Definition d_put (d : device) (b : N) : device :=
  if st_fail (d_stream d) then d
  else if has_room (d_room d) (d_stream d)
  then {| d_stream := st_write [b] (d_stream d); d_ops := d_ops d ++ [PutByte b]; d_room := d_room d |}
  else {| d_stream := set_bad (d_stream d); d_ops := d_ops d; d_room := d_room d |}.
(** out.write (bitstream-writer.h:166) and the puts of a word (:177,185). *)
Definition d_write (bs : list N) (d : device) : device := fold_left d_put bs d.
(** out.seekp (bitstream-writer.h:183) *)
Definition d_seekp (pos : Z) (d : device) : device :=
  let s := st_seekp pos (d_stream d) in
  {| d_stream := s; d_ops := if st_fail s then d_ops d else d_ops d ++ [SetPos (Z.to_nat pos)]; d_room := d_room d |}.

(** bitstream-writer.h:158-188 writeBitstream *)
Definition device_bitstream (fuel : nat) (ks : list packet) (part_name source_name generator_name date time : text) (out : device) : outcome device :=
  let hdr := create_header part_name source_name generator_name date time in
  let out := d_write hdr out in
  let end_of_header_pos := st_tellp (d_stream out) in
  let header_data_length_pos := (end_of_header_pos - 4)%Z in
  obind (writer_words fuel ks) (fun ws =>
    let out := fold_left (fun o w => d_write (be_bytes w) o) ws out in
    let length_of_data := Z.to_N ((st_tellp (d_stream out) - end_of_header_pos) mod 2 ^ 32)%Z in
    let out := d_seekp header_data_length_pos out in
    let out := d_write (be_bytes length_of_data) out in
    Ok out).

(** bitstream.h:33-70 Encode *)
Definition device_encode (fuel : nat) (dp : db_part) (part_name source_name : text) (date time : text) (frames_data : list (N * frame)) (out : device) : outcome device :=
  let p := part_from dp in
  obind (add_missing_frames fuel p (convert_frames frames_data)) (fun fs =>
    device_bitstream fuel (configuration_package (type2_data p fs) p) part_name source_name kGeneratorName date time out).

(** assembler.cc:374-452 main, with stdout a device of limited room: status, device. *)
Definition device_program (room : option nat) (fuel : nat) (sm : shift_model) (ord : orders) (c : command) : outcome (N * device) :=
  let out := {| d_stream := c_stdout c; d_ops := []; d_room := room |} in
  let fail := Ok (1, out) in
  if (2 <? List.length (c_args c))%nat then fail
  else
    match db_path c with
    | None => fail
    | Some root =>
        if match root with [] => true | _ => negb (e_exists (c_env c) root) end then fail
        else
          match c_part c with
          | [] => fail
          | part =>
              match parse_database (c_env c) (o_load ord) root part with
              | Err => fail
              | Crash => Crash
              | UB => UB
              | NoFuel => NoFuel
              | Ok tls =>
                  match input_text c with
                  | None => fail
                  | Some input =>
                      match assemble_frames sm ord tls input with
                      | Err => fail
                      | Crash => Crash
                      | UB => UB
                      | NoFuel => NoFuel
                      | Ok frames =>
                          match device_encode fuel (tl_part tls) (tx "fasm") (tx "fpga-source") (c_date c) (c_time c) frames out with
                          | Err => fail
                          | Crash => Crash
                          | UB => UB
                          | NoFuel => NoFuel
                          | Ok d => Ok (0, d)
                          end
                      end
                  end
              end
          end
    end.
