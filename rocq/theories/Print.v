(** Model of the textual output of the library: PrintHeader and PrintFpgaConfigurationLogicData
    (bitstream-reader.h), PrintFrameAddresses (configuration.h), operator<< of frame addresses and block
    types (arch-xc7-frame.cc) and of configuration registers (arch-xc7-configuration-packet.cc).  The
    text is what is written to the FILE* or ostream, which is taken to be in its default state (dec,
    width 0, fill ' ', no showbase). *)
From Verif Require Import Base BitOps Frame Part Packet Config Reader Absl.

(** Conversion to base 16, as by printf("%X"/"%x") (bitstream-reader.h:108,117,139). *)
Definition hex_char (upper : bool) (d : N) : ascii :=
  ascii_of_N (if d <? 10 then 48 + d else (if upper then 55 else 87) + d).
(** The digits, most significant first (bitstream-reader.h:108). *)
Fixpoint hex_fuel (upper : bool) (fuel : nat) (n : N) (acc : text) : text :=
  let acc := hex_char upper (n mod 16) :: acc in
  match fuel with
  | O => acc
  | S fuel' => if n <? 16 then acc else hex_fuel upper fuel' (n / 16) acc
  end.
(** All digits of a number (bitstream-reader.h:108, arch-xc7-frame.cc:24). *)
Definition hex_text (upper : bool) (n : N) : text := hex_fuel upper (N.to_nat (N.log2 n)) n [].
(** A minimal field width: padded on the left (arch-xc7-frame.cc:22-32 std::setw, printf "%08X"). *)
Definition pad (width : nat) (c : ascii) (t : text) : text := repeat c (width - List.length t) ++ t.
(** printf("%0<width>X") (bitstream-reader.h:108,117,139, configuration.h:230-236) *)
Definition zero_hex (width : nat) (n : N) : text := pad width "0"%char (hex_text true n).

(** The \n of bitstream-reader.h:110,119,141 and configuration.h:234. *)
Definition newline : text := [ascii_of_N 10].

(** bitstream-reader.h:122-142 PrintHeader: the bytes up to and with the first sync word; nothing if
    there is none.  The bytes are uint8_t. *)
Definition print_header (bs : list N) : text :=
  match after_sync bs with
  | None => []
  | Some rest =>
      tx "Header bytes:" ++ flat_map (fun b => tx " " ++ zero_hex 2 b) (firstn (List.length bs - List.length rest) bs) ++ newline
  end.

(** std::search for a pair of words (bitstream-reader.h:104-105): the elements before the first occurrence (all, if there is none). *)
Fixpoint before_pair (a b : N) (ws : list N) : list N :=
  match ws with
  | x :: (y :: _) as r => if (x =? a) && (y =? b) then [] else x :: before_pair a b r
  | _ => ws
  end.
(** std::find_end for a pair of words (bitstream-reader.h:113-114): the elements from the last occurrence on (none, if there is none). *)
Fixpoint from_last_pair (a b : N) (ws : list N) : list N :=
  match ws with
  | x :: (y :: _) as r =>
      match from_last_pair a b r with
      | [] => if (x =? a) && (y =? b) then ws else []
      | s => s
      end
  | _ => []
  end.
(** bitstream-reader.h:100-120 PrintFpgaConfigurationLogicData; :181-191 kWcfgCmd, kNullCmd *)
Definition print_logic_data (ws : list N) : text :=
  tx "FPGA configuration logic prefix:" ++ flat_map (fun w => tx " " ++ zero_hex 8 w) (before_pair 0x30008001 0x1 ws) ++ newline ++
  tx "FPGA configuration logic suffix:" ++ flat_map (fun w => tx " " ++ zero_hex 8 w) (from_last_pair 0x30008001 0x0 ws) ++ newline.

(** configuration.h:227-238 PrintFrameAddresses; the loop over the frame map. *)
Fixpoint print_addresses (l : list N) : text :=
  match l with
  | [] => []
  | a :: r => zero_hex 8 a ++ match r with [] => newline | _ => tx " " end ++ print_addresses r
  end.
(** configuration.h:227-238 PrintFrameAddresses *)
Definition print_frame_addresses {A} (frames : btmap A) : text :=
  tx "Frame addresses in bitstream: " ++ print_addresses (bt_keys frames).

(** arch-xc7-frame.cc:11-20 operator<<(BlockType): other values print nothing. *)
Definition block_type_text (b : N) : text :=
  if b =? 0 then tx "CLB/IO/CLK" else if b =? 1 then tx "Block RAM" else if b =? 2 then tx "Config CLB"
  else if b =? 3 then tx "Reserved" else if b =? 0xFFFFFFFF then tx "Invalid" else [].
(** std::hex << std::showbase (arch-xc7-frame.cc:22-32): zero has no prefix. *)
Definition showbase_hex (n : N) : text := if n =? 0 then tx "0" else tx "0x" ++ hex_text false n.
(** arch-xc7-frame.cc:22-32 operator<<(FrameAddress) *)
Definition frame_address_text (a : N) : text :=
  tx "[" ++ pad 10 " "%char (showbase_hex a) ++ tx "] " ++ (if fa_is_bottom a then tx "BOTTOM" else tx "TOP")
  ++ tx " Row=" ++ pad 2 " "%char (dec_text (fa_row a)) ++ tx " Column=" ++ pad 2 " "%char (dec_text (fa_column a))
  ++ tx " Minor=" ++ pad 2 " "%char (dec_text (fa_minor a)) ++ tx " Type=" ++ block_type_text (fa_block_type a).

(** arch-xc7-configuration-packet.cc:15-41 operator<<(ConfigurationRegister), with the numbers of
    arch-xc7-configuration-packet.h. *)
Definition register_text (r : N) : text :=
  if r =? regCRC then tx "CRC" else if r =? regFAR then tx "Frame Address" else if r =? regFDRI then tx "Frame Data Input"
  else if r =? regFDRO then tx "Frame Data Output" else if r =? regCMD then tx "Command" else if r =? regCTL0 then tx "Control 0"
  else if r =? regMASK then tx "Mask for CTL0 and CTL1" else if r =? regSTAT then tx "Status" else if r =? regLOUT then tx "Legacy Output"
  else if r =? regCOR0 then tx "Configuration Option 0" else if r =? regMFWR then tx "Multiple Frame Write"
  else if r =? regCBC then tx "Initial CBC Value" else if r =? regIDCODE then tx "Device ID" else if r =? regAXSS then tx "User Access"
  else if r =? regCOR1 then tx "Configuration Option 1" else if r =? regWBSTAR then tx "Warm Boot Start Address"
  else if r =? regTIMER then tx "Watchdog Timer" else if r =? regBOOTSTS then tx "Boot History Status" else if r =? regCTL1 then tx "Control 1"
  else if r =? regBSPI then tx "BPI/SPI Configuration Options" else tx "Unknown".
