(** Model of configuration packets: fpga/xilinx/configuration-packet.h,
    arch-xc7-configuration-packet.{h,cc} and PacketHeader in bitstream-writer.cc.
    (The printers are in Print.v.) *)
From Verif Require Import Base BitOps.

(** configuration-packet.h:34-70: header type, opcode, register address, data.
    Enum values are numbers; a decoded opcode or address may lie outside the
    enumerators. *)
Record packet := {
  pk_type : N;
  pk_op : N;
  pk_addr : N;
  pk_data : list N
}.

(** configuration-packet.h:39-44 *)
Definition opNOP : N := 0.
Definition opRead : N := 1.
Definition opWrite : N := 2.

(** arch-xc7-configuration-packet.h:50-72 *)
Definition regCRC : N := 0x00.
Definition regFAR : N := 0x01.
Definition regFDRI : N := 0x02.
Definition regFDRO : N := 0x03.
Definition regCMD : N := 0x04.
Definition regCTL0 : N := 0x05.
Definition regMASK : N := 0x06.
Definition regSTAT : N := 0x07.
Definition regLOUT : N := 0x08.
Definition regCOR0 : N := 0x09.
Definition regMFWR : N := 0x0a.
Definition regCBC : N := 0x0b.
Definition regIDCODE : N := 0x0c.
Definition regAXSS : N := 0x0d.
Definition regCOR1 : N := 0x0e.
Definition regWBSTAR : N := 0x10.
Definition regTIMER : N := 0x11.
Definition regUNKNOWN : N := 0x13.
Definition regBOOTSTS : N := 0x16.
Definition regCTL1 : N := 0x18.
Definition regBSPI : N := 0x1F.

(** arch-xc7-configuration-packet.h:26-46 (commands used by the model) *)
Definition cmdNOP : N := 0x0.
Definition cmdWCFG : N := 0x1.
Definition cmdLFRM : N := 0x3.
Definition cmdSTART : N := 0x5.
Definition cmdRCRC : N := 0x7.
Definition cmdSWITCH : N := 0x9.
Definition cmdGRESTORE : N := 0xA.
Definition cmdDESYNC : N := 0xD.

(** configuration-packet.h:137-145 NopPacket *)
Definition nop_packet : packet :=
  {| pk_type := 1; pk_op := opNOP; pk_addr := regCRC; pk_data := [] |}.

(** configuration-packet.h:117-134 ConfigurationPacketWithPayload<1>, opcode
    kWrite. *)
Definition write1 (reg value : N) : packet :=
  {| pk_type := 1; pk_op := opWrite; pk_addr := reg; pk_data := [value] |}.

(** [data().length()], e.g. bitstream-writer.cc:45,52. *)
Definition length_N {A} (l : list A) : N := N.of_nat (length l).

(** bitstream-writer.cc:33-58 PacketHeader *)
Definition packet_header (p : packet) : N :=
  let ret := bit_field_set 32 0 31 29 (pk_type p) in
  if pk_type p =? 0 then ret
  else if pk_type p =? 1 then
    let ret := bit_field_set 32 ret 28 27 (pk_op p) in
    let ret := bit_field_set 32 ret 26 13 (pk_addr p) in
    bit_field_set 32 ret 10 0 (length_N (pk_data p))
  else if pk_type p =? 2 then
    let ret := bit_field_set 32 ret 28 27 (pk_op p) in
    bit_field_set 32 ret 26 0 (length_N (pk_data p))
  else ret.

(** arch-xc7-configuration-packet.cc:42-101 InitWithWordsImpl: returns the
    remaining words and the packet if any. *)
Definition init_with_words (words : list N) (previous : option packet)
  : list N * option packet :=
  match words with
  | [] => (words, None)
  | h :: rest =>
      let ty := bit_field_get 32 h 31 29 in
      if ty =? 0 then
        (rest, Some {| pk_type := ty; pk_op := opNOP; pk_addr := regCRC; pk_data := [] |})
      else if ty =? 1 then
        let op := bit_field_get 32 h 28 27 in
        let addr := bit_field_get 32 h 26 13 in
        let cnt := bit_field_get 32 h 10 0 in
        if length_N rest <? cnt then (words, None)
        else (skipn (N.to_nat cnt) rest,
              Some {| pk_type := ty; pk_op := op; pk_addr := addr;
                      pk_data := firstn (N.to_nat cnt) rest |})
      else if ty =? 2 then
        let op := bit_field_get 32 h 28 27 in
        let cnt := bit_field_get 32 h 26 0 in
        if length_N rest <? cnt then (words, None)
        else (skipn (N.to_nat cnt) rest,
              match previous with
              | Some q => Some {| pk_type := ty; pk_op := op; pk_addr := pk_addr q;
                                  pk_data := firstn (N.to_nat cnt) rest |}
              | None => None
              end)
      else ([], None)
  end.
