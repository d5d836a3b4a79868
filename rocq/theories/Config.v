(** Model of fpga/xilinx/configuration.h and configuration.cc
    (the printers of configuration.h:227-238 are in Print.v). *)
From Verif Require Import Base BitOps Frame Part Frames Packet.

(** configuration.h:68 kZeroFramesSeparatorWords *)
Definition zero_separator : list N := repeat 0 (kWordsPerFrame * 2)%nat.

(** configuration.h:74-79, :209-214: does the next address start another row? *)
Definition row_change (a a' : N) : bool :=
  negb (fa_block_type a' =? fa_block_type a)
  || negb (Bool.eqb (fa_is_bottom a') (fa_is_bottom a))
  || negb (fa_row a' =? fa_row a).

(** configuration.h:69-82: the body of the loop for one frame. *)
Definition type2_frame (p : part) (kv : N * frame) : list N :=
  snd kv ++ match part_next p (fst kv) with
            | Some a' => if row_change (fst kv) a' then zero_separator else []
            | None => []
            end.

(** configuration.h:61-85 CreateType2ConfigurationPacketData *)
Definition type2_data (p : part) (fs : frame_map) : list N :=
  flat_map (type2_frame p) fs ++ zero_separator.

(** configuration.cc:53-67 with arch-xc7-configuration-packet.h:97-191: the COR0
    value.  [ConfigurationOptions0Value()] value-initialises value_ to 0. *)
Definition cor0_value : N :=
  let v := 0 in
  let v := bit_field_set 32 v 25 25 1 in  (* SetAddPipelineStageForDoneIn(true) *)
  let v := bit_field_set 32 v 14 12 3 in  (* ReleaseDonePin: Phase4 *)
  let v := bit_field_set 32 v 11 9 7 in   (* DciMatch: NoWait *)
  let v := bit_field_set 32 v 8 6 7 in    (* MmcmLock: NoWait *)
  let v := bit_field_set 32 v 5 3 4 in    (* Gts: Phase5 *)
  bit_field_set 32 v 2 0 5.               (* Gwe: Phase6 *)

(** configuration.cc:23-176 CreateConfigurationPackage. *)
Definition configuration_package (packet_data : list N) (p : part) : list packet :=
  [ nop_packet;
    write1 regTIMER 0x0;
    write1 regWBSTAR 0x0;
    write1 regCMD cmdNOP;
    nop_packet;
    write1 regCMD cmdRCRC;
    nop_packet;
    nop_packet;
    write1 regUNKNOWN 0x0;
    write1 regCOR0 cor0_value;
    write1 regCOR1 0x0;
    write1 regIDCODE (p_idcode p);
    write1 regCMD cmdSWITCH;
    nop_packet;
    write1 regMASK 0x401;
    write1 regCTL0 0x501;
    write1 regMASK 0x0;
    write1 regCTL1 0x0 ]
  ++ repeat nop_packet 8
  ++ [ write1 regFAR 0x0;
       write1 regCMD cmdWCFG;
       nop_packet;
       {| pk_type := 1; pk_op := opWrite; pk_addr := regFDRI; pk_data := [] |};
       {| pk_type := 2; pk_op := opWrite; pk_addr := regFDRI; pk_data := packet_data |};
       write1 regCMD cmdRCRC;
       nop_packet;
       nop_packet;
       write1 regCMD cmdGRESTORE;
       nop_packet;
       write1 regCMD cmdLFRM ]
  ++ repeat nop_packet 100
  ++ [ write1 regCMD cmdSTART;
       nop_packet;
       write1 regFAR 0x3be0000;
       write1 regMASK 0x501;
       write1 regCTL0 0x501;
       write1 regCMD cmdRCRC;
       nop_packet;
       nop_packet;
       write1 regCMD cmdDESYNC ]
  ++ repeat nop_packet 400.

(** ** Decoder: configuration.h:106-225 InitWithPackets *)

(** configuration.h:110-121, the local variables. *)
Record cfg_state := {
  cs_cmd : N;
  cs_far : N;
  cs_mask : N;
  cs_ctl1 : N;
  cs_start : bool;
  cs_cur : N;
  cs_frames : frame_map
}.

(** configuration.h:108-120: the initial values of the registers. *)
Definition cfg_init : cfg_state :=
  {| cs_cmd := 0; cs_far := 0; cs_mask := 0; cs_ctl1 := 0;
     cs_start := false; cs_cur := 0; cs_frames := [] |}.

(** configuration.h:199-218: the frame loop of a FDRI write over the remaining
    data.  [fuel] bounds the number of frames; [length data] is always enough. *)
Fixpoint fdri_loop (fuel : nat) (p : part) (data : list N) (cur : N)
         (fs : frame_map) : N * frame_map :=
  match fuel with
  | O => (cur, fs)
  | S fuel' =>
      match data with
      | [] => (cur, fs)
      | _ =>
          let fs' := bt_set cur (firstn kWordsPerFrame data) fs in
          match part_next p cur with
          | None => (cur, fs')
          | Some a' =>
              let skip := if row_change cur a'
                          then (kWordsPerFrame + 2 * kWordsPerFrame)%nat
                          else kWordsPerFrame in
              fdri_loop fuel' p (skipn skip data) a' fs'
          end
      end
  end.

(** configuration.h:121-222: one packet.  [None] = "return {}" (IDCODE mismatch,
    :159-161). *)
Definition cfg_packet (p : part) (s : cfg_state) (k : packet) : option cfg_state :=
  if negb (pk_op k =? opWrite) then Some s
  else if pk_addr k =? regMASK then
    match pk_data k with
    | [] => Some s
    | d :: _ => Some {| cs_cmd := cs_cmd s; cs_far := cs_far s; cs_mask := d;
                        cs_ctl1 := cs_ctl1 s; cs_start := cs_start s;
                        cs_cur := cs_cur s; cs_frames := cs_frames s |}
    end
  else if pk_addr k =? regCTL1 then
    match pk_data k with
    | [] => Some s
    | d :: _ => Some {| cs_cmd := cs_cmd s; cs_far := cs_far s; cs_mask := cs_mask s;
                        cs_ctl1 := N.land d (cs_mask s); cs_start := cs_start s;
                        cs_cur := cs_cur s; cs_frames := cs_frames s |}
    end
  else if pk_addr k =? regCMD then
    match pk_data k with
    | [] => Some s
    | d :: _ => Some {| cs_cmd := d; cs_far := cs_far s; cs_mask := cs_mask s;
                        cs_ctl1 := cs_ctl1 s;
                        cs_start := if d =? 0x1 then true else cs_start s;
                        cs_cur := cs_cur s; cs_frames := cs_frames s |}
    end
  else if pk_addr k =? regIDCODE then
    match pk_data k with
    | [] => Some s
    | d :: _ => if negb (d =? p_idcode p) then None else Some s
    end
  else if pk_addr k =? regFAR then
    match pk_data k with
    | [] => Some s
    | d :: _ => Some {| cs_cmd := cs_cmd s; cs_far := d; cs_mask := cs_mask s;
                        cs_ctl1 := cs_ctl1 s;
                        cs_start := if (bit_field_get 32 (cs_ctl1 s) 21 21 =? 0)
                                       && (cs_cmd s =? 0x1)
                                    then true else cs_start s;
                        cs_cur := cs_cur s; cs_frames := cs_frames s |}
    end
  else if pk_addr k =? regFDRI then
    let cur := if cs_start s then cs_far s else cs_cur s in
    let (cur', fs') := fdri_loop (length (pk_data k)) p (pk_data k) cur (cs_frames s) in
    Some {| cs_cmd := cs_cmd s; cs_far := cs_far s; cs_mask := cs_mask s;
            cs_ctl1 := cs_ctl1 s; cs_start := false;
            cs_cur := cur'; cs_frames := fs' |}
  else Some s.

(** configuration.h:121-222: the loop over the packets. *)
Fixpoint cfg_packets (p : part) (s : cfg_state) (ks : list packet) : option cfg_state :=
  match ks with
  | [] => Some s
  | k :: ks' =>
      match cfg_packet p s k with
      | None => None
      | Some s' => cfg_packets p s' ks'
      end
  end.

(** configuration.h:106-225 *)
Definition init_with_packets (p : part) (ks : list packet) : option frame_map :=
  match cfg_packets p cfg_init ks with
  | None => None
  | Some s => Some (cs_frames s)
  end.
