(** Specification: the receiving end of a bitstream, the configuration logic of a Series-7 device (UG470 chapters 5 and 6), written from the
    device's documentation and not from /repo.  It is a model of the environment: byte-wide configuration port, no readback, no encryption,
    no compression (MFWR), no multi-boot (WBSTAR, TIMER and BSPI are stored nowhere), no timing.  The checksum function, the IDCODE and the
    frames are parameters. *)
From Verif Require Import Base.

(** A kind of device: its IDCODE (the top four bits, the revision, are not compared), its frame addresses in increasing order and the function
    that updates the checksum register with a register number and a word. *)
Record device_kind := { dk_idcode : N; dk_frames : list N; dk_checksum : N -> N -> N -> N }.

Record device := {
  memory : N -> list N;  (* the configuration memory: a frame of 101 words at each address *)
  recent : list N;  (* asleep: the last three bytes; awake: the bytes of the word being received *)
  awake : bool;  (* synchronised *)
  packet : option (N * N);  (* register and number of words still to come *)
  last_register : N;  (* the register a type 2 packet refers to *)
  far : option N;  (* where the next frame goes; None behind the last frame *)
  pad : nat;  (* dummy frames still to be dropped *)
  frame_buffer : list N;  (* the words of the frame being received *)
  command : N;  (* last command *)
  mask : N;  (* which bits of CTL0 and CTL1 can be written *)
  ctl0 : N;
  ctl1 : N;
  cor0 : N;
  checksum : N;  (* checksum of the register writes *)
  id_ok : bool;  (* the right IDCODE was seen *)
  failed : bool;  (* wrong IDCODE or wrong checksum seen: stays so *)
  interconnect : bool;  (* LFRM was executed *)
  start : bool;  (* START was executed *)
  running : bool  (* the design is in operation *)
}.
Definition set_memory (v_memory : N -> list N) (d : device) : device :=
  {| memory := v_memory; recent := recent d; awake := awake d; packet := packet d; last_register := last_register d; far := far d; pad := pad d; frame_buffer := frame_buffer d; command := command d; mask := mask d; ctl0 := ctl0 d; ctl1 := ctl1 d; cor0 := cor0 d; checksum := checksum d; id_ok := id_ok d; failed := failed d; interconnect := interconnect d; start := start d; running := running d |}.
Definition set_recent (v_recent : list N) (d : device) : device :=
  {| memory := memory d; recent := v_recent; awake := awake d; packet := packet d; last_register := last_register d; far := far d; pad := pad d; frame_buffer := frame_buffer d; command := command d; mask := mask d; ctl0 := ctl0 d; ctl1 := ctl1 d; cor0 := cor0 d; checksum := checksum d; id_ok := id_ok d; failed := failed d; interconnect := interconnect d; start := start d; running := running d |}.
Definition set_awake (v_awake : bool) (d : device) : device :=
  {| memory := memory d; recent := recent d; awake := v_awake; packet := packet d; last_register := last_register d; far := far d; pad := pad d; frame_buffer := frame_buffer d; command := command d; mask := mask d; ctl0 := ctl0 d; ctl1 := ctl1 d; cor0 := cor0 d; checksum := checksum d; id_ok := id_ok d; failed := failed d; interconnect := interconnect d; start := start d; running := running d |}.
Definition set_packet (v_packet : option (N * N)) (d : device) : device :=
  {| memory := memory d; recent := recent d; awake := awake d; packet := v_packet; last_register := last_register d; far := far d; pad := pad d; frame_buffer := frame_buffer d; command := command d; mask := mask d; ctl0 := ctl0 d; ctl1 := ctl1 d; cor0 := cor0 d; checksum := checksum d; id_ok := id_ok d; failed := failed d; interconnect := interconnect d; start := start d; running := running d |}.
Definition set_last_register (v_last_register : N) (d : device) : device :=
  {| memory := memory d; recent := recent d; awake := awake d; packet := packet d; last_register := v_last_register; far := far d; pad := pad d; frame_buffer := frame_buffer d; command := command d; mask := mask d; ctl0 := ctl0 d; ctl1 := ctl1 d; cor0 := cor0 d; checksum := checksum d; id_ok := id_ok d; failed := failed d; interconnect := interconnect d; start := start d; running := running d |}.
Definition set_far (v_far : option N) (d : device) : device :=
  {| memory := memory d; recent := recent d; awake := awake d; packet := packet d; last_register := last_register d; far := v_far; pad := pad d; frame_buffer := frame_buffer d; command := command d; mask := mask d; ctl0 := ctl0 d; ctl1 := ctl1 d; cor0 := cor0 d; checksum := checksum d; id_ok := id_ok d; failed := failed d; interconnect := interconnect d; start := start d; running := running d |}.
Definition set_pad (v_pad : nat) (d : device) : device :=
  {| memory := memory d; recent := recent d; awake := awake d; packet := packet d; last_register := last_register d; far := far d; pad := v_pad; frame_buffer := frame_buffer d; command := command d; mask := mask d; ctl0 := ctl0 d; ctl1 := ctl1 d; cor0 := cor0 d; checksum := checksum d; id_ok := id_ok d; failed := failed d; interconnect := interconnect d; start := start d; running := running d |}.
Definition set_frame_buffer (v_frame_buffer : list N) (d : device) : device :=
  {| memory := memory d; recent := recent d; awake := awake d; packet := packet d; last_register := last_register d; far := far d; pad := pad d; frame_buffer := v_frame_buffer; command := command d; mask := mask d; ctl0 := ctl0 d; ctl1 := ctl1 d; cor0 := cor0 d; checksum := checksum d; id_ok := id_ok d; failed := failed d; interconnect := interconnect d; start := start d; running := running d |}.
Definition set_command (v_command : N) (d : device) : device :=
  {| memory := memory d; recent := recent d; awake := awake d; packet := packet d; last_register := last_register d; far := far d; pad := pad d; frame_buffer := frame_buffer d; command := v_command; mask := mask d; ctl0 := ctl0 d; ctl1 := ctl1 d; cor0 := cor0 d; checksum := checksum d; id_ok := id_ok d; failed := failed d; interconnect := interconnect d; start := start d; running := running d |}.
Definition set_mask (v_mask : N) (d : device) : device :=
  {| memory := memory d; recent := recent d; awake := awake d; packet := packet d; last_register := last_register d; far := far d; pad := pad d; frame_buffer := frame_buffer d; command := command d; mask := v_mask; ctl0 := ctl0 d; ctl1 := ctl1 d; cor0 := cor0 d; checksum := checksum d; id_ok := id_ok d; failed := failed d; interconnect := interconnect d; start := start d; running := running d |}.
Definition set_ctl0 (v_ctl0 : N) (d : device) : device :=
  {| memory := memory d; recent := recent d; awake := awake d; packet := packet d; last_register := last_register d; far := far d; pad := pad d; frame_buffer := frame_buffer d; command := command d; mask := mask d; ctl0 := v_ctl0; ctl1 := ctl1 d; cor0 := cor0 d; checksum := checksum d; id_ok := id_ok d; failed := failed d; interconnect := interconnect d; start := start d; running := running d |}.
Definition set_ctl1 (v_ctl1 : N) (d : device) : device :=
  {| memory := memory d; recent := recent d; awake := awake d; packet := packet d; last_register := last_register d; far := far d; pad := pad d; frame_buffer := frame_buffer d; command := command d; mask := mask d; ctl0 := ctl0 d; ctl1 := v_ctl1; cor0 := cor0 d; checksum := checksum d; id_ok := id_ok d; failed := failed d; interconnect := interconnect d; start := start d; running := running d |}.
Definition set_cor0 (v_cor0 : N) (d : device) : device :=
  {| memory := memory d; recent := recent d; awake := awake d; packet := packet d; last_register := last_register d; far := far d; pad := pad d; frame_buffer := frame_buffer d; command := command d; mask := mask d; ctl0 := ctl0 d; ctl1 := ctl1 d; cor0 := v_cor0; checksum := checksum d; id_ok := id_ok d; failed := failed d; interconnect := interconnect d; start := start d; running := running d |}.
Definition set_checksum (v_checksum : N) (d : device) : device :=
  {| memory := memory d; recent := recent d; awake := awake d; packet := packet d; last_register := last_register d; far := far d; pad := pad d; frame_buffer := frame_buffer d; command := command d; mask := mask d; ctl0 := ctl0 d; ctl1 := ctl1 d; cor0 := cor0 d; checksum := v_checksum; id_ok := id_ok d; failed := failed d; interconnect := interconnect d; start := start d; running := running d |}.
Definition set_id_ok (v_id_ok : bool) (d : device) : device :=
  {| memory := memory d; recent := recent d; awake := awake d; packet := packet d; last_register := last_register d; far := far d; pad := pad d; frame_buffer := frame_buffer d; command := command d; mask := mask d; ctl0 := ctl0 d; ctl1 := ctl1 d; cor0 := cor0 d; checksum := checksum d; id_ok := v_id_ok; failed := failed d; interconnect := interconnect d; start := start d; running := running d |}.
Definition set_failed (v_failed : bool) (d : device) : device :=
  {| memory := memory d; recent := recent d; awake := awake d; packet := packet d; last_register := last_register d; far := far d; pad := pad d; frame_buffer := frame_buffer d; command := command d; mask := mask d; ctl0 := ctl0 d; ctl1 := ctl1 d; cor0 := cor0 d; checksum := checksum d; id_ok := id_ok d; failed := v_failed; interconnect := interconnect d; start := start d; running := running d |}.
Definition set_interconnect (v_interconnect : bool) (d : device) : device :=
  {| memory := memory d; recent := recent d; awake := awake d; packet := packet d; last_register := last_register d; far := far d; pad := pad d; frame_buffer := frame_buffer d; command := command d; mask := mask d; ctl0 := ctl0 d; ctl1 := ctl1 d; cor0 := cor0 d; checksum := checksum d; id_ok := id_ok d; failed := failed d; interconnect := v_interconnect; start := start d; running := running d |}.
Definition set_start (v_start : bool) (d : device) : device :=
  {| memory := memory d; recent := recent d; awake := awake d; packet := packet d; last_register := last_register d; far := far d; pad := pad d; frame_buffer := frame_buffer d; command := command d; mask := mask d; ctl0 := ctl0 d; ctl1 := ctl1 d; cor0 := cor0 d; checksum := checksum d; id_ok := id_ok d; failed := failed d; interconnect := interconnect d; start := v_start; running := running d |}.
Definition set_running (v_running : bool) (d : device) : device :=
  {| memory := memory d; recent := recent d; awake := awake d; packet := packet d; last_register := last_register d; far := far d; pad := pad d; frame_buffer := frame_buffer d; command := command d; mask := mask d; ctl0 := ctl0 d; ctl1 := ctl1 d; cor0 := cor0 d; checksum := checksum d; id_ok := id_ok d; failed := failed d; interconnect := interconnect d; start := start d; running := v_running |}.

(** A device before configuration: nothing received, not failed, not started; everything else, also the memory, is arbitrary. *)
Definition blank (d : device) : Prop :=
  recent d = [] /\ awake d = false /\ id_ok d = false /\ failed d = false /\ interconnect d = false /\ start d = false /\ running d = false.

(** Block type, half and row of a frame address. *)
Definition row_of (a : N) : N := a / 2 ^ 17.
(** The frame after [a]: addresses of frames are counted up. *)
Definition next_frame (dk : device_kind) (a : N) : option N := find (fun b => a <? b) (dk_frames dk).
Definition same_row (a : N) (b : option N) : bool := match b with Some b => row_of a =? row_of b | None => false end.

(** A full frame buffer: at a row's end two dummy frames follow; a frame is stored only with the right IDCODE and before any failure. *)
Definition store_frame (dk : device_kind) (ws : list N) (d : device) : device :=
  match pad d with
  | S n => set_pad n d
  | O =>
      match far d with
      | None => d
      | Some a =>
          if existsb (N.eqb a) (dk_frames dk) then
            let d := if id_ok d && negb (failed d) then set_memory (fun x => if x =? a then ws else memory d x) d else d in
            set_pad (if same_row a (next_frame dk a) then 0 else 2) (set_far (next_frame dk a) d)
          else d
      end
  end.
(** A word of frame data: only after the command WCFG (1). *)
Definition frame_word (dk : device_kind) (w : N) (d : device) : device :=
  if command d =? 1 then
    let ws := frame_buffer d ++ [w] in
    if Nat.eqb (List.length ws) 101 then store_frame dk ws (set_frame_buffer [] d) else set_frame_buffer ws d
  else d.

(** A command: LFRM 3 switches the interconnect on, START 5 asks for the startup sequence, RCRC 7 resets the checksum, DESYNC 13 ends the
    session, and then the startup sequence begins. *)
Definition execute (c : N) (d : device) : device :=
  if c =? 3 then set_interconnect true d
  else if c =? 5 then set_start true d
  else if c =? 7 then set_checksum 0 d
  else if c =? 13 then set_running (running d || (start d && interconnect d && id_ok d && negb (failed d))) (set_recent [] (set_packet None (set_awake false d)))
  else d.

(** The checksum covers every word written to a register, except CRC itself. *)
Definition count_in (dk : device_kind) (r w : N) (d : device) : device :=
  if r =? 0 then d else set_checksum (dk_checksum dk (checksum d) r w) d.
Definition masked (old m new : N) : N := N.lor (N.ldiff old m) (N.land new m).
(** The revision field is left out. *)
Definition id_matches (dk : device_kind) (w : N) : bool := w mod 2 ^ 28 =? dk_idcode dk mod 2 ^ 28.
(** A word [w] for register [r]. *)
Definition write_register (dk : device_kind) (r w : N) (d : device) : device :=
  let d := count_in dk r w d in
  if r =? 0 then if w =? checksum d then set_checksum 0 d else set_failed true d
  else if r =? 1 then execute (command d) (set_pad 0 (set_frame_buffer [] (set_far (Some w) d)))
  else if r =? 2 then frame_word dk w d
  else if r =? 4 then execute w (set_command w d)
  else if r =? 5 then set_ctl0 (masked (ctl0 d) (mask d) w) d
  else if r =? 6 then set_mask w d
  else if r =? 9 then set_cor0 w d
  else if r =? 12 then if id_matches dk w then set_id_ok true d else set_failed true d
  else if r =? 24 then set_ctl1 (masked (ctl1 d) (mask d) w) d
  else d.

(** A word outside of a packet is a header: type 1 names a register and a count, type 2 has a count for the last register; operation 2 is
    a write, others have no data here. *)
Definition expect_data (r n : N) (d : device) : device := if n =? 0 then d else set_packet (Some (r, n)) d.
Definition header (w : N) (d : device) : device :=
  let op := w / 2 ^ 27 mod 4 in
  if w / 2 ^ 29 =? 1 then
    let d := set_last_register (w / 2 ^ 13 mod 32) d in
    if op =? 2 then expect_data (w / 2 ^ 13 mod 32) (w mod 2 ^ 11) d else d
  else if w / 2 ^ 29 =? 2 then
    if op =? 2 then expect_data (last_register d) (w mod 2 ^ 27) d else d
  else d.
Definition word (dk : device_kind) (w : N) (d : device) : device :=
  match packet d with
  | Some (r, n) => write_register dk r w (set_packet (if n =? 1 then None else Some (r, n - 1)) d)
  | None => header w d
  end.

(** A byte: asleep, the device looks for the synchronisation word; awake, it puts words together, high byte first. *)
Definition synchronisation : list N := [0xAA; 0x99; 0x55; 0x66].
Definition bytes_eqb (a b : list N) : bool := if list_eq_dec N.eq_dec a b then true else false.
Definition byte (dk : device_kind) (d : device) (b : N) : device :=
  let seen := recent d ++ [b] in
  if awake d then
    match seen with
    | [b3; b2; b1; b0] => word dk (b3 * 2 ^ 24 + b2 * 2 ^ 16 + b1 * 2 ^ 8 + b0) (set_recent [] d)
    | _ => set_recent seen d
    end
  else if bytes_eqb seen synchronisation then set_packet None (set_recent [] (set_awake true d))
  else set_recent (skipn (List.length seen - 3) seen) d.
(** The device reads a file. *)
Definition receive (dk : device_kind) (file : list N) (d : device) : device := fold_left (byte dk) file d.
