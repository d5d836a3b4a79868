(** Model of the templates of the library for the other architectures (arch-types.h:22-58): the same code as in Frames.v, Config.v and
    Writer.v with the number of words of a frame and the writer's header as parameters.  CreateConfigurationPackage is defined for kXC7
    only (configuration.cc:23-24), so the register program is the caller's. *)
From Verif Require Import Base BitOps Frame Part Frames Packet Config Writer ArchSpec.

(** arch-xc7-frame.h:29-46 frame_words_count *)
Definition words_count (a : arch) : nat := match a with Series7 => 101 | UltraScale => 123 | UltraScalePlus => 93 end.

(** bitstream-writer.cc:12-33 header_ of the three instances *)
Definition header_of (a : arch) : list N :=
  match a with
  | Series7 =>
      [0xFFFFFFFF; 0xFFFFFFFF; 0xFFFFFFFF; 0xFFFFFFFF; 0xFFFFFFFF; 0xFFFFFFFF; 0xFFFFFFFF; 0xFFFFFFFF; 0x000000BB; 0x11220044;
       0xFFFFFFFF; 0xFFFFFFFF; 0xAA995566]
  | UltraScale => [0xFFFFFFFF; 0x000000BB; 0x11220044; 0xFFFFFFFF; 0xFFFFFFFF; 0xAA995566]
  | UltraScalePlus =>
      [0xFFFFFFFF; 0xFFFFFFFF; 0xFFFFFFFF; 0xFFFFFFFF; 0xFFFFFFFF; 0xFFFFFFFF; 0xFFFFFFFF; 0xFFFFFFFF; 0xFFFFFFFF; 0xFFFFFFFF;
       0xFFFFFFFF; 0xFFFFFFFF; 0xFFFFFFFF; 0xFFFFFFFF; 0xFFFFFFFF; 0xFFFFFFFF; 0x000000BB; 0x11220044; 0xFFFFFFFF; 0xFFFFFFFF;
       0xAA995566]
  end.

Section Words.
  Context (w : nat).

  (** frames.h:52-63 AddMissingFrames *)
  Fixpoint missing_from (fuel : nat) (p : part) (a : N) (fs : frame_map) : outcome frame_map :=
    match fuel with
    | O => NoFuel
    | S fuel' =>
        let fs' := match bt_find a fs with None => bt_insert a (repeat 0 w) fs | Some _ => fs end in
        match part_next p a with
        | None => Ok fs'
        | Some a' => missing_from fuel' p a' fs'
        end
    end.

  (** configuration.h:69-81 *)
  Definition frame_data_of (p : part) (kv : N * frame) : list N :=
    snd kv ++ match part_next p (fst kv) with
              | Some a' => if row_change (fst kv) a' then repeat 0 (w * 2)%nat else []
              | None => []
              end.
  (** configuration.h:61-84 CreateType2ConfigurationPacketData *)
  Definition packet_data_of (p : part) (fs : frame_map) : list N := flat_map (frame_data_of p) fs ++ repeat 0 (w * 2)%nat.

  (** configuration.h:199-218 *)
  Fixpoint fdri_of (fuel : nat) (p : part) (data : list N) (cur : N) (fs : frame_map) : N * frame_map :=
    match fuel with
    | O => (cur, fs)
    | S fuel' =>
        match data with
        | [] => (cur, fs)
        | _ =>
            let fs' := bt_set cur (firstn w data) fs in
            match part_next p cur with
            | None => (cur, fs')
            | Some a' => fdri_of fuel' p (skipn (if row_change cur a' then (w + 2 * w)%nat else w) data) a' fs'
            end
        end
    end.
  (** configuration.h:121-222: only the FDRI case depends on the architecture. *)
  Definition packet_of (p : part) (s : cfg_state) (k : packet) : option cfg_state :=
    if (pk_op k =? opWrite) && (pk_addr k =? regFDRI) then
      let cur := if cs_start s then cs_far s else cs_cur s in
      let (cur', fs') := fdri_of (length (pk_data k)) p (pk_data k) cur (cs_frames s) in
      Some {| cs_cmd := cs_cmd s; cs_far := cs_far s; cs_mask := cs_mask s; cs_ctl1 := cs_ctl1 s; cs_start := false;
              cs_cur := cur'; cs_frames := fs' |}
    else cfg_packet p s k.
  Fixpoint packets_of (p : part) (s : cfg_state) (ks : list packet) : option cfg_state :=
    match ks with
    | [] => Some s
    | k :: ks' => match packet_of p s k with None => None | Some s' => packets_of p s' ks' end
    end.
  (** configuration.h:106-225 InitWithPackets *)
  Definition init_of (p : part) (ks : list packet) : option frame_map :=
    match packets_of p cfg_init ks with None => None | Some s => Some (cs_frames s) end.
End Words.

Section Header.
  Context (h : list N).
  (** bitstream-writer.h:333-337 end() *)
  Definition end_of (ks : list packet) : wr_iter := {| wi_hdr := length h; wi_pkt := length ks; wi_op := None |}.
  (** bitstream-writer.h:350-384 operator++ *)
  Definition next_of (ks : list packet) (i : wr_iter) : outcome wr_iter :=
    if negb (Nat.eqb (wi_hdr i) (length h)) then
      let n := S (wi_hdr i) in
      if Nat.eqb n (length h) then
        match ks with
        | [] => Ok {| wi_hdr := n; wi_pkt := 0; wi_op := wi_op i |}
        | k :: _ => Ok {| wi_hdr := n; wi_pkt := 0; wi_op := Some (pi_begin k) |}
        end
      else Ok {| wi_hdr := n; wi_pkt := wi_pkt i; wi_op := wi_op i |}
    else
      match wi_op i, nth_error ks (wi_pkt i) with
      | Some pi, Some k =>
          let pi' := pi_next pi in
          if pi_eqb pi' (pi_end k) then
            match nth_error ks (S (wi_pkt i)) with
            | None => Ok {| wi_hdr := wi_hdr i; wi_pkt := S (wi_pkt i); wi_op := None |}
            | Some k' => Ok {| wi_hdr := wi_hdr i; wi_pkt := S (wi_pkt i); wi_op := Some (pi_begin k') |}
            end
          else Ok {| wi_hdr := wi_hdr i; wi_pkt := wi_pkt i; wi_op := Some pi' |}
      | _, _ => UB
      end.
  (** bitstream-writer.h:398-406 operator* *)
  Definition deref_of (i : wr_iter) : outcome N :=
    if negb (Nat.eqb (wi_hdr i) (length h)) then
      match nth_error h (wi_hdr i) with Some w => Ok w | None => UB end
    else match wi_op i with Some pi => pi_deref pi | None => UB end.
  (** bitstream-writer.h:175, the range-for loop *)
  Fixpoint words_of (fuel : nat) (ks : list packet) (i : wr_iter) : outcome (list N) :=
    match fuel with
    | O => NoFuel
    | S fuel' =>
        if wi_eqb i (end_of ks) then Ok []
        else obind (deref_of i) (fun w => obind (next_of ks i) (fun i' => obind (words_of fuel' ks i') (fun ws => Ok (w :: ws))))
    end.
  (** bitstream-writer.h:158-188 writeBitstream *)
  Definition write_of (fuel : nat) (ks : list packet) (part_name source_name generator_name date time : text) (out : stream) : outcome stream :=
    let hdr := create_header part_name source_name generator_name date time in
    let out := st_write hdr out in
    let end_of_header_pos := st_tellp out in
    let header_data_length_pos := (end_of_header_pos - 4)%Z in
    obind (words_of fuel ks (wi_begin ks)) (fun ws =>
      let out := fold_left (fun o w => st_write (be_bytes w) o) ws out in
      let length_of_data := Z.to_N ((st_tellp out - end_of_header_pos) mod 2 ^ 32)%Z in
      let out := st_seekp header_data_length_pos out in
      let out := st_write (be_bytes length_of_data) out in
      Ok out).
End Header.

(** The instances. *)
(** frames.h:52-63 *)
Definition add_missing_arch (ar : arch) (fuel : nat) (p : part) (fs : frame_map) : outcome frame_map := missing_from (words_count ar) fuel p 0 fs.
(** configuration.h:61-84 *)
Definition type2_data_arch (ar : arch) (p : part) (fs : frame_map) : list N := packet_data_of (words_count ar) p fs.
(** configuration.h:106-225 *)
Definition init_with_packets_arch (ar : arch) (p : part) (ks : list packet) : option frame_map := init_of (words_count ar) p ks.
(** bitstream-writer.h:158-188 *)
Definition write_bitstream_arch (ar : arch) := write_of (header_of ar).
