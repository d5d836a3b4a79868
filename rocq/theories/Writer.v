(** Model of fpga/xilinx/bitstream-writer.h and bitstream-writer.cc (kXC7 instance). *)
From Verif Require Import Base BitOps Frame Packet.

(** bitstream-writer.cc:13-18 header_ (bus width detection and sync word). *)
Definition writer_header : list N :=
  [0xFFFFFFFF; 0xFFFFFFFF; 0xFFFFFFFF; 0xFFFFFFFF; 0xFFFFFFFF;
   0xFFFFFFFF; 0xFFFFFFFF; 0xFFFFFFFF; 0x000000BB; 0x11220044;
   0xFFFFFFFF; 0xFFFFFFFF; 0xAA995566].

(** ** Iterators *)

(** bitstream-writer.h:76-80 state_t *)
Inductive pi_state := StHeader | StData | StEnd.
(** bitstream-writer.h:58-95: comparison of the state. *)
Definition pi_state_eqb (a b : pi_state) : bool :=
  match a, b with
  | StHeader, StHeader | StData, StData | StEnd, StEnd => true
  | _, _ => false
  end.

(** bitstream-writer.h:58-95 packet_iterator: packet, state and the position of
    itr_data_ in packet.data(). *)
Record pkt_iter := { pi_st : pi_state; pi_pos : nat; pi_pkt : packet }.

(** :97-130 iterator: positions in the header, in the packets, and the optional
    packet iterator. *)
Record wr_iter := { wi_hdr : nat; wi_pkt : nat; wi_op : option pkt_iter }.

(** :239-247 packet_begin for a given packet; :325-328 does the same. *)
Definition pi_begin (k : packet) : pkt_iter :=
  {| pi_st := StHeader; pi_pos := 0; pi_pkt := k |}.

(** :250-258 packet_end *)
Definition pi_end (k : packet) : pkt_iter :=
  {| pi_st := StEnd; pi_pos := length (pk_data k); pi_pkt := k |}.

(** :266-284 packet_iterator::operator++ *)
Definition pi_next (i : pkt_iter) : pkt_iter :=
  let len := length (pk_data (pi_pkt i)) in
  match pi_st i with
  | StHeader =>
      if Nat.eqb 0 len
      then {| pi_st := StEnd; pi_pos := 0; pi_pkt := pi_pkt i |}
      else {| pi_st := StData; pi_pos := 0; pi_pkt := pi_pkt i |}
  | StData =>
      if Nat.eqb (S (pi_pos i)) len
      then {| pi_st := StEnd; pi_pos := S (pi_pos i); pi_pkt := pi_pkt i |}
      else {| pi_st := StData; pi_pos := S (pi_pos i); pi_pkt := pi_pkt i |}
  | StEnd => i
  end.

(** :286-290 packet_iterator::operator== *)
Definition pi_eqb (a b : pkt_iter) : bool :=
  pi_state_eqb (pi_st a) (pi_st b) && Nat.eqb (pi_pos a) (pi_pos b).

(** :298-308 packet_iterator::operator*; reading past the data is UB, the END
    state is a failed CHECK. *)
Definition pi_deref (i : pkt_iter) : outcome N :=
  match pi_st i with
  | StHeader => Ok (packet_header (pi_pkt i))
  | StData => match nth_error (pk_data (pi_pkt i)) (pi_pos i) with
              | Some w => Ok w
              | None => UB
              end
  | StEnd => Crash
  end.

(** :316-331 begin() *)
Definition wi_begin (ks : list packet) : wr_iter :=
  {| wi_hdr := 0; wi_pkt := 0;
     wi_op := match ks with [] => None | k :: _ => Some (pi_begin k) end |}.

(** :333-337 end() *)
Definition wi_end (ks : list packet) : wr_iter :=
  {| wi_hdr := length writer_header; wi_pkt := length ks; wi_op := None |}.

(** :350-384 iterator::operator++.  Dereferencing the end of the packets or an
    empty optional is UB. *)
Definition wi_next (ks : list packet) (i : wr_iter) : outcome wr_iter :=
  if negb (Nat.eqb (wi_hdr i) (length writer_header)) then
    let h := S (wi_hdr i) in
    if Nat.eqb h (length writer_header) then
      match ks with
      | [] => Ok {| wi_hdr := h; wi_pkt := 0; wi_op := wi_op i |}
      | k :: _ => Ok {| wi_hdr := h; wi_pkt := 0; wi_op := Some (pi_begin k) |}
      end
    else Ok {| wi_hdr := h; wi_pkt := wi_pkt i; wi_op := wi_op i |}
  else
    match wi_op i, nth_error ks (wi_pkt i) with
    | Some pi, Some k =>
        let pi' := pi_next pi in
        if pi_eqb pi' (pi_end k) then
          match nth_error ks (S (wi_pkt i)) with
          | None => Ok {| wi_hdr := wi_hdr i; wi_pkt := S (wi_pkt i); wi_op := None |}
          | Some k' => Ok {| wi_hdr := wi_hdr i; wi_pkt := S (wi_pkt i);
                             wi_op := Some (pi_begin k') |}
          end
        else Ok {| wi_hdr := wi_hdr i; wi_pkt := wi_pkt i; wi_op := Some pi' |}
    | _, _ => UB
    end.

(** :386-391 iterator::operator== *)
Definition wi_eqb (a b : wr_iter) : bool :=
  Nat.eqb (wi_hdr a) (wi_hdr b) && Nat.eqb (wi_pkt a) (wi_pkt b)
  && match wi_op a, wi_op b with
     | None, None => true
     | Some x, Some y => pi_eqb x y
     | _, _ => false
     end.

(** :398-406 iterator::operator* *)
Definition wi_deref (i : wr_iter) : outcome N :=
  if negb (Nat.eqb (wi_hdr i) (length writer_header)) then
    match nth_error writer_header (wi_hdr i) with Some w => Ok w | None => UB end
  else match wi_op i with
       | Some pi => pi_deref pi
       | None => UB
       end.

(** :175 [for (uint32_t word : out_bitstream_writer)]: the words delivered by the
    range-for loop from iterator [i]. *)
Fixpoint wi_words (fuel : nat) (ks : list packet) (i : wr_iter) : outcome (list N) :=
  match fuel with
  | O => NoFuel
  | S fuel' =>
      if wi_eqb i (wi_end ks) then Ok []
      else obind (wi_deref i) (fun w =>
           obind (wi_next ks i) (fun i' =>
           obind (wi_words fuel' ks i') (fun ws => Ok (w :: ws))))
  end.

(** The words of a whole package (bitstream-writer.h:172-179, range-for from begin() to end()). *)
Definition writer_words (fuel : nat) (ks : list packet) : outcome (list N) :=
  wi_words fuel ks (wi_begin ks).

(** ** Output stream (the parameter [out] of bitstream-writer.h:159-188).
    [std::ostream] over a file descriptor.  [Seekable]: regular file, writes go
    to the current position.  [Pipe]: tellp() returns -1, seekp() fails.
    [Append]: file opened with O_APPEND (shell ">>"): positions can be queried and
    set but every write goes to the end of the file.  Buffering is not modelled;
    the device is assumed to accept all bytes (Device.v drops this assumption). *)
Inductive stream_kind := Seekable | Pipe | Append.
(** The std::ostream given to writeBitstream (bitstream-writer.h:139-141,159-188). *)
Record stream := {
  st_kind : stream_kind;
  st_bytes : list N;      (* content of the file / bytes sent *)
  st_pos : nat;           (* write position (Seekable) *)
  st_fail : bool          (* failbit *)
}.

(** The effect of a write at a position (bitstream-writer.h:166,177,185 after 183). *)
Fixpoint overwrite (pos : nat) (bs : list N) (l : list N) : list N :=
  match pos with
  | O => bs ++ skipn (length bs) l
  | S n => match l with
           | [] => 0 :: overwrite n bs []      (* hole: zero bytes *)
           | x :: l' => x :: overwrite n bs l'
           end
  end.

(** out.write / out.put (bitstream-writer.h:166,177,185) *)
Definition st_write (bs : list N) (s : stream) : stream :=
  if st_fail s then s
  else match st_kind s with
       | Seekable => {| st_kind := Seekable;
                        st_bytes := overwrite (st_pos s) bs (st_bytes s);
                        st_pos := st_pos s + length bs; st_fail := false |}
       | Pipe => {| st_kind := Pipe; st_bytes := st_bytes s ++ bs;
                    st_pos := st_pos s + length bs; st_fail := false |}
       | Append => {| st_kind := Append; st_bytes := st_bytes s ++ bs;
                      st_pos := length (st_bytes s ++ bs); st_fail := false |}
       end.

(** out.tellp() (bitstream-writer.h:169,181) *)
Definition st_tellp (s : stream) : Z :=
  if st_fail s then (-1)%Z
  else match st_kind s with
       | Pipe => (-1)%Z
       | _ => Z.of_nat (st_pos s)
       end.

(** out.seekp(pos) (bitstream-writer.h:183) *)
Definition st_seekp (pos : Z) (s : stream) : stream :=
  if st_fail s then s
  else match st_kind s with
       | Pipe => {| st_kind := Pipe; st_bytes := st_bytes s; st_pos := st_pos s;
                    st_fail := true |}
       | k => if (pos <? 0)%Z
              then {| st_kind := k; st_bytes := st_bytes s; st_pos := st_pos s;
                      st_fail := true |}
              else {| st_kind := k; st_bytes := st_bytes s; st_pos := Z.to_nat pos;
                      st_fail := false |}
       end.

(** ** Container *)

(** :176-178, :184-186: the bytes of a word, most significant first. *)
Definition be_bytes (w : N) : list N :=
  [N.land (N.shiftr w 24) 0xFF; N.land (N.shiftr w 16) 0xFF;
   N.land (N.shiftr w 8) 0xFF; N.land w 0xFF].

(** The characters of a std::string (bitstream-writer.h:196-240). *)
Definition text_bytes (t : text) : list N := map N_of_ascii t.

(** :198-201 etc.: two length bytes [static_cast<uint8_t>((size + 1) >> 8)],
    [static_cast<uint8_t>(size + 1)], the characters, a NUL. *)
Definition tlv_field (t : text) : list N :=
  let n := length_N t + 1 in
  [u8 (N.shiftr n 8); u8 n] ++ text_bytes t ++ [0].

(** :190-235 create_header.  The build time (absl::Now, FormatTime) is an input:
    [date] and [time] are the two formatted strings. *)
Definition create_header (part_name source_name generator_name date time : text)
  : list N :=
  [0x0; 0x9; 0x0f; 0xf0; 0x0f; 0xf0; 0x0f; 0xf0; 0x0f; 0xf0; 0x00; 0x00; 0x01; 97]
  ++ tlv_field (source_name ++ tx ";Generator=" ++ generator_name)
  ++ [98] ++ tlv_field part_name
  ++ [99] ++ tlv_field date
  ++ [100] ++ tlv_field time
  ++ [101; 0; 0; 0; 0].

(** :158-188 writeBitstream; the returned int is always 0. *)
Definition write_bitstream (fuel : nat) (ks : list packet)
           (part_name source_name generator_name date time : text)
           (out : stream) : outcome stream :=
  let hdr := create_header part_name source_name generator_name date time in
  let out := st_write hdr out in
  let end_of_header_pos := st_tellp out in
  let header_data_length_pos := (end_of_header_pos - 4)%Z in
  obind (writer_words fuel ks) (fun ws =>
    let out := fold_left (fun o w => st_write (be_bytes w) o) ws out in
    let length_of_data := Z.to_N ((st_tellp out - end_of_header_pos) mod 2 ^ 32)%Z in
    let out := st_seekp header_data_length_pos out in
    let out := st_write (be_bytes length_of_data) out in
    Ok out).
