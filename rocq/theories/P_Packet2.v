(** Property C22 for header texts of any bytes and any length. *)
From Verif Require Import Base BitOps Frame Part Frames Packet Config Writer Reader Encode
  BaseFacts BitOpsFacts FrameFacts PartSpec PartFacts PartFromFacts FramesFacts PacketFacts
  ContainerSpec WriterFacts ReaderFacts ConfigSpec ConfigFacts EncodeSpec EncodeFacts P_Part P_Packet P_Bitstream P_Bitstream2.
From Coq Require Import Lia.

(** The packets are read back from every file in which the sync word does not occur before the place where the packets begin. *)
Theorem C22_any_header_without_the_sync_word :
  forall ks part source generator date time,
    packets_fit None ks -> Forall (fun k => Forall (fun w => w < 2 ^ 32) (pk_data k)) ks ->
    exists fuel0, forall fuel, (fuel0 <= fuel)%nat -> exists s,
      write_bitstream fuel ks part source generator date time (file_at_end []) = Ok s /\
      ((forall pre rest, st_bytes s = pre ++ sync_word ++ rest ->
          (length rest <= 4 * length (flat_map (fun k => packet_header k :: pk_data k) ks))%nat) ->
       exists ws, init_with_bytes (st_bytes s) = Ok (Some ws) /\ reader_packets ws = Ok ks).
Proof.
  intros ks part source gen date time Hfit Hw. destruct (C19_every_destination ks part source gen date time (file_at_end [])) as (fuel0 & H); [cbn; lia|].
  exists fuel0. intros fuel Hf. destruct (H fuel Hf) as (s & E & B). exists s. split; [exact E|]. intros NS. clear H E.
  unfold file_at_end in B. cbn [st_fail st_kind st_pos st_bytes delivered firstn app length] in B. rewrite skipn_nil, app_nil_r in B.
  change (flat_map (fun k => packet_header k :: pk_data k) ks) with (packets_words ks) in NS. unfold data_bytes in B. rewrite flat_map_app in B.
  assert (S : flat_map be_bytes sync_preamble = flat_map be_bytes (firstn 12 sync_preamble) ++ sync_word) by (vm_compute; reflexivity).
  rewrite S in B. rewrite <- !app_assoc in B. rewrite !app_assoc in B. rewrite <- (app_assoc _ sync_word) in B.
  set (front := (header_bytes part source gen date time ++ be_bytes (data_length ks)) ++ flat_map be_bytes (firstn 12 sync_preamble)) in B.
  pose proof (packets_words_ok ks Hw) as W. rewrite (flat_be32 (packets_words ks) W) in B. clearbody front. rewrite B in *. clear B S.
  exists (packets_words ks). split; [|now apply reader_packets_fit]. unfold init_with_bytes. change sync_word with sync_bytes in *. rewrite after_sync_first.
  - now rewrite be_words_be32.
  - intros pre rest E. specialize (NS pre rest E). apply (f_equal (@length _)) in E. rewrite !app_length in E.
    assert (L : length (flat_map be32 (packets_words ks)) = (4 * length (packets_words ks))%nat).
    { clear. generalize (packets_words ks). intros l. induction l as [|w l IH]; [reflexivity|]. cbn [flat_map]. rewrite app_length, IH. cbn [length]. change (length (be32 w)) with 4%nat. lia. }
    lia.
Qed.
Print Assumptions C22_any_header_without_the_sync_word.

(** A case: a header of bytes above 127, among them AA, which the hypothesis of the other theorem does not allow. *)
Example C22_case_any : exists s, write_bitstream 200 [nop_packet] (map ascii_of_N [0xAA; 0x99; 0x55; 0x67; 0xFF]) (tx "src") (tx "gen") (tx "d") (tx "t") (file_at_end []) = Ok s /\
  forall pre rest, st_bytes s = pre ++ sync_word ++ rest -> (length rest <= 4)%nat.
Proof.
  eexists. split; [vm_compute; reflexivity|]. cbn [st_bytes]. intros pre rest E.
  do 200 (destruct pre as [|? pre]; [first [discriminate E | cbn [app] in E; unfold sync_word in E; injection E as <-; cbn; lia]|cbn [app] in E; first [discriminate E|injection E as _ E]]).
Qed.
