(** C12 for any frame map of the device, complete or not. *)
From Verif Require Import Base BitOps Frame Part Frames Packet Config BaseFacts FrameFacts PartSpec PartFacts
  PartFromFacts FramesFacts ConfigSpec ConfigFacts EncodeSpec EncodeFacts P_Part P_Bitstream.

(** [a] is the last frame of its device row, and frames of another row follow. *)
Definition ends_row (dp : db_part) (a : N) : Prop :=
  (exists v, is_frame_address dp v /\ a < v)
  /\ forall v, is_frame_address dp v -> a < v -> device_row v <> device_row a.

(** Whatever frames of the device the map holds, in whatever order: the payload is the frames one
    after the other, with two zero frames after each that ends its device row, and two at the end. *)
Theorem C12_any_frames :
  forall dp fs, part_fits dp -> no_holes dp -> Forall (fun kv => is_frame_address dp (fst kv)) fs ->
  exists pieces, type2_data (part_from dp) fs = concat pieces ++ two_zero_frames
    /\ Forall2 (fun kv piece =>
         (ends_row dp (fst kv) /\ piece = snd kv ++ two_zero_frames)
         \/ (~ ends_row dp (fst kv) /\ piece = snd kv)) fs pieces.
Proof.
  intros dp fs F NH Hfs. exists (map (type2_frame (part_from dp)) fs). split.
  { unfold type2_data. rewrite flat_map_concat_map. reflexivity. }
  induction Hfs as [|[a w] fs Ha Hfs IH]; cbn [map]; constructor; [|exact IH].
  cbn [fst snd] in *. unfold type2_frame. cbn [fst snd].
  pose proof (is_frame_address_lt dp a F Ha) as La.
  destruct (part_next (part_from dp) a) as [n|] eqn:E.
  - pose proof (C08_next_frame_is_a_frame dp a n F La E) as Fn.
    pose proof (C07_next_frame_increases dp a n F La E) as [Ln Bn].
    rewrite row_change_iff by assumption. rewrite zero_separator_eq.
    destruct (N.eqb_spec (device_row a) (device_row n)) as [R|R]; cbn [negb].
    + right. split; [|now rewrite app_nil_r]. intros [_ X]. apply (X n Fn Ln). now symmetry.
    + left. split; [|reflexivity]. split; [exists n; auto|]. intros v Fv Lv.
      destruct (C09_next_frame_is_least dp a v F NH Ha Fv Lv) as (n' & E' & _ & _ & L').
      rewrite E in E'. injection E' as <-.
      assert (device_row a <= device_row n) by (apply N.div_le_mono; [discriminate|lia]).
      assert (device_row n <= device_row v) by (apply N.div_le_mono; [discriminate|lia]).
      lia.
  - right. split; [|now rewrite app_nil_r]. intros [(v & Fv & Lv) _].
    destruct (C09_next_frame_is_least dp a v F NH Ha Fv Lv) as (n' & E' & _). rewrite E in E'. discriminate.
Qed.
Print Assumptions C12_any_frames.

(** Both cases occur: a map of two frames of the small device, the last frame of row 0 and another. *)
Example C12_any_case :
  let a := last (filter (fun x => device_row x =? 0) (device_frames small_part)) 0 in
  Forall (fun kv => is_frame_address small_part (fst kv)) [(3, repeat 7 101); (a, repeat 8 101)]
  /\ type2_data (part_from small_part) [(3, repeat 7 101); (a, repeat 8 101)]
     = repeat 7 101 ++ repeat 8 101 ++ repeat 0 202 ++ repeat 0 202.
Proof.
  split.
  - repeat apply Forall_cons; [| |apply Forall_nil]; cbn [fst]; apply frame_address_dec; vm_compute; reflexivity.
  - vm_compute. reflexivity.
Qed.
