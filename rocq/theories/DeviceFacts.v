(** Facts about Device.v. *)
From Verif Require Import Base BaseFacts BitOps Frame Part Frames Packet PacketFacts Config Writer WriterFacts Encode Fasm DbText DbJson Database Assembler Device DeviceSpec.
From Coq Require Import Lia.

Lemma overwrite_cons pos b bs : forall l, overwrite pos (b :: bs) l = if match bs with [] => true | _ => false end then overwrite pos [b] l else overwrite (S pos) bs (overwrite pos [b] l).
Proof.
  destruct bs as [|c bs]; [reflexivity|]. induction pos as [|pos IH]; intros l.
  - cbn [overwrite app List.length]. destruct l; reflexivity.
  - destruct l as [|x l]; cbn [overwrite]; f_equal; rewrite IH; reflexivity.
Qed.
Lemma st_write_cons b bs s : bs <> [] -> st_write (b :: bs) s = st_write bs (st_write [b] s).
Proof.
  intros H. unfold st_write. destruct (st_fail s) eqn:F; [now rewrite F|]. destruct (st_kind s) eqn:K; cbn [st_fail st_kind st_pos st_bytes].
  - rewrite overwrite_cons. destruct bs as [|c bs]; [contradiction|]. cbn [List.length]. rewrite Nat.add_1_r. f_equal. lia.
  - rewrite <- app_assoc. cbn [app List.length]. f_equal. lia.
  - rewrite <- app_assoc. reflexivity.
Qed.
Lemma st_write_fail bs s : st_fail (st_write bs s) = st_fail s.
Proof. unfold st_write. destruct (st_fail s) eqn:F; [exact F|]. destruct (st_kind s); reflexivity. Qed.
Lemma d_failed bs : forall d, st_fail (d_stream d) = true -> d_write bs d = d.
Proof. induction bs as [|b bs IH]; intros d F; [reflexivity|]. cbn [d_write fold_left]. unfold d_put at 2. rewrite F. now apply IH. Qed.

(** Without a limit. *)
Lemma d_write_none bs : forall s ops, st_fail s = false -> bs <> [] ->
  d_write bs {| d_stream := s; d_ops := ops; d_room := None |} = {| d_stream := st_write bs s; d_ops := ops ++ map PutByte bs; d_room := None |}.
Proof.
  induction bs as [|b bs IH]; intros s ops F H; [contradiction|]. cbn [d_write fold_left]. unfold d_put at 2. cbn [d_stream d_room d_ops has_room]. rewrite F.
  destruct bs as [|c bs]; [reflexivity|]. change (fold_left d_put (c :: bs)) with (d_write (c :: bs)). rewrite IH; [|now rewrite st_write_fail|discriminate].
  rewrite (st_write_cons b (c :: bs)) by discriminate. rewrite <- app_assoc. reflexivity.
Qed.
Lemma d_write_none_stream bs d : d_room d = None -> bs <> [] -> d_stream (d_write bs d) = st_write bs (d_stream d) /\ d_room (d_write bs d) = None.
Proof.
  intros R H. destruct (st_fail (d_stream d)) eqn:F.
  - rewrite (d_failed bs d F). split; [|exact R]. unfold st_write. now rewrite F.
  - destruct d as [s o r]. cbn [d_room d_stream] in *. subst r. rewrite d_write_none by assumption. now split.
Qed.
Lemma d_words_none ws : forall d, d_room d = None ->
  d_stream (fold_left (fun o w => d_write (be_bytes w) o) ws d) = fold_left (fun o w => st_write (be_bytes w) o) ws (d_stream d) /\
  d_room (fold_left (fun o w => d_write (be_bytes w) o) ws d) = None.
Proof.
  induction ws as [|w ws IH]; intros d R; [now split|]. cbn [fold_left]. destruct (d_write_none_stream (be_bytes w) d R) as [A B]; [discriminate|].
  destruct (IH _ B) as [C D]. rewrite C, A. now split.
Qed.
Lemma header_not_nil part source gen date time : create_header part source gen date time <> [].
Proof. unfold create_header. discriminate. Qed.
Lemma device_bitstream_none fuel ks part source gen date time d : d_room d = None ->
  omap d_stream (device_bitstream fuel ks part source gen date time d) = write_bitstream fuel ks part source gen date time (d_stream d).
Proof.
  intros R. unfold device_bitstream, write_bitstream. destruct (writer_words fuel ks) as [ws| | | |]; try reflexivity. cbn [obind omap].
  destruct (d_write_none_stream _ d R (header_not_nil part source gen date time)) as [A B].
  destruct (d_words_none ws _ B) as [C D]. set (d1 := d_write (create_header part source gen date time) d) in *.
  set (d2 := fold_left (fun o w => d_write (be_bytes w) o) ws d1) in *.
  match goal with |- context [d_seekp ?p d2] => set (pos := p) end. match goal with |- context [d_write (be_bytes ?n) _] => set (len := n) end.
  destruct (d_write_none_stream (be_bytes len) (d_seekp pos d2) D) as [E _]; [discriminate|]. rewrite E. f_equal.
  unfold d_seekp. cbn [d_stream]. rewrite C, A. unfold len, pos. rewrite C, A. reflexivity.
Qed.
Lemma device_encode_none fuel dp part source date time fd d : d_room d = None ->
  omap d_stream (device_encode fuel dp part source date time fd d) = encode fuel dp part source date time fd (d_stream d).
Proof.
  intros R. unfold device_encode, encode. destruct (add_missing_frames fuel (part_from dp) (convert_frames fd)) as [fs| | | |]; try reflexivity. cbn [obind].
  now apply device_bitstream_none.
Qed.

(** A regular file. *)
Definition room_for (room : option nat) (n : nat) : bool := match room with None => true | Some r => (n <=? r)%nat end.
Lemma d_write_end bs : forall l ops room, room_for room (List.length l + List.length bs) = true ->
  d_write bs {| d_stream := file_at_end l; d_ops := ops; d_room := room |} =
  {| d_stream := file_at_end (l ++ bs); d_ops := ops ++ map PutByte bs; d_room := room |}.
Proof.
  induction bs as [|b bs IH]; intros l ops room H; [cbn; now rewrite !app_nil_r|]. cbn [d_write fold_left]. unfold d_put at 2. cbn [d_stream d_room d_ops]. change (st_fail (file_at_end l)) with false. cbv iota.
  assert (Q : has_room room (file_at_end l) = true).
  { destruct room as [r|]; [|reflexivity]. cbn [has_room file_at_end st_kind st_pos room_for] in *. apply Nat.leb_le in H. cbn [List.length] in H. apply Nat.ltb_lt. lia. }
  rewrite Q, st_write_end.
  change (fold_left d_put bs) with (d_write bs). rewrite IH.
  - rewrite <- !app_assoc. reflexivity.
  - rewrite app_length. cbn [List.length] in *. replace (List.length l + 1 + List.length bs)%nat with (List.length l + S (List.length bs))%nat by lia. exact H.
Qed.
Lemma d_write_full bs : forall l ops r, (List.length l <= r)%nat -> (r < List.length l + List.length bs)%nat ->
  d_write bs {| d_stream := file_at_end l; d_ops := ops; d_room := Some r |} =
  {| d_stream := set_bad (file_at_end (firstn r (l ++ bs))); d_ops := ops ++ map PutByte (firstn (r - List.length l) bs); d_room := Some r |}.
Proof.
  intros l ops r L H. rewrite <- (firstn_skipn (r - List.length l) bs) at 1. unfold d_write. rewrite fold_left_app. fold d_write.
  change (fold_left d_put (firstn (r - List.length l) bs)) with (d_write (firstn (r - List.length l) bs)).
  rewrite d_write_end by (cbn [room_for]; apply Nat.leb_le; rewrite firstn_length; lia).
  assert (E : firstn r (l ++ bs) = l ++ firstn (r - List.length l) bs) by (rewrite firstn_app, firstn_all2 by lia; reflexivity). rewrite <- E.
  destruct (skipn (r - List.length l) bs) as [|b t] eqn:S.
  - exfalso. apply (f_equal (@List.length N)) in S. rewrite skipn_length in S. cbn [List.length] in S. lia.
  - cbn [fold_left]. unfold d_put at 2. cbn [d_stream d_room d_ops file_at_end st_fail has_room st_kind st_pos].
    replace (List.length (firstn r (l ++ bs)) <? r)%nat with false by (symmetry; apply Nat.ltb_ge; rewrite firstn_length, app_length; lia).
    change (fold_left d_put t) with (d_write t). apply d_failed. reflexivity.
Qed.
Lemma d_write_at bs : forall l pos ops room, bs <> [] -> room_for room (pos + List.length bs) = true ->
  d_write bs {| d_stream := {| st_kind := Seekable; st_bytes := l; st_pos := pos; st_fail := false |}; d_ops := ops; d_room := room |} =
  {| d_stream := {| st_kind := Seekable; st_bytes := overwrite pos bs l; st_pos := pos + List.length bs; st_fail := false |};
     d_ops := ops ++ map PutByte bs; d_room := room |}.
Proof.
  induction bs as [|b bs IH]; intros l pos ops room H Q; [contradiction|]. cbn [d_write fold_left]. unfold d_put at 2. cbn [d_stream d_room d_ops st_fail].
  assert (Q' : has_room room {| st_kind := Seekable; st_bytes := l; st_pos := pos; st_fail := false |} = true).
  { destruct room as [r|]; [|reflexivity]. cbn [has_room st_kind st_pos room_for] in *. apply Nat.leb_le in Q. cbn [List.length] in Q. apply Nat.ltb_lt. lia. }
  rewrite Q'. unfold st_write. cbn [st_fail st_kind st_pos st_bytes List.length]. change (fold_left d_put bs) with (d_write bs).
  destruct bs as [|c bs]; [reflexivity|]. rewrite IH; [|discriminate|].
  - rewrite (overwrite_cons pos b (c :: bs)). rewrite <- app_assoc. rewrite Nat.add_1_r. cbn [map app List.length]. do 2 f_equal. lia.
  - cbn [List.length] in *. replace (pos + 1 + S (List.length bs))%nat with (pos + S (S (List.length bs)))%nat by lia. exact Q.
Qed.
Lemma d_words ws : forall d, fold_left (fun o w => d_write (be_bytes w) o) ws d = d_write (flat_map be_bytes ws) d.
Proof. induction ws as [|w ws IH]; intros d; [reflexivity|]. cbn [fold_left flat_map]. rewrite IH. unfold d_write. now rewrite fold_left_app. Qed.

(** What a run of the writer does to a new file: header with length zero, data, back to the length, length. *)
Lemma device_bitstream_file fuel ks part source gen date time room ws : writer_words fuel ks = Ok ws ->
  let raw := raw_header part source gen date time in
  let data := flat_map be_bytes ws in
  let len := be_bytes (N.of_nat (List.length data) mod 2 ^ 32) in
  let zero := raw ++ [0; 0; 0; 0] ++ data in
  device_bitstream fuel ks part source gen date time {| d_stream := file_at_end []; d_ops := []; d_room := room |} =
  Ok match room with
     | Some r => if (r <? List.length zero)%nat
                 then {| d_stream := set_bad (file_at_end (firstn r zero)); d_ops := map PutByte (firstn r zero); d_room := room |}
                 else {| d_stream := {| st_kind := Seekable; st_bytes := raw ++ len ++ data; st_pos := List.length raw + 4; st_fail := false |};
                         d_ops := map PutByte zero ++ SetPos (List.length raw) :: map PutByte len; d_room := room |}
     | None => {| d_stream := {| st_kind := Seekable; st_bytes := raw ++ len ++ data; st_pos := List.length raw + 4; st_fail := false |};
                  d_ops := map PutByte zero ++ SetPos (List.length raw) :: map PutByte len; d_room := room |}
     end.
Proof.
  intros W raw data len zero. unfold device_bitstream. rewrite W. cbn [obind]. f_equal. rewrite d_words. fold data.
  set (hdr := create_header part source gen date time). assert (H : hdr = raw ++ [0; 0; 0; 0]) by apply create_header_split.
  assert (Hz : hdr ++ data = zero) by (rewrite H, <- app_assoc; reflexivity).
  set (d0 := {| d_stream := file_at_end []; d_ops := []; d_room := room |}).
  assert (DW : d_write data (d_write hdr d0) = d_write zero d0) by (rewrite <- Hz; unfold d_write; now rewrite fold_left_app).
  rewrite DW.
  assert (Ok_case : room_for room (List.length zero) = true ->
    (let out := d_write zero d0 in
     let out := d_seekp (st_tellp (d_stream (d_write hdr d0)) - 4) out in
     d_write (be_bytes (Z.to_N ((st_tellp (d_stream (d_write zero d0)) - st_tellp (d_stream (d_write hdr d0))) mod 2 ^ 32)%Z)) out) =
    {| d_stream := {| st_kind := Seekable; st_bytes := raw ++ len ++ data; st_pos := List.length raw + 4; st_fail := false |};
       d_ops := map PutByte zero ++ SetPos (List.length raw) :: map PutByte len; d_room := room |}).
  { intros R. unfold d0. rewrite !d_write_end.
    2:{ cbn [List.length Nat.add]. destruct room as [r|]; [|reflexivity]. cbn [room_for] in *. apply Nat.leb_le in R. apply Nat.leb_le. rewrite <- Hz, app_length in R. lia. }
    2:{ cbn [List.length Nat.add]. exact R. }
    cbn [app d_stream]. cbv zeta.
    assert (T1 : st_tellp (file_at_end hdr) = Z.of_nat (List.length raw + 4)) by (unfold st_tellp, file_at_end; cbn [st_fail st_kind st_pos]; rewrite H, app_length; reflexivity).
    assert (T2 : (st_tellp (file_at_end zero) - st_tellp (file_at_end hdr))%Z = Z.of_N (N.of_nat (List.length data))).
    { unfold st_tellp, file_at_end. cbn [st_fail st_kind st_pos]. rewrite <- Hz, app_length. lia. }
    rewrite T2, T1. change (2 ^ 32)%Z with (Z.of_N (2 ^ 32)). rewrite <- N2Z.inj_mod, N2Z.id. fold len.
    unfold d_seekp. cbn [d_stream d_ops d_room]. unfold st_seekp, file_at_end. cbn [st_fail st_kind st_bytes st_pos].
    replace (Z.of_nat (List.length raw + 4) - 4 <? 0)%Z with false by lia. cbn [st_fail].
    replace (Z.to_nat (Z.of_nat (List.length raw + 4) - 4)) with (List.length raw) by lia.
    rewrite d_write_at; [| discriminate|].
    - unfold zero. rewrite overwrite_mid by reflexivity. rewrite <- app_assoc. reflexivity.
    - destruct room as [r|]; [|reflexivity]. cbn [room_for] in *. apply Nat.leb_le in R. apply Nat.leb_le. unfold zero in R. rewrite !app_length in R. cbn [List.length] in R.
      change (List.length len) with 4%nat. lia. }
  destruct room as [r|]; [|now apply Ok_case]. destruct (r <? List.length zero)%nat eqn:E.
  - apply Nat.ltb_lt in E. clear Ok_case. unfold d0 in *. rewrite (d_write_full zero [] [] r) in * by (cbn [List.length]; lia).
    cbn [app List.length] in *. rewrite Nat.sub_0_r in *. unfold d_seekp at 1. cbn [d_stream st_seekp set_bad st_fail d_ops d_room].
    rewrite d_failed by reflexivity. reflexivity.
  - apply Nat.ltb_ge in E. apply Ok_case. cbn [room_for]. now apply Nat.leb_le.
Qed.

(** ** Files under construction *)
Lemma put_at_end b l : put_at (List.length l) b l = l ++ [b].
Proof. induction l as [|x l IH]; [reflexivity|]. cbn [List.length put_at app]. now rewrite IH. Qed.
Lemma put_at_mid b a x c : put_at (List.length a) b (a ++ x :: c) = a ++ b :: c.
Proof. induction a as [|y a IH]; [reflexivity|]. cbn [List.length put_at app]. now rewrite IH. Qed.
Lemma file_puts bs : forall l, fold_left file_step (map PutByte bs) (l, List.length l) = (l ++ bs, List.length (l ++ bs)).
Proof.
  induction bs as [|b bs IH]; intros l; [cbn; now rewrite app_nil_r|]. cbn [map fold_left file_step fst snd]. rewrite put_at_end.
  replace (S (List.length l)) with (List.length (l ++ [b])) by (rewrite app_length; cbn; lia). rewrite IH, <- app_assoc. reflexivity.
Qed.
Lemma file_over bs : forall a z c, List.length bs = List.length z ->
  fold_left file_step (map PutByte bs) (a ++ z ++ c, List.length a) = (a ++ bs ++ c, List.length (a ++ bs)).
Proof.
  induction bs as [|b bs IH]; intros a z c H; destruct z as [|x z]; try discriminate H; [cbn; now rewrite app_nil_r|].
  cbn [map fold_left file_step fst snd app]. rewrite put_at_mid. replace (S (List.length a)) with (List.length (a ++ [b])) by (rewrite app_length; cbn; lia).
  replace (a ++ b :: z ++ c) with ((a ++ [b]) ++ z ++ c) by (rewrite <- app_assoc; reflexivity). rewrite IH by (cbn in H; lia). rewrite <- !app_assoc. reflexivity.
Qed.
Lemma map_prefix {A B} (f : A -> B) l : forall pre post, map f l = pre ++ post -> exists k, (k <= List.length l)%nat /\ pre = map f (firstn k l) /\ post = map f (skipn k l).
Proof.
  induction l as [|x l IH]; intros pre post H.
  - cbn in H. symmetry in H. apply app_eq_nil in H as [-> ->]. exists 0%nat. now repeat split.
  - destruct pre as [|p pre].
    + exists 0%nat. split; [lia|]. cbn [app] in H. now split.
    + cbn [map app] in H. injection H as <- H. destruct (IH _ _ H) as (k & L & -> & ->). exists (S k). split; [cbn; lia|]. now split.
Qed.
(** At any point of the run of the writer. *)
Lemma points raw data len pre post : List.length len = 4%nat ->
  map PutByte (raw ++ [0; 0; 0; 0] ++ data) ++ SetPos (List.length raw) :: map PutByte len = pre ++ post ->
  (exists k, (k <= List.length (raw ++ [0; 0; 0; 0]%N ++ data))%nat /\ file_after pre = firstn k (raw ++ [0; 0; 0; 0] ++ data) /\ post <> []) \/
  (exists j, (j <= 4)%nat /\ file_after pre = raw ++ (firstn j len ++ repeat 0 (4 - j)) ++ data /\ (post = [] -> j = 4%nat)).
Proof.
  intros L4 H. set (zero := raw ++ [0; 0; 0; 0] ++ data) in *.
  destruct (Nat.le_gt_cases (List.length pre) (List.length zero)) as [L|L].
  - left. assert (X : map PutByte zero = pre ++ firstn (List.length zero - List.length pre) post).
    { apply (f_equal (firstn (List.length zero))) in H. rewrite !firstn_app, map_length, Nat.sub_diag in H. cbn [firstn] in H. rewrite app_nil_r in H.
      rewrite firstn_all2 in H by (rewrite map_length; lia). rewrite H. f_equal. apply firstn_all2. lia. }
    destruct (map_prefix _ _ _ _ X) as (k & Lk & -> & _). exists k. split; [exact Lk|]. split.
    { unfold file_after. pose proof (file_puts (firstn k zero) []) as F. cbn [List.length] in F. rewrite F. reflexivity. }
    intros ->. apply (f_equal (@List.length file_op)) in H. rewrite !app_length in H. cbn [List.length] in H. rewrite !map_length in *. lia.
  - right. assert (X : exists pre', pre = map PutByte zero ++ SetPos (List.length raw) :: pre' /\ map PutByte len = pre' ++ post).
    { exists (skipn (S (List.length zero)) pre). apply (f_equal (skipn (S (List.length zero)))) in H as H2. apply (f_equal (firstn (S (List.length zero)))) in H as H1.
      rewrite !firstn_app, !map_length in H1. rewrite !skipn_app, !map_length in H2.
      replace (S (List.length zero) - List.length zero)%nat with 1%nat in * by lia. replace (S (List.length zero) - List.length pre)%nat with 0%nat in * by lia.
      rewrite firstn_all2 in H1 by (rewrite map_length; lia). rewrite skipn_all2 in H2 by (rewrite map_length; lia).
      rewrite firstn_O, app_nil_r in H1. change (skipn 0 post) with post in H2. cbn [app] in H2. split; [|exact H2]. rewrite <- (firstn_skipn (S (List.length zero)) pre) at 1. rewrite <- H1, <- app_assoc. reflexivity. }
    destruct X as (pre' & -> & E). destruct (map_prefix _ _ _ _ E) as (j & Lj & -> & ->). rewrite L4 in Lj. exists j. split; [exact Lj|]. split.
    + unfold file_after. rewrite fold_left_app. pose proof (file_puts zero []) as F. cbn [List.length] in F. rewrite F. cbn [app fold_left file_step fst].
      unfold zero. assert (Z : [0; 0; 0; 0] = repeat 0 j ++ repeat 0 (4 - j)) by (rewrite <- repeat_app; replace (j + (4 - j))%nat with 4%nat by lia; reflexivity).
      rewrite Z, <- !app_assoc. rewrite (file_over (firstn j len) raw (repeat 0 j)) by (rewrite firstn_length, repeat_length; lia). reflexivity.
    + intros Q. apply map_eq_nil in Q. apply (f_equal (@List.length N)) in Q. rewrite skipn_length in Q. cbn [List.length] in Q. lia.
Qed.
Lemma raw_header_88 date time : List.length date = 10%nat -> List.length time = 8%nat ->
  List.length (raw_header (tx "fasm") (tx "fpga-source") kGeneratorName date time) = 88%nat.
Proof. intros D T. unfold raw_header, tlv_field, text_bytes. rewrite !app_length, !map_length. cbn [List.length]. rewrite D, T. reflexivity. Qed.

(** A run that ends with status 0 on a new file. *)
Lemma device_program_file room fuel sm ord c d : c_stdout c = file_at_end [] -> device_program None fuel sm ord c = Ok (0, d) ->
  exists ws,
    let raw := raw_header (tx "fasm") (tx "fpga-source") kGeneratorName (c_date c) (c_time c) in
    let data := flat_map be_bytes ws in
    let len := be_bytes (N.of_nat (List.length data) mod 2 ^ 32) in
    let zero := raw ++ [0; 0; 0; 0] ++ data in
    st_bytes (d_stream d) = raw ++ len ++ data /\ d_ops d = map PutByte zero ++ SetPos (List.length raw) :: map PutByte len /\
    exists d', device_program room fuel sm ord c = Ok (0, d') /\
      st_bytes (d_stream d') = match room with Some r => if (r <? List.length zero)%nat then firstn r zero else raw ++ len ++ data | None => raw ++ len ++ data end.
Proof.
  intros ES H. unfold device_program in *. rewrite ES in *.
  destruct (2 <? List.length (c_args c))%nat; [discriminate H|]. destruct (db_path c) as [root|]; [|discriminate H].
  destruct (match root with [] => true | _ => negb (e_exists (c_env c) root) end); [discriminate H|].
  destruct (c_part c) as [|pc pr] eqn:EPT; [discriminate H|]. rewrite <- EPT in *.
  destruct (parse_database (c_env c) (o_load ord) root (c_part c)) as [tls| | | |]; try discriminate H.
  destruct (input_text c) as [input|]; [|discriminate H]. destruct (assemble_frames sm ord tls input) as [fr| | | |]; try discriminate H.
  unfold device_encode in *. destruct (add_missing_frames fuel (part_from (tl_part tls)) (convert_frames fr)) as [fs| | | |]; try discriminate H. cbn [obind] in *.
  set (ks := configuration_package (type2_data (part_from (tl_part tls)) fs) (part_from (tl_part tls))) in *.
  destruct (writer_words fuel ks) as [ws| | | |] eqn:W.
  2-5: unfold device_bitstream in H; rewrite W in H; discriminate H.
  exists ws. rewrite (device_bitstream_file fuel ks _ _ _ _ _ None ws W) in H. rewrite (device_bitstream_file fuel ks _ _ _ _ _ room ws W).
  cbv zeta in *.
  generalize (raw_header (tx "fasm") (tx "fpga-source") kGeneratorName (c_date c) (c_time c)) as raw, H. clear. intros raw H.
  assert (INJ : forall (a b : device), Ok (0, a) = Ok (0, b) -> a = b) by congruence. apply INJ in H. clear INJ. subst d. cbn [d_stream d_ops st_bytes].
  split; [reflexivity|]. split; [reflexivity|].
  destruct room as [r|]; [|eexists; split; reflexivity].
  destruct (r <? _)%nat; eexists; (split; [reflexivity|]); reflexivity.
Qed.
