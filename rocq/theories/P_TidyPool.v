(** C84-C86: the worker threads and the cache of scripts/run-clang-tidy-cached.cc, for every number of processes and threads,
    every interleaving, every kill and every earlier history. *)
From Verif Require Import Base BaseFacts Absl Print Tidy TidyPool TidyFacts TidyInv TidyRun TidySpec.

Lemma start_inv_ok g fs s : fs_ok fs -> reach (distinct_entries g) g (idle fs) s -> inv g fs s.
Proof. intros F R. eapply reach_inv; [apply idle_inv; exact F|exact R]. Qed.

(** ** C84: the pool *)
(** No schedule ends a process with an exception. *)
Theorem C84_no_abort g fs s : fs_ok fs -> reach (distinct_entries g) g (idle fs) s -> s_aborted s = [].
Proof. intros F R. apply (i_noabort g fs). now apply start_inv_ok. Qed.

(** A thread that has not ended can always go on, whatever the others do (unless its process has been killed). *)
Theorem C84_never_stuck g fs s l r p st : fs_ok fs -> reach (distinct_entries g) g (idle fs) s ->
  s_threads s = l ++ (p, st) :: r -> st <> Done -> ~ In p (s_dead s) ->
  exists s' st', thread_step g s s' /\ s_threads s' = l ++ (p, st') :: r /\ st' <> st.
Proof.
  intros F R E ND Al. pose proof (start_inv_ok g fs s F R) as I.
  assert (T : In (p, st) (s_threads s)) by (rewrite E; apply in_or_app; right; now left).
  assert (Own : forall fs' q' st', own_step g p (s_fs s) (s_queue s p) st fs' q' st' -> st' <> st ->
     exists s' st', thread_step g s s' /\ s_threads s' = l ++ (p, st') :: r /\ st' <> st).
  { intros fs' q' st' St Ne. eexists. exists st'. split; [eapply ts_own; eauto|]. split; [reflexivity|exact Ne]. }
  destruct st as [|w|w i off rest|w [|]|w c|w i off rest|w|].
  - destruct (s_queue s p) eqn:Q; (eapply Own; [econstructor|discriminate]).
  - destruct (open_trunc (tmp_for (g_dir g) p w) (s_fs s)) as [fs' i] eqn:Ot. eapply Own; [econstructor; exact Ot|discriminate].
  - destruct rest as [|c rest]; [eapply Own; [econstructor|discriminate]|]. do 2 eexists. split; [eapply ts_child; [exact E|]|].
    + change (c :: rest) with ([c] ++ rest). constructor. discriminate.
    + split; [reflexivity|]. intros X. apply (f_equal (fun st => match st with Running _ _ o _ | Writing _ _ o _ => o | _ => 0%nat end)) in X. cbn in X. lia.
  - do 2 eexists. split; [eapply ts_quit; eauto|]. split; [reflexivity|discriminate].
  - eapply Own; [econstructor|discriminate].
  - destruct (open_trunc (tmp_for (g_dir g) p w) (s_fs s)) as [fs' i] eqn:Ot. eapply Own; [econstructor; exact Ot|discriminate].
  - destruct rest as [|c rest]; [eapply Own; [econstructor|discriminate]|]. eapply Own.
    + change (c :: rest) with ([c] ++ rest). constructor. discriminate.
    + intros X. apply (f_equal (fun st => match st with Running _ _ o _ | Writing _ _ o _ => o | _ => 0%nat end)) in X. cbn in X. lia.
  - destruct (rename_file (tmp_for (g_dir g) p w) (path_for (g_dir g) w) (s_fs s)) as [fs'|] eqn:Rn;
      [eapply Own; [econstructor; exact Rn|discriminate]|].
    exfalso. eapply no_abort; eauto.
  - contradiction.
Qed.

(** There is no infinite run: without new processes, every sequence of steps ends. *)
Theorem C84_ends g fs s : fs_ok fs -> reach (distinct_entries g) g (idle fs) s -> Acc (fun b a => thread_step g a b) s.
Proof. intros F R. apply (threads_end g fs). now apply start_inv_ok. Qed.

(** When a process has finished, every item of its work list has its cache entry. *)
Theorem C84_all_done g fs s p q w : fs_ok fs -> reach (distinct_entries g) g (idle fs) s ->
  In (p, q) (s_given s) -> finished p s -> In w q -> exists_in (s_fs s) (path_for (g_dir g) w) = true.
Proof.
  intros F R G (A & B & C) W. pose proof (all_done_entries g fs s p q w (start_inv_ok g fs s F R) G W A B C) as H.
  unfold exists_in. destruct (content _ _); [reflexivity|contradiction].
Qed.

(** If it was alone, the entry is exactly its result. *)
Theorem C84_alone g fs s p q w : fs_ok fs -> reach (distinct_entries g) g (idle fs) s ->
  s_given s = [(p, q)] -> (forall v, In v q -> exists_in fs (path_for (g_dir g) v) = false) ->
  finished p s -> In w q -> content (s_fs s) (path_for (g_dir g) w) = Some (result g p w).
Proof.
  intros F R G New Fi W. pose proof (C84_all_done g fs s p q w F R) as H. rewrite G in H. specialize (H (or_introl eq_refl) Fi W).
  unfold exists_in in H. destruct (content (s_fs s) (path_for (g_dir g) w)) as [c|] eqn:Ec; [|discriminate].
  pose proof (start_inv_ok g fs s F R) as I. destruct (i_entry _ _ _ I w c Ec) as [H0|(p' & q' & v & A & B & C & ->)].
  - exfalso. specialize (New w W). unfold exists_in in New. rewrite H0 in New. discriminate.
  - rewrite G in A. destruct A as [A|[]]. injection A as <- <-. f_equal.
    assert (D : distinct_entries g q).
    { assert (X : forall t, reach (distinct_entries g) g (idle fs) t -> forall x y, In (x, y) (s_given t) -> distinct_entries g y).
      { induction 1 as [|t u Rt IH St]; intros x y Hxy; [contradiction|].
        inversion St as [? Th|? |? ? ? ? ? Ok]; subst; cbn in *; eauto.
        - inversion Th; subst; cbn in *; eauto.
        - destruct Hxy as [Hxy|Hxy]; [injection Hxy as <- <-; exact Ok|eauto]. }
      eapply X; [exact R|]. rewrite G. now left. }
    assert (v = w).
    { clear - D B C W. unfold distinct_entries in D. induction q as [|x q IH]; [contradiction|]. cbn in D. inversion D as [|? ? NI D']; subst.
      destruct B as [->|B], W as [->|W]; auto.
      - exfalso. apply NI. rewrite C. now apply in_map.
      - exfalso. apply NI. rewrite <- C. now apply in_map. }
    now subst v.
Qed.

(** ** C85: the cache *)
(** At every moment, whatever was killed and whoever else is at work, an entry of the cache is one that was there before or a
    whole result of an item with this name: never the beginning of one. *)
Theorem C85_whole_entries g fs s v c : fs_ok fs -> reach (distinct_entries g) g (idle fs) s ->
  content (s_fs s) (path_for (g_dir g) v) = Some c ->
  content fs (path_for (g_dir g) v) = Some c \/ whole_result g s (path_for (g_dir g) v) c.
Proof. intros F R H. apply (i_entry g fs s (start_inv_ok g fs s F R) v c H). Qed.

(** Entries stay. *)
Theorem C85_entries_stay g fs s t v : fs_ok fs -> reach (distinct_entries g) g (idle fs) s -> reach (distinct_entries g) g s t ->
  exists_in (s_fs s) (path_for (g_dir g) v) = true -> exists_in (s_fs t) (path_for (g_dir g) v) = true.
Proof.
  intros F R1 R2 H. pose proof (start_inv_ok g fs s F R1) as I. unfold exists_in in *.
  assert (K : content (s_fs s) (path_for (g_dir g) v) <> None -> content (s_fs t) (path_for (g_dir g) v) <> None).
  { clear H. induction R2 as [|t u R2 IH St]; [auto|]. intros H. specialize (IH H). clear H R1.
    assert (It : inv g fs t) by (eapply reach_inv; eauto).
    assert (It' : inv g (s_fs t) t).
    { destruct It. split; auto. intros v' c' Hc. now left. }
    pose proof (step_inv g (s_fs t) t u It' St) as J. now apply (i_kept _ _ _ J). }
  destruct (content (s_fs s) _); [|discriminate]. destruct (content (s_fs t) _); [reflexivity|]. exfalso. now apply K.
Qed.

(** A reader that has opened an entry reads the same bytes however long it takes. *)
Theorem C85_readers_safe g fs s t v i : fs_ok fs -> reach (distinct_entries g) g (idle fs) s ->
  fs_dir (s_fs s) (path_for (g_dir g) v) = Some i -> reach (distinct_entries g) g s t ->
  fs_data (s_fs t) i = fs_data (s_fs s) i.
Proof.
  intros F R D R2. pose proof (start_inv_ok g fs s F R) as I.
  apply (sealed_reach g fs s t i I R2). eapply entry_sealed; [apply I|exact D].
Qed.

(** After a finished run there is nothing left to do: the next run's work list is empty, also when other processes ran, or were
    killed, before, meanwhile or after. *)
Theorem C86_nothing_left hash g fs s0 s2 p t jobs : fs_ok fs ->
  reach (distinct_entries g) g (idle fs) s0 -> ~ In p (map fst (s_given s0)) -> forallb is_digit p = true ->
  distinct_entries g (work_list hash (exists_in (s_fs s0)) (g_dir g) t) ->
  reach (distinct_entries g) g (started p (work_list hash (exists_in (s_fs s0)) (g_dir g) t) jobs s0) s2 -> finished p s2 ->
  work_list hash (exists_in (s_fs s2)) (g_dir g) t = [].
Proof.
  intros F R0 NP Dp D R2 Fi. set (q := work_list hash (exists_in (s_fs s0)) (g_dir g) t) in *.
  set (s1 := started p q jobs s0) in *.
  assert (R1 : reach (distinct_entries g) g (idle fs) s1).
  { econstructor; [exact R0|]. unfold s1, started. apply ss_start; assumption. }
  assert (R12 : reach (distinct_entries g) g (idle fs) s2).
  { clear - R1 R2. induction R2 as [|x u R2 IH St]; [exact R1|]. econstructor; eauto. }
  assert (G : In (p, q) (s_given s2)).
  { clear - R2. induction R2 as [|x u R2 IH St]; [now left|].
    inversion St as [? Th|?|? ? ? ? ? ?]; subst; cbn; auto. inversion Th; subst; cbn; auto. }
  unfold work_list. destruct (filter _ _) as [|w l] eqn:E; [reflexivity|exfalso].
  assert (W : In w (filter (needs_refresh (exists_in (s_fs s2)) (g_dir g)) (files_of_interest hash t))) by (rewrite E; now left).
  apply filter_In in W as [W N2]. unfold needs_refresh in N2. apply negb_true_iff in N2.
  destruct (exists_in (s_fs s0) (path_for (g_dir g) w)) eqn:X.
  - assert (Y : exists_in (s_fs s2) (path_for (g_dir g) w) = true); [|congruence].
    eapply (C85_entries_stay g fs s1 s2); eauto.
  - assert (Y : exists_in (s_fs s2) (path_for (g_dir g) w) = true); [|congruence].
    eapply (C84_all_done g fs s2 p q w); eauto. apply filter_In. split; [exact W|]. unfold needs_refresh. now rewrite X.
Qed.

(** ** Concrete runs *)
Definition ex_g : setting := {| g_dir := tx "/c/contents";
  g_out := fun p w => fst w ++ tx ":1:2: bad [x-y]" ++ [ch_newline];
  g_repair := fun s => s |}.
Definition ex_fs : fsys := {| fs_dir := fun _ => None; fs_data := fun _ => []; fs_next := 0 |}.
Lemma ex_fs_ok : fs_ok ex_fs. Proof. split; cbn; discriminate. Qed.
Definition ex_ok (q : list work) : bool := all_distinct (map (path_for (g_dir ex_g)) q).
Lemma ex_ok_spec q : ex_ok q = true -> distinct_entries ex_g q.
Proof. apply all_distinct_nodup. Qed.
Definition ex_a : work := (tx "fpga/a.cc", 17).
Definition ex_b : work := (tx "fpga/b.h", 17).

(** Two processes; the first is killed in the middle of writing an output, the second does all the work: the hypotheses of
    C84_all_done, C84_never_stuck, C85_whole_entries, C85_entries_stay and C85_readers_safe. *)
Definition ex_trace : list act :=
  [Start (tx "12") 2 [ex_a; ex_b]; Go 0; Go 1; Go 1; Cut 1 3; Go 0; Go 0; Go 0; Go 0; Go 0; Go 0; Go 0; Go 0;
   Kill (tx "12"); Start (tx "34") 1 [ex_b]; Go 2; Go 2; Cut 2 5; Go 2; Go 2; Go 2; Go 2; Go 2; Go 2; Go 2; Go 2].
Definition ex_end : sys := match run ex_ok ex_g (idle ex_fs) ex_trace with Some s => s | None => idle ex_fs end.
Definition works {A} (o : option A) : bool := match o with Some _ => true | None => false end.
Lemma ex_reach : reach (distinct_entries ex_g) ex_g (idle ex_fs) ex_end.
Proof.
  apply (run_sound ex_ok _ _ ex_trace); [exact ex_ok_spec|]. unfold ex_end. 
  assert (E : works (run ex_ok ex_g (idle ex_fs) ex_trace) = true) by (vm_compute; reflexivity).
  destruct (run ex_ok ex_g (idle ex_fs) ex_trace); [reflexivity|discriminate].
Qed.
Example ex_finished : finished (tx "34") ex_end /\ In (tx "34", [ex_b]) (s_given ex_end) /\
  exists_in (s_fs ex_end) (path_for (g_dir ex_g) ex_a) = true /\
  content (s_fs ex_end) (path_for (g_dir ex_g) ex_b) = Some (result ex_g (tx "34") ex_b) /\
  content (s_fs ex_end) (tmp_for (g_dir ex_g) (tx "12") ex_b) = Some (tx "fpga") /\
  In (tx "12") (s_dead ex_end) /\ result ex_g (tx "34") ex_b <> [].
Proof.
  split; [split; [vm_compute; tauto|split]|].
  - intros st H. let t := eval vm_compute in (s_threads ex_end) in assert (E : s_threads ex_end = t) by (vm_compute; reflexivity).
    rewrite E in H. clear E. destruct H as [H|[H|[H|[]]]]; [discriminate H|discriminate H|]. congruence.
  - intros w H. assert (E : s_lost ex_end = []) by (vm_compute; reflexivity). rewrite E in H. destruct H.
  - split; [vm_compute; left; reflexivity|]. split; [vm_compute; reflexivity|]. split; [vm_compute; reflexivity|].
    split; [vm_compute; reflexivity|]. split; [vm_compute; left; reflexivity|]. vm_compute. discriminate.
Qed.

(** *** Without distinct entries the claims fail.
    Two equal headers with the same name in different directories are two work items with one entry. *)
Definition dup_tree : tree := [(tx "fpga/a/x.h", tx "int x;"); (tx "fpga/b/x.h", tx "int x;")].
Definition dup_list : list work := work_list (fun s => N.of_nat (List.length s)) (fun _ => false) (g_dir ex_g) dup_tree.
Example dup_list_items : dup_list = [(tx "fpga/a/x.h", 6); (tx "fpga/b/x.h", 6)] /\
  path_for (g_dir ex_g) (tx "fpga/a/x.h", 6) = path_for (g_dir ex_g) (tx "fpga/b/x.h", 6).
Proof. split; vm_compute; reflexivity. Qed.

Definition anything (q : list work) : Prop := True.
Definition dup_end (l : list act) : sys :=
  match run (fun _ => true) ex_g (idle ex_fs) (Start (tx "12") 2 dup_list :: l) with Some s => s | None => idle ex_fs end.
Lemma dup_reach l : works (run (fun _ => true) ex_g (idle ex_fs) (Start (tx "12") 2 dup_list :: l)) = true ->
  reach anything ex_g (idle ex_fs) (dup_end l).
Proof.
  intros H. apply (run_sound (fun _ => true) _ _ (Start (tx "12") 2 dup_list :: l)); [intros; exact Logic.I|]. unfold dup_end.
  destruct (run (fun _ => true) ex_g (idle ex_fs) (Start (tx "12") 2 dup_list :: l)); [reflexivity|discriminate].
Qed.

(** The process can be ended by an exception: both threads use one temporary file, and the second rename finds none. *)
Theorem C84_shared_entry_refuted :
  exists s, reach anything ex_g (idle ex_fs) s /\ s_given s = [(tx "12", dup_list)] /\ s_aborted s = [tx "12"].
Proof.
  exists (dup_end [Go 0; Go 1; Go 0; Go 1; Go 0; Go 1; Go 0; Go 1; Go 0; Go 1; Go 0; Go 1; Go 0; Go 1; Go 0; Go 1; Go 0; Go 1]).
  split; [apply dup_reach; vm_compute; reflexivity|]. split; vm_compute; reflexivity.
Qed.
(** An entry can be published while the other thread's clang-tidy has only begun: the cache says there is nothing to complain
    about, although neither item's result is empty; a kill at this moment leaves it so for all later runs. *)
Theorem C85_shared_entry_refuted :
  exists s, reach anything ex_g (idle ex_fs) s /\ In (tx "12") (s_dead s) /\
    content (s_fs s) (path_for (g_dir ex_g) (tx "fpga/a/x.h", 6)) = Some [] /\
    (forall w, In w dup_list -> result ex_g (tx "12") w <> []) /\
    work_list (fun s => N.of_nat (List.length s)) (exists_in (s_fs s)) (g_dir ex_g) dup_tree = [].
Proof.
  exists (dup_end [Go 0; Go 1; Go 0; Go 0; Go 0; Go 0; Go 0; Go 0; Go 0; Go 1; Go 0; Kill (tx "12")]).
  split; [apply dup_reach; vm_compute; reflexivity|]. split; [vm_compute; auto|]. split; [vm_compute; reflexivity|].
  split; [|vm_compute; reflexivity]. intros w H. rewrite (proj1 dup_list_items) in H. destruct H as [<-|[<-|[]]]; vm_compute; discriminate.
Qed.

Print Assumptions C84_no_abort.
Print Assumptions C84_never_stuck.
Print Assumptions C84_ends.
Print Assumptions C84_all_done.
Print Assumptions C84_alone.
Print Assumptions C85_whole_entries.
Print Assumptions C85_entries_stay.
Print Assumptions C85_readers_safe.
Print Assumptions C86_nothing_left.
Print Assumptions C84_shared_entry_refuted.
Print Assumptions C85_shared_entry_refuted.
