(** An executable scheduler for the worker threads of TidyPool.v, for concrete runs: it is only used to show that states
    are reachable.  [Go k] lets thread [k] do its next step, writing everything at once; [Cut k n] lets it write [n] bytes;
    [Interrupt k] ends its clang-tidy by a signal; [Kill p] ends a process; [Start p j q] starts one. *)
From Verif Require Import Base BaseFacts Absl Tidy TidyPool TidyFacts.

Inductive act := Go (k : nat) | Cut (k n : nat) | Interrupt (k : nat) | Kill (p : text) | Start (p : text) (jobs : nat) (q : list work).

Definition with_thread (s : sys) (k : nat) (fs : fsys) (q : text -> list work) (st : stage) (lost : list (text * work)) : option sys :=
  match nth_error (s_threads s) k with
  | Some (p, _) => Some {| s_fs := fs; s_queue := q; s_threads := firstn k (s_threads s) ++ (p, st) :: skipn (S k) (s_threads s);
                           s_given := s_given s; s_lost := lost; s_dead := s_dead s; s_aborted := s_aborted s |}
  | None => None
  end.
Definition dead (p : text) (s : sys) : bool := existsb (text_eqb p) (s_dead s).

Definition go_own (g : setting) (s : sys) (k : nat) (p : text) (st : stage) (n : option nat) : option sys :=
  let put fs' q' st' := with_thread s k fs' (set_queue p q' (s_queue s)) st' (s_lost s) in
  let fs := s_fs s in
  let q := s_queue s p in
  match st with
  | Fetch => match q with [] => put fs [] Done | w :: q' => put fs q' (Have w) end
  | Have w => let '(fs', i) := open_trunc (tmp_for (g_dir g) p w) fs in put fs' q (Running w i 0 (g_out g p w))
  | Running w i off [] => put fs q (Ended w false)
  | Running w i off rest =>
      let m := match n with Some m => S m | None => List.length rest end in
      with_thread s k (write_file i off (firstn m rest) fs) (s_queue s)
        (Running w i (off + List.length (firstn m rest)) (skipn m rest)) (s_lost s)
  | Ended w false => put fs q (Loaded w (get_content fs (tmp_for (g_dir g) p w)))
  | Loaded w c => let '(fs', i) := open_trunc (tmp_for (g_dir g) p w) fs in put fs' q (Writing w i 0 (cleaned (g_repair g) (fst w) c))
  | Writing w i off [] => put fs q (Written w)
  | Writing w i off rest =>
      let m := match n with Some m => S m | None => List.length rest end in
      put (write_file i off (firstn m rest) fs) q (Writing w i (off + List.length (firstn m rest)) (skipn m rest))
  | Written w =>
      match rename_file (tmp_for (g_dir g) p w) (path_for (g_dir g) w) fs with
      | Some fs' => put fs' q Fetch
      | None => Some {| s_fs := s_fs s; s_queue := s_queue s; s_threads := s_threads s; s_given := s_given s;
                        s_lost := s_lost s; s_dead := p :: s_dead s; s_aborted := p :: s_aborted s |}
      end
  | Ended w true => with_thread s k (remove_file (tmp_for (g_dir g) p w) fs) (s_queue s) Done ((p, w) :: s_lost s)
  | Done => None
  end.

Definition go (ok : list work -> bool) (g : setting) (s : sys) (a : act) : option sys :=
  match a with
  | Go k => match nth_error (s_threads s) k with Some (p, st) => if dead p s then None else go_own g s k p st None | None => None end
  | Cut k n => match nth_error (s_threads s) k with Some (p, st) => if dead p s then None else go_own g s k p st (Some n) | None => None end
  | Interrupt k =>
      match nth_error (s_threads s) k with
      | Some (p, Running w i off rest) =>
          if dead p s then None else with_thread s k (s_fs s) (set_queue p (s_queue s p) (s_queue s)) (Ended w true) (s_lost s)
      | _ => None
      end
  | Kill p => Some {| s_fs := s_fs s; s_queue := s_queue s; s_threads := s_threads s; s_given := s_given s;
                      s_lost := s_lost s; s_dead := p :: s_dead s; s_aborted := s_aborted s |}
  | Start p jobs q =>
      if existsb (text_eqb p) (map fst (s_given s)) || negb (forallb is_digit p) || negb (ok q) then None
      else Some {| s_fs := s_fs s; s_queue := set_queue p q (s_queue s);
                   s_threads := s_threads s ++ repeat (p, Fetch) jobs; s_given := (p, q) :: s_given s;
                   s_lost := s_lost s; s_dead := s_dead s; s_aborted := s_aborted s |}
  end.
Fixpoint run (ok : list work -> bool) (g : setting) (s : sys) (l : list act) : option sys :=
  match l with [] => Some s | a :: l' => match go ok g s a with Some s' => run ok g s' l' | None => None end end.

Lemma not_in_existsb p l : existsb (text_eqb p) l = false -> ~ In p l.
Proof. intros H I. rewrite <- not_true_iff_false in H. apply H. apply existsb_exists. exists p. split; [exact I|apply text_eqb_refl]. Qed.

Lemma with_thread_split s k fs q st lost s' p st0 : nth_error (s_threads s) k = Some (p, st0) ->
  with_thread s k fs q st lost = Some s' ->
  exists l r, s_threads s = l ++ (p, st0) :: r /\
    s' = {| s_fs := fs; s_queue := q; s_threads := l ++ (p, st) :: r; s_given := s_given s; s_lost := lost;
            s_dead := s_dead s; s_aborted := s_aborted s |}.
Proof.
  intros E H. unfold with_thread in H. rewrite E in H. injection H as <-. exists (firstn k (s_threads s)), (skipn (S k) (s_threads s)).
  split; [|reflexivity]. clear - E. revert E. generalize (s_threads s) as ts. induction k as [|k IH]; intros [|t ts] E; try discriminate.
  - cbn in E. injection E as ->. reflexivity.
  - cbn [nth_error] in E. cbn [firstn]. rewrite <- app_comm_cons. f_equal. now apply IH.
Qed.

Lemma go_own_sound g s k p st n s' : nth_error (s_threads s) k = Some (p, st) -> ~ In p (s_dead s) ->
  go_own g s k p st n = Some s' -> thread_step g s s'.
Proof.
  intros E Al H.
  assert (Put : forall fs' q' st', own_step g p (s_fs s) (s_queue s p) st fs' q' st' ->
     with_thread s k fs' (set_queue p q' (s_queue s)) st' (s_lost s) = Some s' -> thread_step g s s').
  { intros fs' q' st' O W. destruct (with_thread_split _ _ _ _ _ _ _ _ _ E W) as (l & r & T & ->). eapply ts_own; eauto. }
  destruct st as [|w|w i off rest|w [|]|w c|w i off rest|w|]; cbn [go_own] in H.
  - destruct (s_queue s p) eqn:Q; (eapply Put; [|exact H]); constructor.
  - destruct (open_trunc _ _) as [fs' i] eqn:O. eapply Put; [|exact H]. constructor. exact O.
  - destruct rest as [|c rest]; [eapply Put; [|exact H]; constructor|].
    set (m := match n with Some m => S m | None => List.length (c :: rest) end) in *.
    destruct (with_thread_split _ _ _ _ _ _ _ _ _ E H) as (l & r & T & ->). eapply ts_child; [exact T|].
    rewrite <- (firstn_skipn m (c :: rest)) at 1. constructor. assert (exists k, m = S k) as [j ->] by (destruct n; cbn in m; subst m; eauto).
    discriminate.
  - destruct (with_thread_split _ _ _ _ _ _ _ _ _ E H) as (l & r & T & ->). eapply ts_quit; eauto.
  - eapply Put; [|exact H]. constructor.
  - destruct (open_trunc _ _) as [fs' i] eqn:O. eapply Put; [|exact H]. constructor. exact O.
  - destruct rest as [|c rest]; [eapply Put; [|exact H]; constructor|].
    set (m := match n with Some m => S m | None => List.length (c :: rest) end) in *.
    eapply Put; [|exact H]. rewrite <- (firstn_skipn m (c :: rest)) at 1. constructor.
    assert (exists k, m = S k) as [j ->] by (destruct n; cbn in m; subst m; eauto). discriminate.
  - destruct (rename_file _ _ _) as [fs'|] eqn:R; [eapply Put; [|exact H]; now constructor|]. injection H as <-.
    apply nth_error_split in E as (l & r & T & _). eapply ts_abort; eauto.
  - discriminate.
Qed.

Lemma go_sound okb (ok : list work -> Prop) g s a s' : (forall q, okb q = true -> ok q) -> go okb g s a = Some s' -> sys_step ok g s s'.
Proof.
  intros OK H. destruct a as [k|k n|k|p|p jobs q]; cbn [go] in H.
  - destruct (nth_error (s_threads s) k) as [[p st]|] eqn:E; [|discriminate]. destruct (dead p s) eqn:D; [discriminate|].
    apply ss_thread. eapply go_own_sound; eauto. now apply not_in_existsb.
  - destruct (nth_error (s_threads s) k) as [[p st]|] eqn:E; [|discriminate]. destruct (dead p s) eqn:D; [discriminate|].
    apply ss_thread. eapply go_own_sound; eauto. now apply not_in_existsb.
  - destruct (nth_error (s_threads s) k) as [[p [| |w i off rest| | | | | ]]|] eqn:E; try discriminate.
    destruct (dead p s) eqn:D; [discriminate|].
    destruct (with_thread_split _ _ _ _ _ _ _ _ _ E H) as (l & r & T & ->). apply ss_thread. eapply ts_own; eauto.
    + now apply not_in_existsb.
    + constructor.
  - injection H as <-. apply ss_kill.
  - destruct (existsb _ _) eqn:X; [discriminate|]. destruct (forallb is_digit p) eqn:Dp; [|discriminate].
    destruct (okb q) eqn:Oq; [|discriminate]. cbn in H. injection H as <-. apply ss_start; auto. now apply not_in_existsb.
Qed.
Lemma reach_trans ok g s t u : reach ok g s t -> reach ok g t u -> reach ok g s u.
Proof. intros A B. induction B; [exact A|]. econstructor; eauto. Qed.
Lemma run_sound okb (ok : list work -> Prop) g l : (forall q, okb q = true -> ok q) ->
  forall s s', run okb g s l = Some s' -> reach ok g s s'.
Proof.
  intros OK. induction l as [|a l IH]; intros s s' H; cbn in H.
  - injection H as <-. constructor.
  - destruct (go okb g s a) as [t|] eqn:G; [|discriminate]. eapply reach_trans; [|apply IH; exact H].
    econstructor; [constructor|]. eapply go_sound; eauto.
Qed.

Fixpoint all_distinct (l : list text) : bool := match l with [] => true | x :: r => negb (existsb (text_eqb x) r) && all_distinct r end.
Lemma all_distinct_nodup l : all_distinct l = true -> NoDup l.
Proof.
  induction l as [|x l IH]; intros H; [constructor|]. cbn in H. apply andb_true_iff in H as [A B]. constructor; [|auto].
  apply not_in_existsb. now apply negb_true_iff.
Qed.
