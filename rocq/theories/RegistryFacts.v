(** The banks registry. *)
From Verif Require Import Base BaseFacts Absl Part DbText DbJson Database Assembler AsmSpec MapFacts.
From Coq Require Import ZifyBool ZifyN ZifyNat.

Definition banks_of (ps : list (N * text)) (t : text) : list N :=
  map fst (filter (fun p => text_eqb t (snd p)) ps).

Definition reg_inv (ps : list (N * text)) (st : list (text * list N) * list (N * list text)) : Prop :=
  (forall t, match hm_find text_eqb t (fst st) with Some l => l | None => [] end = banks_of ps t) /\
  (forall b, match hm_find N.eqb b (snd st) with
             | Some s => NoDup s /\ s <> [] /\ forall t, In t s <-> In (b, t) ps
             | None => forall t, ~ In (b, t) ps
             end) /\
  NoDup (map fst (snd st)).

Lemma reg_add_inv ps st bank t : reg_inv ps st -> reg_inv (ps ++ [(bank, t)]) (reg_add st bank t).
Proof.
  destruct st as [t2b b2t]. intros (HB & HT & ND). cbn [fst snd] in *. unfold reg_add.
  split; [|split]; cbn [fst snd].
  - intros x. rewrite (hm_find_set _ text_eqb_eq), (hm_find_insert _ text_eqb_eq), text_eqb_refl.
    unfold banks_of. rewrite filter_app, map_app. cbn [filter snd].
    pose proof (HB x) as Hx. pose proof (HB t) as Ht. unfold banks_of in Hx, Ht.
    rewrite (hm_find_insert _ text_eqb_eq).
    destruct (text_eqb x t) eqn:E.
    + apply text_eqb_eq in E. subst x. cbn [map fst]. rewrite <- Ht.
      destruct (hm_find text_eqb t t2b); reflexivity.
    + cbn [map]. rewrite app_nil_r. exact Hx.
  - intros b. rewrite (hm_find_set _ N.eqb_eq). destruct (N.eqb_spec b bank) as [->|Nb].
    + pose proof (HT bank) as Hb. destruct (hm_find N.eqb bank b2t) as [s|].
      * destruct Hb as (Ns & NE & Hs). split; [now apply (hs_insert_NoDup _ text_eqb_eq)|]. split.
        { intros X. assert (Y : In t (hs_insert text_eqb t s)) by (apply (hs_insert_In _ text_eqb_eq); now left).
          rewrite X in Y. destruct Y. }
        intros x. rewrite (hs_insert_In _ text_eqb_eq), in_app_iff, Hs. cbn [In].
        split; [intros [->|I]; auto|]. intros [I|[I|[]]]; [auto|]. left. congruence.
      * split; [apply (hs_insert_NoDup _ text_eqb_eq); constructor|]. split; [discriminate|].
        intros x. rewrite (hs_insert_In _ text_eqb_eq), in_app_iff. cbn [In].
        split; [intros [->|[]]; auto|]. intros [I|[I|[]]]; [exfalso; eapply Hb; eauto|]. left. congruence.
    + pose proof (HT b) as Hb. destruct (hm_find N.eqb b b2t) as [s|].
      * destruct Hb as (Ns & NE & Hs). split; [exact Ns|]. split; [exact NE|]. intros x.
        rewrite Hs, in_app_iff. cbn [In]. split; [auto|]. intros [I|[I|[]]]; [exact I|congruence].
      * intros x I. apply in_app_iff in I as [I|[I|[]]]; [eapply Hb; eauto|congruence].
  - now apply (hm_set_NoDup _ N.eqb_eq).
Qed.

Lemma reg_inv_nil : reg_inv [] ([], []).
Proof. split; [reflexivity|]. split; [|constructor]. intros b t []. Qed.

Lemma reg_create_inv ord iobanks pins : exists st,
  reg_create ord iobanks pins = {| br_banks := fst st;
     br_tiles := map (fun kv : N * list text => (fst kv, ord (fst kv) (snd kv))) (snd st) |}
  /\ reg_inv (bank_pairs iobanks pins) st.
Proof.
  unfold reg_create, bank_pairs. eexists. split; [reflexivity|].
  assert (G1 : forall l ps st, reg_inv ps st ->
    reg_inv (ps ++ map (fun kv => (fst kv, tx "HCLK_IOI3_" ++ snd kv)) l)
      (fold_left (fun st (kv : N * text) => reg_add st (fst kv) (tx "HCLK_IOI3_" ++ snd kv)) l st)).
  { induction l as [|kv l IH]; intros ps st H; cbn [map fold_left]; [now rewrite app_nil_r|].
    change (?x :: ?y) with ([x] ++ y). rewrite app_assoc. apply IH. now apply reg_add_inv. }
  assert (G2 : forall l ps st, reg_inv ps st ->
    reg_inv (ps ++ map (fun p => (pp_bank p, pp_tile p)) l)
      (fold_left (fun st p => reg_add st (pp_bank p) (pp_tile p)) l st)).
  { induction l as [|p l IH]; intros ps st H; cbn [map fold_left]; [now rewrite app_nil_r|].
    change (?x :: ?y) with ([x] ++ y). rewrite app_assoc. apply IH. now apply reg_add_inv. }
  apply G2. apply (G1 iobanks []). apply reg_inv_nil.
Qed.

Lemma bank_pairs_In iobanks pins b t : In (b, t) (bank_pairs iobanks pins) <-> in_bank iobanks pins b t.
Proof.
  unfold bank_pairs, in_bank. rewrite in_app_iff, !in_map_iff. split.
  - intros [([b' s] & E & I)|(p & E & I)].
    + left. cbn [fst snd] in E. exists s. inversion E; subst. auto.
    + right. exists p. inversion E; subst. auto.
  - intros [(s & I & ->)|(p & I & <- & <-)].
    + left. exists (b, s). auto.
    + right. exists p. auto.
Qed.

Lemma hm_find_map_snd {A B} (f : N -> A -> B) b l :
  hm_find N.eqb b (map (fun kv : N * A => (fst kv, f (fst kv) (snd kv))) l)
  = option_map (f b) (hm_find N.eqb b l).
Proof.
  induction l as [|[k v] l IH]; cbn [map hm_find fst snd]; [reflexivity|].
  destruct (N.eqb_spec b k) as [->|N]; [reflexivity|exact IH].
Qed.

Lemma reg_tile_banks_spec ord iobanks pins t :
  reg_tile_banks (reg_create ord iobanks pins) t = banks_of (bank_pairs iobanks pins) t.
Proof.
  destruct (reg_create_inv ord iobanks pins) as (st & -> & HB & _). unfold reg_tile_banks. cbn [br_banks].
  apply HB.
Qed.

Lemma banks_of_In ps t b : In b (banks_of ps t) <-> In (b, t) ps.
Proof.
  unfold banks_of. rewrite in_map_iff. split.
  - intros ([b' t'] & <- & I). apply filter_In in I as [I E]. cbn [fst snd] in *.
    apply text_eqb_eq in E. now subst.
  - intros I. exists (b, t). split; [reflexivity|]. apply filter_In. split; [exact I|]. apply text_eqb_refl.
Qed.

Lemma reg_tiles_spec ord iobanks pins b : (forall b l, Permutation (ord b l) l) ->
  match reg_tiles (reg_create ord iobanks pins) b with
  | Some ts => NoDup ts /\ ts <> [] /\ forall t, In t ts <-> in_bank iobanks pins b t
  | None => forall t, ~ in_bank iobanks pins b t
  end.
Proof.
  intros P. destruct (reg_create_inv ord iobanks pins) as (st & -> & _ & HT & _).
  unfold reg_tiles. cbn [br_tiles]. rewrite (hm_find_map_snd ord). specialize (HT b).
  destruct (hm_find N.eqb b (snd st)) as [s|]; cbn [option_map].
  - destruct HT as (ND & NE & HI). split; [|split].
    + apply (Permutation_NoDup (Permutation_sym (P b s)) ND).
    + intros X. apply NE. pose proof (P b s) as PP. rewrite X in PP. now apply Permutation_nil in PP.
    + intros t. rewrite <- bank_pairs_In, <- HI. split; intros I.
      * now apply (Permutation_in _ (P b s)).
      * now apply (Permutation_in _ (Permutation_sym (P b s))).
  - intros t X. apply bank_pairs_In in X. now apply HT in X.
Qed.
