(** PUDC_B and STEPDOWN features against AsmSpec. *)
From Verif Require Import Base BaseFacts Absl Part Frame Fasm DbText DbJson Database
  Assembler EncodeSpec AsmSpec MapFacts AsmFacts LookupFacts ProcessFacts.
From Coq Require Import ZifyBool ZifyN ZifyNat.

Local Notation "x <- e ;; f" := (obind e (fun x => f))
  (at level 61, e at next level, right associativity).

(** ** Names *)
Lemma dot_tx a b : a ++ tx "." ++ b = dotted a b.
Proof. reflexivity. Qed.
Lemma dot_notin_dotted a b : In dot (dotted a b).
Proof. unfold dotted. apply in_or_app. right. now left. Qed.

Lemma split3_spec name :
  (exists t s g r, split_max 3 "." name = t :: s :: g :: r /\ path3 name t s g)
  \/ ((forall t s g, ~ path3 name t s g) /\
      ((exists t, split_max 3 "." name = [t]) \/ exists t s, split_max 3 "." name = [t; s])).
Proof.
  destruct (first_delim dot name) as [N|(t & r1 & E1 & N1)].
  - right. split.
    + intros t s g (_ & _ & _ & [->|(r & ->)]); apply N; apply dot_notin_dotted.
    + left. exists name. now apply split_max_nodot.
  - subst name. change "."%char with dot. rewrite split_max_cut by exact N1.
    destruct (first_delim dot r1) as [N|(s & r2 & E2 & N2)].
    + right. split.
      * intros t' s' g' (Nt & _ & _ & [X|(r & X)]); unfold dotted at 1 in X;
          apply cut_unique in X as [_ X]; auto; apply N; rewrite X; apply dot_notin_dotted.
      * right. exists t, r1. rewrite split_max_nodot by exact N. reflexivity.
    + subst r1. rewrite split_max_cut by exact N2. left.
      destruct (first_delim dot r2) as [N|(g & r3 & E3 & N3)].
      * exists t, s, r2, []. split; [now rewrite split_max_nodot|].
        repeat split; auto.
      * subst r2. rewrite split_max_cut by exact N3. exists t, s, g, [r3].
        split; [now rewrite split_max_0|]. repeat split; auto. right. exists r3. reflexivity.
Qed.

Lemma path3_fun name t s g t' s' g' : path3 name t s g -> path3 name t' s' g' ->
  t = t' /\ s = s' /\ g = g'.
Proof.
  intros (Nt & Ns & Ng & E) (Nt' & Ns' & Ng' & E').
  assert (X : exists r, name = dotted t (dotted s r) /\ (r = g \/ exists q, r = dotted g q)).
  { destruct E as [->|(q & ->)]; eexists; (split; [reflexivity|]); eauto. }
  assert (X' : exists r, name = dotted t' (dotted s' r) /\ (r = g' \/ exists q, r = dotted g' q)).
  { destruct E' as [->|(q & ->)]; eexists; (split; [reflexivity|]); eauto. }
  destruct X as (r & E1 & R), X' as (r' & E1' & R'). rewrite E1 in E1'. unfold dotted at 1 3 in E1'.
  apply cut_unique in E1' as [-> E2]; auto. unfold dotted in E2.
  apply cut_unique in E2 as [-> E3]; auto. subst r'.
  split; [reflexivity|]. split; [reflexivity|].
  destruct R as [->|(q & ->)], R' as [E3|(q' & E3)]; auto.
  - exfalso. apply Ng. rewrite E3. apply dot_notin_dotted.
  - exfalso. apply Ng'. rewrite <- E3. apply dot_notin_dotted.
  - unfold dotted in E3. apply cut_unique in E3 as [-> _]; auto.
Qed.

Lemma site_name_fun (t s t' s' : text) : ~ In dot t' -> ~ In dot s' -> ~ In dot s ->
  dotted t s = dotted t' s' -> t = t' /\ s = s'.
Proof.
  intros Nt' Ns' Ns E. destruct (first_delim dot t) as [N|(a & b & -> & N)].
  - unfold dotted in E. now apply cut_unique in E.
  - exfalso. unfold dotted in E. rewrite <- app_assoc in E. cbn [app] in E.
    apply cut_unique in E as [_ E]; auto. apply Ns'. rewrite <- E. apply in_or_app. right. now left.
Qed.

(** ** Site labels *)
Lemma last_char_app p d : last_char (p ++ [d]) = Ok d.
Proof. unfold last_char. now rewrite rev_unit. Qed.

Lemma iob_site_label s l : site_label s l -> iob_site s = Ok l.
Proof.
  intros H. destruct H as [p d I|p d I]; unfold iob_site; rewrite last_char_app; cbn [obind];
    vm_compute in I; repeat (destruct I as [<-|I]; [vm_compute; reflexivity|]); destruct I.
Qed.
Lemma pudcb_site_label s l : site_label s l -> pudcb_site s = Ok (Some l).
Proof.
  intros H. destruct H as [p d I|p d I]; unfold pudcb_site; rewrite last_char_app; cbn [obind];
    vm_compute in I; repeat (destruct I as [<-|I]; [vm_compute; reflexivity|]); destruct I.
Qed.
Lemma site_label_nodot s l : site_label s l -> ~ In dot l.
Proof.
  intros H I. destruct H; vm_compute in I; repeat (destruct I as [I|I]; [discriminate I|]); destruct I.
Qed.

(** ** The scan *)
Definition banked (banks : banks_registry) (f : fasm_feature) : Prop :=
  forall tile site tag, uses f tile site tag -> contains (tx "STEPDOWN") tag ->
  reg_tile_banks banks tile <> [].

Definition scan_inv (banks : banks_registry) (fs : list fasm_feature)
    (used : list text) (bt : list (N * list text)) : Prop :=
  (forall x, In x used <-> exists f t s tag, In f fs /\ uses f t s tag
                              /\ contains (tx "IOB33") t /\ x = dotted t s) /\
  (forall bank tag, (exists tags, maps_to bt bank tags /\ In tag tags) <-> wants_stepdown banks fs bank tag) /\
  NoDup (map fst bt) /\
  (forall bank tags, maps_to bt bank tags -> tags <> []).

Lemma In_snoc {A} (x y : A) l : In x (l ++ [y]) <-> In x l \/ x = y.
Proof.
  rewrite in_app_iff. cbn [In]. split; [intros [H|[H|[]]]; auto|intros [H|H]; auto].
Qed.

Lemma used_step fs f used : forall t s tag, uses f t s tag ->
  (forall x, In x used <-> exists f t s tag, In f fs /\ uses f t s tag
                              /\ contains (tx "IOB33") t /\ x = dotted t s) ->
  forall x, In x (if str_contains (tx "IOB33") t then hs_insert text_eqb (dotted t s) used else used) <->
    exists f0 t s tag, In f0 (fs ++ [f]) /\ uses f0 t s tag /\ contains (tx "IOB33") t /\ x = dotted t s.
Proof.
  intros t s tag Hu H x. destruct (str_contains (tx "IOB33") t) eqn:C.
  - apply str_contains_spec in C. rewrite (hs_insert_In _ text_eqb_eq), H. split.
    + intros [->|(f0 & t0 & s0 & g0 & I & U & C0 & ->)].
      * exists f, t, s, tag. rewrite In_snoc. auto.
      * exists f0, t0, s0, g0. rewrite In_snoc. auto.
    + intros (f0 & t0 & s0 & g0 & I & U & C0 & ->). apply In_snoc in I as [I| ->].
      * right. exists f0, t0, s0, g0. auto.
      * left. destruct Hu as [_ P], U as [_ P0]. destruct (path3_fun _ _ _ _ _ _ _ P P0) as (-> & -> & _).
        reflexivity.
  - apply str_contains_not in C. rewrite H. split.
    + intros (f0 & t0 & s0 & g0 & I & U & C0 & ->). exists f0, t0, s0, g0. rewrite In_snoc. auto.
    + intros (f0 & t0 & s0 & g0 & I & U & C0 & ->). apply In_snoc in I as [I| ->].
      * exists f0, t0, s0, g0. auto.
      * destruct Hu as [_ P], U as [_ P0]. destruct (path3_fun _ _ _ _ _ _ _ P P0) as (-> & -> & _).
        contradiction.
Qed.

Lemma wants_snoc banks fs f bank tag :
  wants_stepdown banks (fs ++ [f]) bank tag <->
  wants_stepdown banks fs bank tag
  \/ exists tile site bs, uses f tile site tag /\ contains (tx "STEPDOWN") tag
       /\ reg_tile_banks banks tile = bank :: bs.
Proof.
  unfold wants_stepdown. split.
  - intros (f0 & t & s & bs & I & R). apply In_snoc in I as [I| ->].
    + left. exists f0, t, s, bs. auto.
    + right. exists t, s, bs. auto.
  - intros [(f0 & t & s & bs & I & R)|(t & s & bs & R)].
    + exists f0, t, s, bs. rewrite In_snoc. auto.
    + exists f, t, s, bs. rewrite In_snoc. auto.
Qed.

Lemma scan_inv_skip banks fs f used bt : (forall t s g, ~ uses f t s g) ->
  scan_inv banks fs used bt -> scan_inv banks (fs ++ [f]) used bt.
Proof.
  intros N (HU & HB & ND & NE). split; [|split; [|split; assumption]].
  - intros x. rewrite HU. split.
    + intros (f0 & t0 & s0 & g0 & I & R). exists f0, t0, s0, g0. rewrite In_snoc. auto.
    + intros (f0 & t0 & s0 & g0 & I & U & R). apply In_snoc in I as [I| ->].
      * exists f0, t0, s0, g0. auto.
      * exfalso. eapply N; eauto.
  - intros bank tag. rewrite HB, wants_snoc. split; [auto|]. intros [H|(t & s & bs & U & _)]; [exact H|].
    exfalso. eapply N; eauto.
Qed.

Lemma scan_step banks fs used bt f : scan_inv banks fs used bt ->
  (banked banks f ->
   exists used' bt', stepdown_scan banks (used, bt) f = Ok (used', bt')
     /\ scan_inv banks (fs ++ [f]) used' bt') /\
  (~ banked banks f -> stepdown_scan banks (used, bt) f = Crash).
Proof.
  intros INV. unfold stepdown_scan. destruct (N.eqb_spec (ff_bits f) 0) as [Z|NZ].
  { split.
    - intros _. exists used, bt. split; [reflexivity|]. apply scan_inv_skip; [|exact INV].
      intros t s g [X _]. contradiction.
    - intros N. exfalso. apply N. intros t s g [X _]. contradiction. }
  destruct (split3_spec (ff_name f)) as [(t & s & g & r & E & P)|[N E]].
  2:{ assert (NU : forall t s g, ~ uses f t s g) by (intros t s g [_ X]; now apply N in X).
      split.
      - intros _. exists used, bt. split; [|now apply scan_inv_skip].
        destruct E as [(t & ->)|(t & s & ->)]; reflexivity.
      - intros X. exfalso. apply X. intros t s g U. now apply NU in U. }
  rewrite E. assert (Hu : uses f t s g) by (split; assumption). rewrite dot_tx.
  destruct INV as (HU & HB & ND & NE).
  pose proof (used_step fs f used t s g Hu HU) as HU'.
  set (used' := if str_contains (tx "IOB33") t then _ else used) in *. clearbody used'.
  destruct (str_contains (tx "STEPDOWN") g) eqn:SD.
  - apply str_contains_spec in SD. destruct (reg_tile_banks banks t) as [|bank bs] eqn:RB.
    + split; [|reflexivity]. intros B. exfalso. now apply (B t s g).
    + split.
      2:{ intros B. exfalso. apply B. intros t' s' g' [_ P'] _.
          destruct (path3_fun _ _ _ _ _ _ _ P P') as (<- & _). rewrite RB. discriminate. }
      intros _. eexists. eexists. split; [reflexivity|]. split; [exact HU'|].
      assert (INVB : forall b tags, maps_to (hm_set N.eqb bank (hs_insert text_eqb g
           match hm_find N.eqb bank (hm_insert N.eqb bank [] bt) with Some l => l | None => [] end)
           (hm_insert N.eqb bank [] bt)) b tags <->
         if b =? bank then tags = hs_insert text_eqb g match hm_find N.eqb bank bt with Some l => l | None => [] end
         else maps_to bt b tags).
      { intros b tags. rewrite <- (hm_find_maps _ N.eqb_eq), (hm_find_set _ N.eqb_eq).
        rewrite !(hm_find_insert _ N.eqb_eq). rewrite N.eqb_refl.
        destruct (b =? bank) eqn:Eb.
        - destruct (hm_find N.eqb bank bt); split; intros X; inversion X; reflexivity.
        - apply (hm_find_maps _ N.eqb_eq). }
      split; [|split].
      * intros b tag. rewrite wants_snoc, <- HB. split.
        -- intros (tags & M & I). apply INVB in M. destruct (N.eqb_spec b bank) as [->|Nb].
           ++ subst tags. apply (hs_insert_In _ text_eqb_eq) in I as [->|I].
              ** right. exists t, s, bs. auto.
              ** left. destruct (hm_find N.eqb bank bt) as [tags|] eqn:F; [|destruct I].
                 exists tags. split; [now apply (hm_find_maps _ N.eqb_eq)|exact I].
           ++ left. eauto.
        -- intros [(tags & M & I)|(t' & s' & bs' & [_ P'] & C' & R')].
           ++ destruct (N.eqb_spec b bank) as [->|Nb].
              ** apply (hm_find_maps _ N.eqb_eq) in M.
                 exists (hs_insert text_eqb g tags). split.
                 --- apply INVB. rewrite N.eqb_refl. now rewrite M.
                 --- apply (hs_insert_In _ text_eqb_eq). now right.
              ** exists tags. split; [|exact I]. apply INVB. rewrite (proj2 (N.eqb_neq _ _) Nb). exact M.
           ++ destruct (path3_fun _ _ _ _ _ _ _ P P') as (<- & <- & <-). rewrite RB in R'.
              inversion R'; subst b bs'. eexists. split; [apply INVB; rewrite N.eqb_refl; reflexivity|].
              apply (hs_insert_In _ text_eqb_eq). now left.
      * apply (hm_set_NoDup _ N.eqb_eq). now apply (hm_insert_NoDup _ N.eqb_eq).
      * intros b tags M. apply INVB in M. destruct (b =? bank).
        -- subst tags. intros X. apply (f_equal (In g)) in X.
           assert (Y : In g (hs_insert text_eqb g match hm_find N.eqb bank bt with Some l => l | None => [] end)).
           { apply (hs_insert_In _ text_eqb_eq). now left. }
           rewrite X in Y. destruct Y.
        -- now apply NE in M.
  - apply str_contains_not in SD. split.
    + intros _. exists used', bt. split; [reflexivity|]. split; [exact HU'|]. split; [|split; assumption].
      intros b tag. rewrite HB, wants_snoc. split; [auto|].
      intros [H|(t' & s' & bs' & [_ P'] & C' & R')]; [exact H|].
      destruct (path3_fun _ _ _ _ _ _ _ P P') as (_ & _ & <-). contradiction.
    + intros B. exfalso. apply B. intros t' s' g' [_ P'] C'.
      destruct (path3_fun _ _ _ _ _ _ _ P P') as (_ & _ & <-). contradiction.
Qed.

Lemma banked_dec banks f : banked banks f \/ ~ banked banks f.
Proof.
  destruct (N.eqb_spec (ff_bits f) 0) as [Z|NZ].
  { left. intros t s g [X _]. contradiction. }
  destruct (split3_spec (ff_name f)) as [(t & s & g & r & E & P)|[N E]].
  2:{ left. intros t s g [_ X]. now apply N in X. }
  destruct (str_contains (tx "STEPDOWN") g) eqn:SD.
  - destruct (reg_tile_banks banks t) as [|b bs] eqn:RB.
    + right. intros B. apply (B t s g); [split; assumption| |exact RB]. now apply str_contains_spec.
    + left. intros t' s' g' [_ P'] _. destruct (path3_fun _ _ _ _ _ _ _ P P') as (<- & _).
      rewrite RB. discriminate.
  - apply str_contains_not in SD. left. intros t' s' g' [_ P'] C.
    destruct (path3_fun _ _ _ _ _ _ _ P P') as (_ & _ & <-). contradiction.
Qed.

Lemma scan_ok banks fs : forall p used bt, scan_inv banks p used bt ->
  (Forall (banked banks) fs ->
   exists used' bt', ofold (stepdown_scan banks) fs (used, bt) = Ok (used', bt')
     /\ scan_inv banks (p ++ fs) used' bt') /\
  (~ Forall (banked banks) fs -> ofold (stepdown_scan banks) fs (used, bt) = Crash).
Proof.
  induction fs as [|f fs IH]; intros p used bt INV; cbn [ofold].
  - split; [|intros N; exfalso; apply N; constructor]. intros _. exists used, bt.
    now rewrite app_nil_r.
  - destruct (scan_step banks p used bt f INV) as [Sok Scr].
    destruct (banked_dec banks f) as [B|B].
    + destruct (Sok B) as (used1 & bt1 & E & INV1). rewrite E. cbn [obind].
      destruct (IH (p ++ [f]) used1 bt1 INV1) as [Iok Icr]. rewrite <- app_assoc in Iok. split.
      * intros F. inversion F; subst. now apply Iok.
      * intros N. apply Icr. intros F. apply N. now constructor.
    + split; [intros F; inversion F; contradiction|]. intros _. rewrite (Scr B). reflexivity.
Qed.

Lemma scan_inv_nil banks : scan_inv banks [] [] [].
Proof.
  split; [|split; [|split]].
  - intros x. split; [intros []|]. intros (f & t & s & g & [] & _).
  - intros b tag. split.
    + intros (tags & (l1 & l2 & E & _) & _). destruct l1; discriminate.
    + intros (f & t & s & bs & [] & _).
  - constructor.
  - intros b tags (l1 & l2 & E & _). destruct l1; discriminate.
Qed.

(** ** Sites *)
Lemma iob_sites_ok grid tile t : maps_to grid tile t ->
  (forall s fn, In (s, fn) (t_sites t) -> site_name_ok s) ->
  exists sites, iob_sites grid tile = Ok sites
    /\ forall x, In x sites <-> exists s fn, In (s, fn) (t_sites t) /\ site_label s x.
Proof.
  intros M H. unfold iob_sites. rewrite (proj2 (hm_find_maps _ text_eqb_eq _ _ _) M).
  assert (G : forall l out, (forall s fn, In (s, fn) l -> site_name_ok s) ->
    exists sites, ofold (fun out (kv : text * text) => s <- iob_site (fst kv) ;; Ok (out ++ [s])) l out
                  = Ok sites
      /\ forall x, In x sites <-> In x out \/ exists s fn, In (s, fn) l /\ site_label s x).
  { induction l as [|[s fn] l IH]; intros out Hl; cbn [ofold].
    - exists out. split; [reflexivity|]. intros x. split; [auto|]. intros [X|(s & fn & [] & _)]. exact X.
    - destruct (Hl s fn (or_introl eq_refl)) as (lab & L). cbn [fst].
      rewrite (iob_site_label _ _ L). cbn [obind].
      destruct (IH (out ++ [lab])) as (sites & E & Hs).
      { intros s' fn' I. apply (Hl s' fn'). now right. }
      exists sites. split; [exact E|]. intros x. rewrite Hs, In_snoc. split.
      + intros [[X| ->]|(s' & fn' & I & X)]; [auto| |].
        * right. exists s, fn. split; [now left|exact L].
        * right. exists s', fn'. split; [now right|exact X].
      + intros [X|(s' & fn' & [I|I] & X)]; [auto| |].
        * inversion I; subst s' fn'. left. right. apply iob_site_label in L. apply iob_site_label in X.
          congruence.
        * right. eauto. }
  destruct (G (t_sites t) [] H) as (sites & E & Hs). exists sites. split; [exact E|].
  intros x. rewrite Hs. cbn [In]. tauto.
Qed.

Lemma implied_plain name : implied name = plain_feature name.
Proof. reflexivity. Qed.

Definition tile_name_of (grid : tilegrid) (fs : list fasm_feature) (tags : list text) (tile name : text) : Prop :=
  (contains (tx "IOB33") tile /\ exists t s fn label tag, maps_to grid tile t /\ In (s, fn) (t_sites t)
     /\ site_label s label /\ ~ site_in_use fs tile label /\ In tag tags
     /\ name = dotted tile (dotted label tag))
  \/ (contains (tx "HCLK_IOI3") tile /\ name = dotted tile (tx "STEPDOWN")).

Lemma stepdown_tile_ok grid fs used tags tile :
  (forall x, In x used <-> exists f t s tag, In f fs /\ uses f t s tag
                              /\ contains (tx "IOB33") t /\ x = dotted t s) ->
  (contains (tx "IOB33") tile ->
   exists t, maps_to grid tile t /\ forall s fn, In (s, fn) (t_sites t) -> site_name_ok s) ->
  exists l, stepdown_tile grid used tags tile = Ok l
    /\ forall f, In f l <-> exists name, tile_name_of grid fs tags tile name /\ f = plain_feature name.
Proof.
  intros HU HS. unfold stepdown_tile.
  assert (Second : forall f, In f (if str_contains (tx "HCLK_IOI3") tile then [implied (tile ++ tx ".STEPDOWN")] else [])
     <-> contains (tx "HCLK_IOI3") tile /\ f = plain_feature (dotted tile (tx "STEPDOWN"))).
  { intros f. destruct (str_contains (tx "HCLK_IOI3") tile) eqn:C.
    - apply str_contains_spec in C. cbn [In]. split; [intros [<-|[]]; auto|]. intros [_ ->]. now left.
    - apply str_contains_not in C. cbn [In]. tauto. }
  set (l2 := if str_contains (tx "HCLK_IOI3") tile then _ else _) in *. clearbody l2.
  destruct (str_contains (tx "IOB33") tile) eqn:C.
  - apply str_contains_spec in C. destruct (HS C) as (t & M & Hn).
    destruct (iob_sites_ok grid tile t M Hn) as (sites & E & Hs). rewrite E. cbn [obind].
    eexists. split; [reflexivity|]. intros f. rewrite in_app_iff, Second, in_flat_map.
    assert (Used : forall label, ~ In dot label ->
      (existsb (text_eqb (dotted tile label)) used = true <-> site_in_use fs tile label)).
    { intros label Nl. rewrite existsb_text, HU. split.
      - intros (f0 & t0 & s0 & g0 & I & U & C0 & X). pose proof U as [_ (Nt & Ns & _)].
        apply site_name_fun in X as [-> ->]; auto. exists f0, g0. auto.
      - intros (f0 & g0 & I & U). exists f0, tile, label, g0. auto. }
    split.
    + intros [(label & Il & If)|[C2 ->]].
      2:{ eexists. split; [|reflexivity]. right. auto. }
      rewrite dot_tx in If. apply Hs in Il as (s & fn & Is & L).
      specialize (Used label (site_label_nodot _ _ L)).
      destruct (existsb (text_eqb (dotted tile label)) used); [destruct If|].
      apply in_map_iff in If as (tag & <- & It). exists (dotted tile (dotted label tag)). split.
      * left. split; [exact C|]. exists t, s, fn, label, tag. repeat split; auto.
        intros X. apply Used in X. discriminate X.
      * rewrite implied_plain. f_equal. rewrite dot_tx. unfold dotted. now rewrite <- app_assoc.
    + intros (name & [(_ & t0 & s & fn & label & tag & M0 & Is & L & NU & It & ->)|[C2 ->]] & ->).
      2:{ right. auto. }
      pose proof (maps_to_fun _ text_eqb_eq _ _ _ _ M M0). subst t0. left. exists label. split.
      * apply Hs. exists s, fn. auto.
      * rewrite dot_tx. specialize (Used label (site_label_nodot _ _ L)).
        destruct (existsb (text_eqb (dotted tile label)) used).
        -- exfalso. apply NU. now apply Used.
        -- apply in_map_iff. exists tag. split; [|exact It]. rewrite implied_plain. f_equal.
           rewrite dot_tx. unfold dotted. now rewrite <- app_assoc.
  - apply str_contains_not in C. cbn [obind app]. eexists. split; [reflexivity|]. intros f.
    rewrite Second. split.
    + intros [C2 ->]. eexists. split; [|reflexivity]. right. auto.
    + intros (name & [(X & _)|[C2 ->]] & ->); [contradiction|]. auto.
Qed.

Lemma stepdown_bank_ok ordt banks grid fs used bank tags ts out :
  (forall b l, Permutation (ordt b l) l) ->
  (forall x, In x used <-> exists f t s tag, In f fs /\ uses f t s tag
                              /\ contains (tx "IOB33") t /\ x = dotted t s) ->
  reg_tiles banks bank = Some ts ->
  (forall tile, In tile ts -> contains (tx "IOB33") tile ->
   exists t, maps_to grid tile t /\ forall s fn, In (s, fn) (t_sites t) -> site_name_ok s) ->
  exists extra, stepdown_bank ordt banks grid used out (bank, tags) = Ok (out ++ extra)
    /\ forall f, In f extra <-> exists tile name, In tile ts /\ tile_name_of grid fs tags tile name
                                                /\ f = plain_feature name.
Proof.
  intros P HU RT. unfold stepdown_bank. cbn [fst snd]. rewrite RT. clear RT.
  revert out. induction ts as [|tile ts IH]; intros out HS; cbn [ofold].
  - exists []. split; [now rewrite app_nil_r|]. intros f. split; [intros []|]. intros (t & n & [] & _).
  - destruct (stepdown_tile_ok grid fs used (ordt bank tags) tile HU) as (l & E & Hl).
    { apply HS. now left. }
    rewrite E. cbn [obind].
    destruct (IH (out ++ l)) as (extra & E2 & He).
    { intros tile' I. apply HS. now right. }
    exists (l ++ extra). rewrite app_assoc. split; [exact E2|]. intros f. rewrite in_app_iff, Hl, He.
    assert (TG : forall name, tile_name_of grid fs (ordt bank tags) tile name <-> tile_name_of grid fs tags tile name).
    { intros name. unfold tile_name_of. split; intros [(C & t & s & fn & la & tg & A & B & D & F & G & H)|X]; auto;
        left; (split; [exact C|]); exists t, s, fn, la, tg; repeat split; auto.
      - now apply (Permutation_in _ (P bank tags)).
      - now apply (Permutation_in _ (Permutation_sym (P bank tags))). }
    split.
    + intros [(name & T & ->)|(tile' & name & I & T & ->)].
      * apply TG in T. exists tile, name. repeat split; auto. now left.
      * exists tile', name. repeat split; auto. now right.
    + intros (tile' & name & [<-|I] & T & ->).
      * left. exists name. split; [now apply TG|reflexivity].
      * right. exists tile', name. auto.
Qed.

Lemma add_stepdown_ok ordb ordt banks grid fs :
  (forall l, Permutation (ordb l) l) -> (forall b l, Permutation (ordt b l) l) ->
  stepdown_ready banks grid fs ->
  exists extra, add_stepdown ordb ordt banks grid fs = Ok (fs ++ extra)
    /\ forall f, In f extra <-> exists name, stepdown_name banks grid fs name /\ f = plain_feature name.
Proof.
  intros PB PT [RB RT]. unfold add_stepdown.
  destruct (scan_ok banks fs [] [] [] (scan_inv_nil banks)) as [S _].
  destruct S as (used & bt & E & INV).
  { apply Forall_forall. intros f I t s g U C. eapply RB; eauto. }
  rewrite E. cbn [obind app] in *. destruct INV as (HU & HB & ND & NE).
  assert (G : forall l out, (forall bank tags, In (bank, tags) l -> maps_to bt bank tags) ->
    exists extra, ofold (stepdown_bank ordt banks grid used) l out = Ok (out ++ extra)
      /\ forall f, In f extra <-> exists bank tags ts tile name, In (bank, tags) l
           /\ reg_tiles banks bank = Some ts /\ In tile ts
           /\ tile_name_of grid fs tags tile name /\ f = plain_feature name).
  { induction l as [|[bank tags] l IH]; intros out Hl; cbn [ofold].
    - exists []. split; [now rewrite app_nil_r|]. intros f. split; [intros []|].
      intros (b & tg & ts & t & n & [] & _).
    - pose proof (Hl bank tags (or_introl eq_refl)) as M.
      pose proof (NE _ _ M) as NEt. destruct tags as [|tag0 tags']; [contradiction|].
      set (tags := tag0 :: tags') in *.
      destruct (RT bank tag0) as (ts & RTs & HS).
      { apply HB. exists tags. split; [exact M|now left]. }
      destruct (stepdown_bank_ok ordt banks grid fs used bank tags ts out PT HU RTs HS) as (e1 & E1 & H1).
      rewrite E1. cbn [obind].
      destruct (IH (out ++ e1)) as (e2 & E2 & H2).
      { intros b tg I. apply Hl. now right. }
      exists (e1 ++ e2). rewrite app_assoc. split; [exact E2|]. intros f. rewrite in_app_iff, H1, H2. split.
      + intros [(tile & name & I & T & ->)|(b & tg & ts' & tile & name & I & R & I' & T & ->)].
        * exists bank, tags, ts, tile, name. repeat split; auto. now left.
        * exists b, tg, ts', tile, name. repeat split; auto. now right.
      + intros (b & tg & ts' & tile & name & [I|I] & R & I' & T & ->).
        * inversion I; subst b tg. rewrite RTs in R. inversion R; subst ts'. left. exists tile, name. auto.
        * right. exists b, tg, ts', tile, name. auto. }
  destruct (G (ordb bt) fs) as (extra & E2 & He).
  { intros bank tags I. apply In_maps_to; [exact ND|]. now apply (Permutation_in _ (PB bt)). }
  exists extra. split; [exact E2|]. intros f. rewrite He. split.
  - intros (bank & tags & ts & tile & name & I & R & It & T & ->). exists name. split; [|reflexivity].
    apply (Permutation_in _ (PB bt)) in I. apply (In_maps_to bt bank tags ND) in I.
    destruct T as [(C & t & s & fn & label & tag & M & Is & L & NU & Itag & ->)|[C ->]].
    + eapply sd_site; eauto. apply HB. eauto.
    + pose proof (NE _ _ I) as NEt. destruct tags as [|tag0 tags']; [contradiction|].
      eapply sd_clock; eauto. apply HB. exists (tag0 :: tags'). split; [exact I|now left].
  - intros (name & SN & ->). destruct SN as [bank tag ts tile t s fn label W R It C M Is L NU
                                            |bank tag ts tile W R It C].
    + apply HB in W as (tags & Mt & Itag).
      exists bank, tags, ts, tile, (dotted tile (dotted label tag)). split.
      { apply (Permutation_in _ (Permutation_sym (PB bt))). now apply maps_to_In. }
      repeat split; auto. left. split; [exact C|]. exists t, s, fn, label, tag. repeat split; auto.
    + apply HB in W as (tags & Mt & Itag).
      exists bank, tags, ts, tile, (dotted tile (tx "STEPDOWN")). split.
      { apply (Permutation_in _ (Permutation_sym (PB bt))). now apply maps_to_In. }
      repeat split; auto. right. auto.
Qed.

(** ** PUDC_B *)
Lemma pudcb_pins_spec pins :
  (forall site fn, In (site, fn) pins -> contains (tx "PUDC_B") fn -> site_name_ok site) ->
  ((forall site fn, In (site, fn) pins -> ~ contains (tx "PUDC_B") fn) /\ pudcb_pins pins = Ok None)
  \/ exists site fn label, In (site, fn) pins /\ contains (tx "PUDC_B") fn /\ site_label site label
       /\ pudcb_pins pins = Ok (Some (Some label)).
Proof.
  induction pins as [|[site fn] pins IH]; intros H; cbn [pudcb_pins].
  - left. split; [intros ? ? []|reflexivity].
  - destruct (str_contains (tx "PUDC_B") fn) eqn:C.
    + apply str_contains_spec in C. right. destruct (H site fn (or_introl eq_refl) C) as (label & L).
      exists site, fn, label. rewrite (pudcb_site_label _ _ L). repeat split; auto. now left.
    + apply str_contains_not in C. destruct IH as [[N E]|(s & f & l & I & C' & L & E)].
      * intros s f I. apply (H s f). now right.
      * left. split; [|exact E]. intros s f [X|I]; [inversion X; subst; exact C|eauto].
      * right. exists s, f, l. repeat split; auto. now right.
Qed.

Lemma find_pudcb_spec grid :
  (forall tile site, pudcb_pin grid tile site -> site_name_ok site) ->
  ((forall tile site, ~ pudcb_pin grid tile site) /\ find_pudcb grid = Ok None)
  \/ exists tile site label, pudcb_pin grid tile site /\ site_label site label
       /\ find_pudcb grid = Ok (Some (tile, label)).
Proof.
  induction grid as [|[name t] grid IH]; intros H; cbn [find_pudcb].
  - left. split; [|reflexivity]. intros tile site (t & fn & [] & _).
  - destruct (pudcb_pins_spec (t_pin_functions t)) as [[N E]|(site & fn & label & I & C & L & E)].
    + intros site fn I C. apply (H name). exists t, fn. repeat split; auto. now left.
    + rewrite E. cbn [obind]. destruct IH as [[N' E']|(tile & site & label & P & L & E')].
      * intros tile site (t' & fn & I & R). apply (H tile). exists t', fn. split; [now right|exact R].
      * left. split; [|exact E']. intros tile site (t' & fn & [X|I] & Ip & C).
        -- inversion X; subst. now apply N in Ip.
        -- apply (N' tile site). exists t', fn. auto.
      * right. exists tile, site, label. repeat split; auto.
        destruct P as (t' & fn & I & R). exists t', fn. split; [now right|exact R].
    + right. exists name, site, label. rewrite E. cbn [obind]. repeat split; auto.
      exists t, fn. repeat split; auto. now left.
Qed.

Lemma pudcb_features_spec grid :
  (forall tile site, pudcb_pin grid tile site -> site_name_ok site) ->
  ((forall tile site, ~ pudcb_pin grid tile site) /\ pudcb_features grid = Ok [])
  \/ exists tile site label, pudcb_pin grid tile site /\ site_label site label
       /\ pudcb_features grid = Ok (map plain_feature (pudcb_names tile label)).
Proof.
  intros H. unfold pudcb_features. destruct (find_pudcb_spec grid H) as [[N E]|(t & s & l & P & L & E)].
  - left. rewrite E. auto.
  - right. exists t, s, l. rewrite E. auto.
Qed.
