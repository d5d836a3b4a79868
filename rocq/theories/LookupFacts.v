(** What ConfigBits calls back with: pure description and relation to the spec. *)
From Verif Require Import Base BaseFacts Absl Part Frame Fasm DbText DbJson Database
  Assembler EncodeSpec AsmSpec MapFacts AsmFacts.
From Coq Require Import ZifyBool ZifyN ZifyNat.

Local Notation "x <- e ;; f" := (obind e (fun x => f))
  (at level 61, e at next level, right associativity).

(** ** Aliases *)
Definition resolved (b : bits_block) : bits_block :=
  match bb_alias b with
  | None => b
  | Some al => {| bb_alias := None; bb_base := bb_base b; bb_frames := bb_frames b;
                  bb_offset := i32 (bb_offset b - Z.of_N (al_start_offset al));
                  bb_words := bb_words b |}
  end.
Definition resolved_pair (p : bus_type * bits_block) : bus_type * bits_block :=
  (fst p, resolved (snd p)).

Lemma alias_feature_renamed al feature old : (~ In dot feature -> old = feature) ->
  renamed al feature (alias_feature al feature old).
Proof.
  intros Hold. unfold alias_feature. destruct (split1_spec feature) as [(a & b & F & E)|[N E]]; rewrite E.
  - rewrite join_dotted. destruct (hm_find text_eqb b (al_sites al)) as [s|] eqn:H.
    + apply (hm_find_maps _ text_eqb_eq) in H. eapply renamed_listed; eauto.
    + apply (hm_find_none _ text_eqb_eq) in H. pose proof F as [-> _]. eapply renamed_unlisted; eauto.
  - rewrite Hold by exact N. now apply renamed_plain.
Qed.

Lemma alias_fold t feature : forall l p ty seen m,
  t_bits t = p ++ l -> NoDup (map fst (t_bits t)) ->
  m = map resolved_pair p ->
  ((forall bus b, In (bus, b) p -> bb_alias b = None) /\ ty = t_type t /\ seen = feature
   \/ exists bus b al, In (bus, b) p /\ bb_alias b = Some al /\ ty = al_type al
        /\ renamed al feature seen) ->
  (~ In dot feature -> seen = feature) ->
  exists ty' seen', fold_left (alias_step feature) l (ty, seen, m) = (ty', seen', map resolved_pair (t_bits t))
    /\ seen_as t feature ty' seen'.
Proof.
  induction l as [|[bus b] l IH]; intros p ty seen m Hp ND Hm Hinv Hdot; cbn [fold_left].
  - rewrite app_nil_r in Hp. subst m. rewrite <- Hp. exists ty, seen. split; [reflexivity|].
    rewrite <- Hp in Hinv. destruct Hinv as [(Ha & -> & ->)|(bus & b & al & I & A & -> & R)].
    + now apply seen_plain.
    + eapply seen_alias; eauto.
  - assert (NK : hm_contains bus_eqb bus m = false).
    { apply (hm_contains_not _ bus_eqb_eq). subst m. unfold has_key. rewrite map_map. cbn [resolved_pair fst].
      rewrite Hp, map_app in ND. cbn [map fst] in ND. apply NoDup_remove_2 in ND.
      intros I. apply ND. apply in_or_app. now left. }
    assert (Hp' : t_bits t = (p ++ [(bus, b)]) ++ l) by (rewrite <- app_assoc; exact Hp).
    unfold alias_step at 2. unfold hm_insert. rewrite NK.
    destruct (bb_alias b) as [al|] eqn:A.
    + assert (R : renamed al feature (alias_feature al feature seen)) by now apply alias_feature_renamed.
      apply IH with (p := p ++ [(bus, b)]); auto.
      * subst m. rewrite map_app. cbn [map]. unfold resolved_pair at 3. unfold resolved. cbn [fst snd].
        now rewrite A.
      * right. exists bus, b, al. split; [apply in_or_app; right; now left|]. auto.
      * intros N. unfold alias_feature. destruct (split1_spec feature) as [(x & y & [F _] & _)|[_ ->]].
        -- exfalso. apply N. rewrite F. unfold dotted. apply in_or_app. right. now left.
        -- now apply Hdot.
    + apply IH with (p := p ++ [(bus, b)]); auto.
      * subst m. rewrite map_app. cbn [map]. unfold resolved_pair at 3. unfold resolved. cbn [fst snd].
        now rewrite A.
      * destruct Hinv as [(Ha & -> & ->)|(bus' & b' & al & I & A' & -> & R)].
        -- left. split; [|auto]. intros bus' b' I. apply in_app_or in I as [I|[I|[]]]; [eauto|].
           now inversion I; subst.
        -- right. exists bus', b', al. split; [apply in_or_app; now left|auto].
Qed.

Lemma resolve_alias_spec t feature : NoDup (map fst (t_bits t)) ->
  exists ty seen, resolve_alias t feature = (ty, seen, map resolved_pair (t_bits t))
    /\ seen_as t feature ty seen.
Proof.
  intros ND. unfold resolve_alias. apply alias_fold with (p := []); auto.
  left. split; [intros ? ? []|auto].
Qed.

(** ** The calls of one bus *)
Definition place (bus : bus_type) (base offset : N) (sb : segment_bit) : call :=
  (bus, u32 (base + sb_column sb),
   u32 (u32 (offset * 32) + sb_bit sb) / 32, u32 (u32 (offset * 32) + sb_bit sb) mod 32, sb_set sb).

Lemma set_segbits_calls {S} (setter : S -> bus_type -> N -> N -> N -> bool -> outcome S)
    bus base offset l : forall s,
  set_segbits setter bus base offset s l = ofold (do_call setter) (map (place bus base offset) l) s.
Proof.
  unfold set_segbits. induction l as [|sb l IH]; intros s; cbn [ofold map]; [reflexivity|].
  unfold place at 1. cbn [do_call].
  destruct (setter s bus _ _ _ _); cbn [obind]; auto.
Qed.

Definition bus_entry (d : tile_db) (key : tile_feature) (p : bus_type * bits_block)
  : option (list call) :=
  match hm_find bus_eqb (fst p) (td_bits d) with
  | None => None
  | Some segs => option_map (map (place (fst p) (u32 (bb_base (snd p))) (u32_of_z (bb_offset (snd p)))))
                   (hm_find tf_eqb key segs)
  end.
Definition found (d : tile_db) (key : tile_feature) (p : bus_type * bits_block) : bool :=
  match bus_entry d key p with Some _ => true | None => false end.
Definition calls_for (d : tile_db) (key : tile_feature) (p : bus_type * bits_block) : list call :=
  match bus_entry d key p with Some l => l | None => [] end.

Lemma set_bus_entry {S} (setter : S -> bus_type -> N -> N -> N -> bool -> outcome S) d key single mt s p :
  set_bus setter d key single (mt, s) p =
  match bus_entry d key p with
  | Some l => s' <- ofold (do_call setter) l s ;; Ok (true, s')
  | None => match hm_find bus_eqb (fst p) (td_bits d) with
            | Some _ => if single : bool then Crash else Ok (mt, s)
            | None => Ok (mt, s)
            end
  end.
Proof.
  destruct p as [bus b]. unfold set_bus, bus_entry. cbn [fst snd].
  destruct (hm_find bus_eqb bus (td_bits d)) as [segs|]; [|reflexivity].
  destruct (hm_find tf_eqb key segs) as [l|]; cbn [option_map]; [|reflexivity].
  now rewrite set_segbits_calls.
Qed.

Lemma ofold_set_bus {S} (setter : S -> bus_type -> N -> N -> N -> bool -> outcome S) d key l : forall mt s,
  ofold (set_bus setter d key false) l (mt, s)
  = (s' <- ofold (do_call setter) (flat_map (calls_for d key) l) s ;;
     Ok (mt || existsb (found d key) l, s')).
Proof.
  induction l as [|p l IH]; intros mt s; cbn [ofold flat_map existsb obind].
  - now rewrite orb_false_r.
  - rewrite set_bus_entry. unfold calls_for at 1, found at 1. rewrite ofold_app.
    destruct (bus_entry d key p) as [c|].
    + destruct (ofold (do_call setter) c s) as [s'| | | |]; cbn [obind]; try reflexivity.
      rewrite IH. cbn [orb]. rewrite orb_true_r. reflexivity.
    + cbn [ofold obind orb]. destruct (hm_find bus_eqb (fst p) (td_bits d)); apply IH.
Qed.

(** Whatever the order and the number of buses: all entries found, or a crash. *)
Lemma set_buses {S} (setter : S -> bus_type -> N -> N -> N -> bool -> outcome S) d key m l s :
  Permutation l m ->
  obind (ofold (set_bus setter d key (List.length m <=? 1)%nat) l (false, s))
    (fun st => if fst st then Ok (snd st) else Crash)
  = if existsb (found d key) l then ofold (do_call setter) (flat_map (calls_for d key) l) s
    else Crash.
Proof.
  intros P. destruct (Nat.leb_spec (List.length m) 1) as [L|L].
  - pose proof (Permutation_length P) as PL. destruct l as [|p [|q l]]; cbn [List.length] in PL; [| |lia].
    + reflexivity.
    + cbn [ofold existsb flat_map]. rewrite set_bus_entry, app_nil_r, orb_false_r.
      unfold found, calls_for. destruct (bus_entry d key p) as [c|].
      * destruct (ofold (do_call setter) c s); reflexivity.
      * destruct (hm_find bus_eqb (fst p) (td_bits d)); reflexivity.
  - rewrite ofold_set_bus. cbn [orb]. destruct (existsb (found d key) l) eqn:E.
    + destruct (ofold (do_call setter) (flat_map (calls_for d key) l) s); reflexivity.
    + assert (X : flat_map (calls_for d key) l = []).
      { clear - E. induction l as [|p l IH]; cbn [flat_map existsb] in *; [reflexivity|].
        apply orb_false_iff in E as [E1 E2]. rewrite IH by exact E2. unfold found in E1. unfold calls_for.
        destruct (bus_entry d key p); [discriminate|reflexivity]. }
      rewrite X. reflexivity.
Qed.

(** ** A lookup, without the cache *)
Definition lookup (ord : list (bus_type * bits_block) -> list (bus_type * bits_block)) (tls : tiles)
    (tile_name feature : text) (address : N) : outcome (list call) :=
  match hm_find text_eqb tile_name (tl_grid tls) with
  | None => Crash
  | Some t =>
      let '(ty, seen, m) := resolve_alias t feature in
      md <- tl_bits tls ty ;;
      match md with
      | None => Crash
      | Some d =>
          if hm_contains text_eqb (dotted tile_name seen) (td_pips d)
             || hm_contains text_eqb (dotted ty seen) (td_pips d)
          then Ok []
          else if existsb (found d (dotted ty seen, address)) (ord m)
          then Ok (flat_map (calls_for d (dotted ty seen, address)) (ord m))
          else Crash
      end
  end.

Definition consistent (tls : tiles) (cache : db_cache) : Prop :=
  forall ty d, hm_find text_eqb ty cache = Some d -> tl_bits tls ty = Ok (Some d).

Lemma consistent_nil tls : consistent tls [].
Proof. intros ty d H. discriminate. Qed.

Lemma add_to_cache_spec tls ty cache : consistent tls cache ->
  match add_to_cache (tl_bits tls) ty cache with
  | Ok cache' => consistent tls cache' /\ exists md, tl_bits tls ty = Ok md /\ hm_find text_eqb ty cache' = md
  | Err => tl_bits tls ty = Err
  | Crash => tl_bits tls ty = Crash
  | UB => tl_bits tls ty = UB
  | NoFuel => tl_bits tls ty = NoFuel
  end.
Proof.
  intros C. unfold add_to_cache. unfold hm_contains.
  destruct (hm_find text_eqb ty cache) as [d|] eqn:E.
  - split; [exact C|]. exists (Some d). split; [now apply C|exact E].
  - destruct (tl_bits tls ty) as [md| | | |] eqn:G; cbn [obind]; try reflexivity.
    destruct md as [d|].
    + split.
      * intros ty' d' H. rewrite (hm_find_insert _ text_eqb_eq) in H.
        destruct (text_eqb ty' ty) eqn:X; [|now apply C].
        apply text_eqb_eq in X. subst ty'. rewrite E in H. inversion H; subst. exact G.
      * exists (Some d). split; [reflexivity|]. rewrite (hm_find_insert _ text_eqb_eq).
        now rewrite text_eqb_refl, E.
    + split; [exact C|]. exists None. auto.
Qed.

(** ConfigBits is the lookup followed by the calls, whatever is in the cache. *)
Lemma config_bits_lookup {S} (setter : S -> bus_type -> N -> N -> N -> bool -> outcome S)
    ord tls cache tile feature k s :
  consistent tls cache -> (forall l, Permutation (ord l) l) ->
  match config_bits setter ord tls cache tile feature k s with
  | Ok (cache', s') => consistent tls cache' /\
      (l <- lookup ord tls tile feature k ;; ofold (do_call setter) l s) = Ok s'
  | Err => (l <- lookup ord tls tile feature k ;; ofold (do_call setter) l s) = Err
  | Crash => (l <- lookup ord tls tile feature k ;; ofold (do_call setter) l s) = Crash
  | UB => (l <- lookup ord tls tile feature k ;; ofold (do_call setter) l s) = UB
  | NoFuel => (l <- lookup ord tls tile feature k ;; ofold (do_call setter) l s) = NoFuel
  end.
Proof.
  intros C P. unfold config_bits, lookup.
  destruct (hm_find text_eqb tile (tl_grid tls)) as [t|]; [|reflexivity].
  destruct (resolve_alias t feature) as [[ty seen] m].
  pose proof (add_to_cache_spec tls ty cache C) as A.
  destruct (add_to_cache (tl_bits tls) ty cache) as [cache'| | | |]; cbn [obind];
    try (rewrite A; reflexivity).
  destruct A as (C' & md & G & F). rewrite G, F. cbn [obind].
  destruct md as [d|]; [|reflexivity].
  rewrite !join_dotted.
  destruct (hm_contains text_eqb (dotted tile seen) (td_pips d)); [now split|].
  destruct (hm_contains text_eqb (dotted ty seen) (td_pips d)); [now split|]. cbn [orb].
  pose proof (set_buses setter d (dotted ty seen, k) m (ord m) s (P m)) as B.
  set (o := ofold _ (ord m) (false, s)) in *. clearbody o.
  set (r := if existsb _ _ then _ else Crash) in B.
  assert (R : (l <- (if existsb (found d (dotted ty seen, k)) (ord m)
                     then Ok (flat_map (calls_for d (dotted ty seen, k)) (ord m)) else Crash) ;;
               ofold (do_call setter) l s) = r).
  { unfold r. destruct (existsb _ _); reflexivity. }
  rewrite R. rewrite <- B. clear R B r.
  destruct o as [[[|] s']| | | |]; cbn [obind fst snd]; auto.
Qed.

(** Two orders give the same calls up to order. *)
Definition same_calls (o o' : outcome (list call)) : Prop :=
  match o, o' with
  | Ok l, Ok l' => Permutation l l'
  | Err, Err | Crash, Crash | UB, UB | NoFuel, NoFuel => True
  | _, _ => False
  end.

Lemma existsb_perm {A} (f : A -> bool) l l' : Permutation l l' -> existsb f l = existsb f l'.
Proof.
  intros P. apply eq_true_iff_eq. rewrite !existsb_exists.
  split; intros (x & I & E); exists x; (split; [|exact E]).
  - now apply (Permutation_in _ P).
  - now apply (Permutation_in _ (Permutation_sym P)).
Qed.

Lemma lookup_order ord tls tile feature k : (forall l, Permutation (ord l) l) ->
  same_calls (lookup ord tls tile feature k) (lookup (fun l => l) tls tile feature k).
Proof.
  intros P. unfold lookup. destruct (hm_find text_eqb tile (tl_grid tls)) as [t|]; [|exact I].
  destruct (resolve_alias t feature) as [[ty seen] m].
  destruct (tl_bits tls ty) as [[d|]| | | |]; cbn [obind]; try exact I.
  destruct (_ || _); [apply Permutation_refl|].
  rewrite (existsb_perm _ _ _ (P m)). destruct (existsb _ m); [|exact I].
  cbn. now apply Permutation_flat_map.
Qed.

(** ** The calls and the specification *)
Lemma u32_of_z_mod z : Z.of_N (u32_of_z z) = (z mod 2 ^ 32)%Z.
Proof.
  unfold u32_of_z. apply Z2N.id. apply Z.mod_pos_bound. reflexivity.
Qed.

Lemma i32_mod z : (i32 z mod 2 ^ 32 = z mod 2 ^ 32)%Z.
Proof.
  unfold i32. rewrite Zminus_mod_idemp_l. f_equal. lia.
Qed.

Lemma resolved_first_word b : (bb_offset (resolved b) mod 2 ^ 32 = first_word b mod 2 ^ 32)%Z.
Proof.
  unfold resolved, first_word. destruct (bb_alias b); [|reflexivity].
  cbn [bb_offset]. apply i32_mod.
Qed.
Lemma resolved_base b : bb_base (resolved b) = bb_base b.
Proof. unfold resolved. destruct (bb_alias b); reflexivity. Qed.

Lemma of_N_mod a b : b <> 0 -> Z.of_N (a mod b) = (Z.of_N a mod Z.of_N b)%Z.
Proof. intros H. apply N2Z.inj_mod. Qed.

Lemma place_pos off (z : Z) bit : Z.of_N off = (z mod 2 ^ 32)%Z ->
  Z.of_N (u32 (u32 (off * 32) + bit)) = ((32 * z + Z.of_N bit) mod 2 ^ 32)%Z.
Proof.
  intros H. unfold u32. rewrite of_N_mod by discriminate. rewrite N2Z.inj_add.
  rewrite of_N_mod by discriminate. rewrite N2Z.inj_mul, H.
  change (Z.of_N (2 ^ 32)) with (2 ^ 32)%Z. change (Z.of_N 32) with 32%Z.
  rewrite Zmult_mod_idemp_l, Zplus_mod_idemp_l. f_equal. lia.
Qed.

Definition placed (bus : bus_type) (b : bits_block) (sb : segment_bit) : call :=
  place bus (u32 (bb_base (resolved b))) (u32_of_z (bb_offset (resolved b))) sb.

Lemma placed_index bus b sb : small_index (placed bus b sb).
Proof. unfold small_index, placed, place, call_index. apply N.mod_lt. discriminate. Qed.

Lemma placed_lands bus b sb a w i :
  lands_at b sb a w i <->
  call_addr (placed bus b sb) = a /\ call_word (placed bus b sb) = w /\ call_index (placed bus b sb) = i.
Proof.
  unfold placed, place, call_addr, call_word, call_index, lands_at. rewrite resolved_base.
  assert (EA : u32 (u32 (bb_base b) + sb_column sb) = (bb_base b + sb_column sb) mod 2 ^ 32).
  { unfold u32. rewrite N.add_mod_idemp_l by discriminate. reflexivity. }
  rewrite EA.
  assert (EP : Z.of_N (u32 (u32 (u32_of_z (bb_offset (resolved b)) * 32) + sb_bit sb))
               = ((32 * first_word b + Z.of_N (sb_bit sb)) mod 2 ^ 32)%Z).
  { apply place_pos. rewrite u32_of_z_mod. apply resolved_first_word. }
  rewrite <- EP. generalize (u32 (u32 (u32_of_z (bb_offset (resolved b)) * 32) + sb_bit sb)) as pos.
  generalize ((bb_base b + sb_column sb) mod 2 ^ 32) as ad. clear. intros ad pos.
  pose proof (N.div_mod pos 32 ltac:(discriminate)) as D.
  pose proof (N.mod_lt pos 32 ltac:(discriminate)) as M. split.
  - intros (E & Li & Ep). apply N2Z.inj in Ep. split; [now symmetry|].
    assert (U : w = pos / 32 /\ i = pos mod 32).
    { apply (N.div_mod_unique 32); [exact Li|exact M|congruence]. }
    split; symmetry; apply U.
  - intros (E & Ew & Ei). subst w i. split; [now symmetry|]. split; [exact M|]. now rewrite <- D.
Qed.

Lemma In_calls_for d key p c :
  In c (calls_for d key (resolved_pair p)) <->
  exists segs l sb, maps_to (td_bits d) (fst p) segs /\ maps_to segs key l /\ In sb l
    /\ c = placed (fst p) (snd p) sb.
Proof.
  unfold calls_for, bus_entry. cbn [resolved_pair fst snd].
  destruct (hm_find bus_eqb (fst p) (td_bits d)) as [segs|] eqn:E.
  - apply (hm_find_maps _ bus_eqb_eq) in E.
    destruct (hm_find tf_eqb key segs) as [l|] eqn:F; cbn [option_map].
    + apply (hm_find_maps _ tf_eqb_eq) in F. rewrite in_map_iff. split.
      * intros (sb & <- & I). exists segs, l, sb. auto.
      * intros (segs' & l' & sb & M & M' & I & ->).
        pose proof (maps_to_fun _ bus_eqb_eq _ _ _ _ E M). subst segs'.
        pose proof (maps_to_fun _ tf_eqb_eq _ _ _ _ F M'). subst l'. exists sb. split; [reflexivity|exact I].
    + apply (hm_find_none _ tf_eqb_eq) in F. split; [intros []|].
      intros (segs' & l' & sb & M & M' & I & ->). 
      pose proof (maps_to_fun _ bus_eqb_eq _ _ _ _ E M). subst segs'.
      exfalso. apply F. eapply maps_to_key; eauto.
  - apply (hm_find_none _ bus_eqb_eq) in E. split; [intros []|].
    intros (segs' & l' & sb & M & M' & I & ->). exfalso. apply E. eapply maps_to_key; eauto.
Qed.

Lemma found_entry d key p :
  found d key (resolved_pair p) = true <->
  exists segs l, maps_to (td_bits d) (fst p) segs /\ maps_to segs key l.
Proof.
  unfold found, bus_entry. cbn [resolved_pair fst snd].
  destruct (hm_find bus_eqb (fst p) (td_bits d)) as [segs|] eqn:E.
  - apply (hm_find_maps _ bus_eqb_eq) in E.
    destruct (hm_find tf_eqb key segs) as [l|] eqn:F; cbn [option_map].
    + apply (hm_find_maps _ tf_eqb_eq) in F. split; [eauto|reflexivity].
    + apply (hm_find_none _ tf_eqb_eq) in F. split; [discriminate|].
      intros (segs' & l' & M & M').
      pose proof (maps_to_fun _ bus_eqb_eq _ _ _ _ E M). subst segs'.
      exfalso. apply F. eapply maps_to_key; eauto.
  - apply (hm_find_none _ bus_eqb_eq) in E. split; [discriminate|].
    intros (segs' & l' & M & M'). exfalso. apply E. eapply maps_to_key; eauto.
Qed.

(** A successful lookup: the calls are exactly the entries of the specification. *)
Lemma lookup_ok tls tile feature k : usable_grid (tl_grid tls) ->
  forall l, lookup (fun l => l) tls tile feature k = Ok l ->
  (forall c, In c l <-> exists bus b segs sb, entry tls tile feature k bus b segs /\ In sb segs
                          /\ c = placed bus b sb)
  /\ (pseudo_pip tls tile feature /\ l = [] \/ exists bus b segs, entry tls tile feature k bus b segs).
Proof.
  intros U l H. unfold lookup in H.
  destruct (hm_find text_eqb tile (tl_grid tls)) as [t|] eqn:Et; [|discriminate].
  apply (hm_find_maps _ text_eqb_eq) in Et. destruct (U _ _ Et) as [ND US].
  destruct (resolve_alias_spec t feature ND) as (ty & seen & R & SA). rewrite R in H.
  destruct (tl_bits tls ty) as [[d|]| | | |] eqn:Ed; try discriminate H. cbn [obind] in H.
  assert (Entry : forall bus b segs, entry tls tile feature k bus b segs <->
     ~ has_key (td_pips d) (dotted tile seen) /\ ~ has_key (td_pips d) (dotted ty seen) /\
     maps_to (t_bits t) bus b /\
     exists ss, maps_to (td_bits d) bus ss /\ maps_to ss (dotted ty seen, k) segs).
  { intros bus b segs. split.
    - intros (t' & ty' & seen' & d' & ss & M & S' & B' & N1 & N2 & M1 & M2 & M3).
      pose proof (maps_to_fun _ text_eqb_eq _ _ _ _ Et M). subst t'.
      destruct (US _ _ _ _ _ SA S') as [<- <-]. rewrite Ed in B'. inversion B'; subst d'.
      repeat split; eauto.
    - intros (N1 & N2 & M1 & ss & M2 & M3). exists t, ty, seen, d, ss. repeat split; auto. }
  destruct (hm_contains text_eqb (dotted tile seen) (td_pips d)
            || hm_contains text_eqb (dotted ty seen) (td_pips d)) eqn:Pp.
  - inversion H; subst l. apply orb_true_iff in Pp.
    assert (HP : has_key (td_pips d) (dotted tile seen) \/ has_key (td_pips d) (dotted ty seen)).
    { destruct Pp as [Pp|Pp]; apply (hm_contains_key _ text_eqb_eq) in Pp; auto. }
    split.
    + intros c. split; [intros []|]. intros (bus & b & segs & sb & E & _ & _).
      apply Entry in E as (N1 & N2 & _). destruct HP; contradiction.
    + left. split; [|reflexivity]. exists t, ty, seen, d. auto.
  - apply orb_false_iff in Pp as [P1 P2].
    apply (hm_contains_not _ text_eqb_eq) in P1. apply (hm_contains_not _ text_eqb_eq) in P2.
    destruct (existsb (found d (dotted ty seen, k)) (map resolved_pair (t_bits t))) eqn:Ex; [|discriminate].
    inversion H; subst l. clear H. split.
    + intros c. rewrite in_flat_map. split.
      * intros (p' & Ip & Ic). apply in_map_iff in Ip as ([bus b] & <- & Ip).
        apply In_calls_for in Ic as (ss & segs & sb & M1 & M2 & Is & ->). cbn [fst snd] in *.
        exists bus, b, segs, sb. split; [|auto]. apply Entry. repeat split; eauto.
        now apply In_maps_to.
      * intros (bus & b & segs & sb & E & Is & ->). apply Entry in E as (_ & _ & M1 & ss & M2 & M3).
        exists (resolved_pair (bus, b)). split.
        -- apply in_map. now apply maps_to_In.
        -- apply In_calls_for. exists ss, segs, sb. auto.
    + right. apply existsb_exists in Ex as (p' & Ip & F). apply in_map_iff in Ip as ([bus b] & <- & Ip).
      apply found_entry in F as (ss & segs & M1 & M2). exists bus, b, segs. apply Entry.
      repeat split; eauto. now apply In_maps_to.
Qed.

(** Otherwise nothing is known about the feature: the lookup crashes (if the database
    of the tile type itself can be read). *)
Lemma lookup_crash tls tile feature k : usable_grid (tl_grid tls) ->
  (forall ty, exists md, tl_bits tls ty = Ok md) ->
  ~ pseudo_pip tls tile feature -> (forall bus b segs, ~ entry tls tile feature k bus b segs) ->
  lookup (fun l => l) tls tile feature k = Crash.
Proof.
  intros U G NP NE. destruct (lookup (fun l => l) tls tile feature k) as [l| | | |] eqn:H.
  - apply lookup_ok in H; [|exact U]. destruct H as [_ [[X _]|(bus & b & segs & X)]].
    + contradiction.
    + exfalso. eapply NE; eauto.
  - unfold lookup in H. destruct (hm_find text_eqb tile (tl_grid tls)); [|discriminate].
    destruct (resolve_alias t feature) as [[ty seen] m]. destruct (G ty) as (md & E). rewrite E in H.
    cbn [obind] in H. destruct md; [|discriminate]. destruct (_ || _); [discriminate|].
    destruct (existsb _ _); discriminate.
  - reflexivity.
  - unfold lookup in H. destruct (hm_find text_eqb tile (tl_grid tls)); [|discriminate].
    destruct (resolve_alias t feature) as [[ty seen] m]. destruct (G ty) as (md & E). rewrite E in H.
    cbn [obind] in H. destruct md; [|discriminate]. destruct (_ || _); [discriminate|].
    destruct (existsb _ _); discriminate.
  - unfold lookup in H. destruct (hm_find text_eqb tile (tl_grid tls)); [|discriminate].
    destruct (resolve_alias t feature) as [[ty seen] m]. destruct (G ty) as (md & E). rewrite E in H.
    cbn [obind] in H. destruct md; [|discriminate]. destruct (_ || _); [discriminate|].
    destruct (existsb _ _); discriminate.
Qed.
