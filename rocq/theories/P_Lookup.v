(** Properties C47, C48, C49: segment bit arithmetic, the cache, the bank registry. *)
From Verif Require Import Base BaseFacts Absl Part Frame Fasm FasmSpec DbText DbJson Database
  Assembler EncodeSpec AsmSpec MapFacts AsmFacts LookupFacts ProcessFacts RegistryFacts AsmExample.
From Coq Require Import ZifyBool ZifyN ZifyNat.

(** ** C47 *)

(** A callback that only writes down its arguments. *)
Definition record_bit (l : list (bus_type * N * N * N * bool)) (bus : bus_type) (address word index : N)
    (value : bool) : outcome (list (bus_type * N * N * N * bool)) :=
  Ok (l ++ [(bus, address, word, index, value)]).

Lemma record_all l : forall s, ofold (do_call record_bit) l s = Ok (s ++ l).
Proof.
  induction l as [|[[[[bus a] w] i] v] l IH]; intros s; cbn [ofold do_call record_bit obind].
  - now rewrite app_nil_r.
  - rewrite IH, <- app_assoc. reflexivity.
Qed.

Lemma placed_unique bus b sb a w i :
  lands_at b sb a w i -> placed bus b sb = (bus, a, w, i, sb_set sb).
Proof.
  intros H. apply (proj1 (placed_lands bus b sb a w i)) in H as (A & W & I).
  unfold placed, place, call_addr, call_word, call_index in *. now rewrite A, W, I.
Qed.
Lemma placed_somewhere bus b sb : exists a w i, lands_at b sb a w i /\ placed bus b sb = (bus, a, w, i, sb_set sb).
Proof.
  exists (call_addr (placed bus b sb)), (call_word (placed bus b sb)), (call_index (placed bus b sb)).
  assert (L : lands_at b sb (call_addr (placed bus b sb)) (call_word (placed bus b sb)) (call_index (placed bus b sb)))
    by now apply (placed_lands bus).
  split; [exact L|]. now apply placed_unique.
Qed.

(** The callback is called exactly for the segment bits the database lists for the feature and
    address, each at the place given by [lands_at]. *)
Theorem C47_callback_arguments :
  forall ord tls tile feature k cache' calls,
  usable_grid (tl_grid tls) -> (forall l, Permutation (ord l) l) ->
  config_bits record_bit ord tls [] tile feature k [] = Ok (cache', calls) ->
  forall bus a w i v, In (bus, a, w, i, v) calls <->
    exists b segs sb, entry tls tile feature k bus b segs /\ In sb segs /\
      lands_at b sb a w i /\ sb_set sb = v.
Proof.
  intros ord tls tile feature k cache' calls U P H.
  pose proof (config_bits_lookup record_bit ord tls [] tile feature k [] (consistent_nil tls) P) as L.
  rewrite H in L. destruct L as [_ L].
  destruct (lookup ord tls tile feature k) as [l'| | | |] eqn:E; try discriminate L. cbn [obind] in L.
  rewrite record_all in L. cbn [app] in L. inversion L; subst l'. clear L.
  destruct (lookup_from_order ord tls tile feature k calls P E) as (l & El & PL).
  destruct (lookup_ok tls tile feature k U l El) as [Hin _].
  intros bus a w i v. split.
  - intros I. apply (Permutation_in _ PL) in I. apply Hin in I as (bus' & b & segs & sb & En & Is & Ec).
    destruct (placed_somewhere bus' b sb) as (a' & w' & i' & La & Ep). rewrite Ep in Ec.
    inversion Ec; subst. exists b, segs, sb. auto.
  - intros (b & segs & sb & En & Is & La & <-). apply (Permutation_in _ (Permutation_sym PL)).
    apply Hin. exists bus, b, segs, sb. split; [exact En|]. split; [exact Is|].
    symmetry. now apply placed_unique.
Qed.
Print Assumptions C47_callback_arguments.

(** Every listed segment bit gets exactly one place. *)
Theorem C47_place_is_unique :
  forall b sb, exists a w i, lands_at b sb a w i /\
    forall a' w' i', lands_at b sb a' w' i' -> a' = a /\ w' = w /\ i' = i.
Proof.
  intros b sb. destruct (placed_somewhere BusCLBIOCLK b sb) as (a & w & i & L & E). exists a, w, i.
  split; [exact L|]. intros a' w' i' L'. apply (placed_unique BusCLBIOCLK) in L'. rewrite E in L'.
  now inversion L'.
Qed.
Print Assumptions C47_place_is_unique.

(** In the terms of the English: frame base + column, word offset + bit / 32, bit mod 32, for
    every description whose numbers do not wrap around 32 bits. *)
Theorem C47_place :
  forall b sb (off : N),
  bb_alias b = None -> bb_offset b = Z.of_N off ->
  bb_base b + sb_column sb < 2 ^ 32 -> 32 * off + sb_bit sb < 2 ^ 32 ->
  forall a w i, lands_at b sb a w i <->
    a = bb_base b + sb_column sb /\ w = off + sb_bit sb / 32 /\ i = sb_bit sb mod 32.
Proof.
  intros b sb off NA EO WA WB a w i. unfold lands_at, first_word. rewrite NA, EO.
  rewrite (N.mod_small _ _ WA). generalize (bb_base b + sb_column sb) as ad. intros ad.
  replace (32 * Z.of_N off + Z.of_N (sb_bit sb))%Z with (Z.of_N (32 * off + sb_bit sb)) by lia.
  change (2 ^ 32)%Z with (Z.of_N (2 ^ 32)). rewrite <- N2Z.inj_mod, (N.mod_small _ _ WB). clear WA WB NA EO.
  generalize (sb_bit sb) as x. intros x.
  pose proof (N.div_mod x 32 ltac:(discriminate)) as D.
  pose proof (N.mod_lt x 32 ltac:(discriminate)) as M.
  generalize dependent (x / 32). generalize dependent (x mod 32). intros r M q D. subst x.
  split.
  - intros (-> & Hi & E). apply N2Z.inj in E. split; [reflexivity|]. lia.
  - intros (-> & -> & ->). split; [reflexivity|]. split; [exact M|]. f_equal. lia.
Qed.
Print Assumptions C47_place.

(** The same for an aliased block: the alias start offset is taken off. *)
Theorem C47_aliased_place :
  forall b al sb (off : N),
  bb_alias b = Some al -> bb_offset b = Z.of_N (off + al_start_offset al) ->
  bb_base b + sb_column sb < 2 ^ 32 -> 32 * off + sb_bit sb < 2 ^ 32 ->
  forall a w i, lands_at b sb a w i <->
    a = bb_base b + sb_column sb /\ w = off + sb_bit sb / 32 /\ i = sb_bit sb mod 32.
Proof.
  intros b al sb off EA EO WA WB a w i.
  rewrite <- (C47_place {| bb_alias := None; bb_base := bb_base b; bb_frames := bb_frames b;
                           bb_offset := Z.of_N off; bb_words := bb_words b |} sb off eq_refl eq_refl WA WB a w i).
  unfold lands_at, first_word. cbn [bb_alias bb_base bb_offset]. rewrite EA, EO.
  replace (Z.of_N (off + al_start_offset al) - Z.of_N (al_start_offset al))%Z with (Z.of_N off) by lia.
  reflexivity.
Qed.
Print Assumptions C47_aliased_place.

Example C47_case :
  (exists c, config_bits record_bit (fun l => l) ex_db [] (tx "CLBLL_L_X2Y1") (tx "SLICEL_X0.FFSYNC") 0 []
    = Ok (c, [(BusCLBIOCLK, 0x100 + 31, 4, 2, false); (BusCLBIOCLK, 0x100 + 30, 4 + 33 / 32, 33 mod 32, true)])) /\
  (exists c, config_bits record_bit (fun l => l) ex_db [] (tx "LIOB33_SING_X0Y0") (tx "IOB_Y1.PULLTYPE.PULLUP") 0 []
    = Ok (c, [(BusCLBIOCLK, 38, (3 - 2) + 33 / 32, 1, true)])).
Proof. split; eexists; vm_compute; reflexivity. Qed.

(** ** C48 *)

(** The caches a process can have: after any sequence of lookups, with any callbacks. *)
Inductive after_lookups (tls : tiles) : db_cache -> Prop :=
| cache_fresh : after_lookups tls []
| cache_next : forall (S : Type) (setter : S -> bus_type -> N -> N -> N -> bool -> outcome S)
    ord cache tile feature k s cache' s',
    after_lookups tls cache -> (forall l, Permutation (ord l) l) ->
    config_bits setter ord tls cache tile feature k s = Ok (cache', s') ->
    after_lookups tls cache'.

Lemma after_consistent tls cache : after_lookups tls cache -> consistent tls cache.
Proof.
  induction 1 as [|S setter ord cache tile feature k s cache' s' _ IH P E].
  - apply consistent_nil.
  - pose proof (config_bits_lookup setter ord tls cache tile feature k s IH P) as L.
    rewrite E in L. apply L.
Qed.

(** What a lookup does with the callback's state, whatever was looked up before. *)
Theorem C48_cache_is_transparent :
  forall tls cache cache' (S : Type) (setter : S -> bus_type -> N -> N -> N -> bool -> outcome S)
    ord tile feature k s,
  after_lookups tls cache -> after_lookups tls cache' -> (forall l, Permutation (ord l) l) ->
  omap snd (config_bits setter ord tls cache tile feature k s)
  = omap snd (config_bits setter ord tls cache' tile feature k s).
Proof.
  intros tls c c' S setter ord tile feature k s A A' P.
  pose proof (config_bits_lookup setter ord tls c tile feature k s (after_consistent _ _ A) P) as L.
  pose proof (config_bits_lookup setter ord tls c' tile feature k s (after_consistent _ _ A') P) as L'.
  unfold omap.
  destruct (config_bits setter ord tls c tile feature k s) as [[c1 s1]| | | |];
  destruct (config_bits setter ord tls c' tile feature k s) as [[c2 s2]| | | |];
    repeat match goal with H : _ /\ _ |- _ => destruct H as [_ H] end;
    rewrite L in L'; try discriminate L'; try reflexivity.
  cbn [obind snd]. now inversion L'.
Qed.
Print Assumptions C48_cache_is_transparent.

(** The tile-type database is read at most once: a type that has been read is not asked again. *)
Theorem C48_read_once :
  forall tls cache ty d, after_lookups tls cache -> hm_find text_eqb ty cache = Some d ->
  tl_bits tls ty = Ok (Some d) /\ forall get, add_to_cache get ty cache = Ok cache.
Proof.
  intros tls cache ty d A F. split.
  - now apply (after_consistent _ _ A).
  - intros get. unfold add_to_cache, hm_contains. now rewrite F.
Qed.
Print Assumptions C48_read_once.

Definition ex_cache : db_cache := [(tx "CLBLL_L", ex_clb); (tx "BRAM_L", ex_bram)].
Example C48_case : after_lookups ex_db ex_cache.
Proof.
  assert (P : forall l : list (bus_type * bits_block), Permutation l l) by (intros; apply Permutation_refl).
  assert (A : after_lookups ex_db [(tx "CLBLL_L", ex_clb)]).
  { apply (cache_next ex_db _ record_bit (fun l => l) [] (tx "CLBLL_L_X2Y1") (tx "SLICEL_X0.FFSYNC") 0 []
             _ [(BusCLBIOCLK, 0x100 + 31, 4, 2, false); (BusCLBIOCLK, 0x100 + 30, 5, 1, true)]);
      [constructor|exact P|vm_compute; reflexivity]. }
  apply (cache_next ex_db _ record_bit (fun l => l) _ (tx "BRAM_L_X6Y0") (tx "RAMB18_Y0.INIT_00") 1 []
           _ [(BusBlockRam, 0x800000, 0, 16, true)] A P).
  vm_compute. reflexivity.
Qed.

(** ** C49 *)
(** Both directions are the relation given by the package: a tile is in a bank because a pin
    of the package says so, or because it is the clock tile of the bank. *)
Theorem C49_registry_is_the_package :
  forall ord iobanks pins bank tile, (forall b l, Permutation (ord b l) l) ->
  (In bank (reg_tile_banks (reg_create ord iobanks pins) tile) <-> in_bank iobanks pins bank tile) /\
  ((exists ts, reg_tiles (reg_create ord iobanks pins) bank = Some ts /\ In tile ts)
     <-> in_bank iobanks pins bank tile).
Proof.
  intros ord iobanks pins bank tile ord_ok. split.
  - now rewrite reg_tile_banks_spec, banks_of_In, bank_pairs_In.
  - pose proof (reg_tiles_spec ord iobanks pins bank ord_ok) as H.
    destruct (reg_tiles (reg_create ord iobanks pins) bank) as [ts|].
    + destruct H as (_ & _ & H). split.
      * intros (ts' & E & I). inversion E; subst. now apply H.
      * intros I. exists ts. split; [reflexivity|]. now apply H.
    + split; [intros (ts & E & _); discriminate|]. intros I. exfalso. eapply H; eauto.
Qed.

(** A tile is listed for a bank iff the bank is listed for the tile. *)
Theorem C49_directions_agree :
  forall ord iobanks pins bank tile, (forall b l, Permutation (ord b l) l) ->
  In bank (reg_tile_banks (reg_create ord iobanks pins) tile) <->
  exists ts, reg_tiles (reg_create ord iobanks pins) bank = Some ts /\ In tile ts.
Proof.
  intros ord iobanks pins bank tile ord_ok.
  destruct (C49_registry_is_the_package ord iobanks pins bank tile ord_ok) as [A B].
  now rewrite A, B.
Qed.

(** The list of the tiles of a bank is not empty and has no duplicates. *)
Theorem C49_tiles_listed_once :
  forall ord iobanks pins bank ts, (forall b l, Permutation (ord b l) l) ->
  reg_tiles (reg_create ord iobanks pins) bank = Some ts ->
  NoDup ts /\ ts <> [].
Proof.
  intros ord iobanks pins bank ts ord_ok E. pose proof (reg_tiles_spec ord iobanks pins bank ord_ok) as H.
  rewrite E in H. now destruct H as (A & B & _).
Qed.
Print Assumptions C49_registry_is_the_package.
Print Assumptions C49_directions_agree.
Print Assumptions C49_tiles_listed_once.

(** Iteration orders do not matter: the lists of a bank are permutations of each other, the
    lists of a tile are equal. *)
Theorem C49_order_is_irrelevant :
  forall ord ord' iobanks pins,
  (forall b l, Permutation (ord b l) l) -> (forall b l, Permutation (ord' b l) l) ->
  (forall tile, reg_tile_banks (reg_create ord iobanks pins) tile
              = reg_tile_banks (reg_create ord' iobanks pins) tile) /\
  (forall bank, match reg_tiles (reg_create ord iobanks pins) bank,
                      reg_tiles (reg_create ord' iobanks pins) bank with
                | Some ts, Some ts' => Permutation ts ts'
                | None, None => True
                | _, _ => False
                end).
Proof.
  intros ord ord' iobanks pins P P'. split.
  - intros tile. now rewrite !reg_tile_banks_spec.
  - intros bank. pose proof (reg_tiles_spec ord iobanks pins bank P) as H.
    pose proof (reg_tiles_spec ord' iobanks pins bank P') as H'.
    destruct (reg_tiles (reg_create ord iobanks pins) bank) as [ts|];
    destruct (reg_tiles (reg_create ord' iobanks pins) bank) as [ts'|]; auto.
    + destruct H as (ND & _ & H), H' as (ND' & _ & H'). apply NoDup_Permutation; auto.
      intros t. now rewrite H, H'.
    + destruct H as (_ & NE & H). destruct ts as [|t ts]; [contradiction|].
      eapply H'. apply H. now left.
    + destruct H' as (_ & NE & H'). destruct ts' as [|t ts]; [contradiction|].
      eapply H. apply H'. now left.
Qed.
Print Assumptions C49_order_is_irrelevant.

(** The list of the banks of a tile has one element per pin of the tile (plus the clock tile
    entries), in the order of the descriptions. *)
Definition entries_for (iobanks : list (N * text)) (pins : list package_pin) (tile : text) : list N :=
  map fst (filter (fun kv : N * text => text_eqb tile (tx "HCLK_IOI3_" ++ snd kv)) iobanks)
  ++ map pp_bank (filter (fun p => text_eqb tile (pp_tile p)) pins).

Theorem C49_banks_of_a_tile :
  forall ord iobanks pins tile,
  reg_tile_banks (reg_create ord iobanks pins) tile = entries_for iobanks pins tile.
Proof.
  intros ord iobanks pins tile. rewrite reg_tile_banks_spec. unfold banks_of, bank_pairs, entries_for.
  rewrite filter_app, map_app. f_equal.
  - induction iobanks as [|kv l IH]; [reflexivity|]. cbn [map filter snd].
    destruct (text_eqb tile _); cbn [map fst]; now rewrite IH.
  - induction pins as [|p l IH]; [reflexivity|]. cbn [map filter snd].
    destruct (text_eqb tile _); cbn [map fst]; now rewrite IH.
Qed.
Print Assumptions C49_banks_of_a_tile.

(** Hence a tile with two pins in a bank lists the bank twice. *)
Theorem C49_banks_listed_once_refuted :
  exists iobanks pins tile, forall ord,
  ~ NoDup (reg_tile_banks (reg_create ord iobanks pins) tile).
Proof.
  exists ex_iobanks, ex_pins, (tx "LIOB33_X0Y1"). intros ord. rewrite C49_banks_of_a_tile.
  replace (entries_for ex_iobanks ex_pins (tx "LIOB33_X0Y1")) with [14; 14] by (vm_compute; reflexivity).
  intros H. inversion H as [|? ? X]; subst. apply X. now left.
Qed.
Print Assumptions C49_banks_listed_once_refuted.

Example C49_case : in_bank ex_iobanks ex_pins 14 (tx "LIOB33_X0Y1") /\ in_bank ex_iobanks ex_pins 15 (tx "HCLK_IOI3_X1Y78")
  /\ reg_tiles (reg_create (fun _ l => l) ex_iobanks ex_pins) 16 = None.
Proof.
  split; [|split].
  - right. eexists. split; [now left|]. split; reflexivity.
  - left. exists (tx "X1Y78"). split; [right; now left|]. reflexivity.
  - vm_compute. reflexivity.
Qed.
