(** Facts about the loading of a database. *)
From Verif Require Import Base BaseFacts Absl Part DbText DbJson Database AsmSpec MapFacts DbSpec DbFacts YamlFacts JsonSpec JsonFacts JsonFacts2.
From Verif Require Import LoadSpec P_Database P_Database2 P_Database3.

(** ** Paths *)
Lemma ends_slash_spec a : ends_with (tx "/") a = true <-> exists d, a = d ++ [slash].
Proof. exact (ends_with_char "/" a). Qed.
Lemma path_join_inside a b : inside a b (path_join a b).
Proof.
  unfold path_join. destruct b as [|c b].
  - assert (R : relative []) by (intros r E; discriminate). destruct a as [|x a]; [now apply inside_here|].
    destruct (ends_with (tx "/") (x :: a)) eqn:E.
    + apply ends_slash_spec in E as (d & E). now apply (inside_slash _ _ d).
    + apply inside_plain; [exact R|discriminate|]. intros d Ed. assert (X : ends_with (tx "/") (x :: a) = true) by (apply ends_slash_spec; eauto). congruence.
  - destruct (Ascii.eqb_spec c slash) as [Ec|Nc].
    + subst c. apply inside_absolute. intros R. now apply (R b).
    + assert (R : relative (c :: b)) by (intros r E; injection E as -> _; now apply Nc).
      assert (X : path_join a (c :: b) = match a with [] => c :: b | _ => if ends_with (tx "/") a then a ++ c :: b else a ++ tx "/" ++ c :: b end).
      { unfold path_join. destruct c as [[] [] [] [] [] [] [] []]; try reflexivity. now elim Nc. }
      unfold path_join in X. rewrite X. clear X. destruct a as [|x a]; [now apply inside_here|].
      destruct (ends_with (tx "/") (x :: a)) eqn:E.
      * apply ends_slash_spec in E as (d & E). now apply (inside_slash _ _ d).
      * apply inside_plain; [exact R|discriminate|]. intros d Ed. assert (X : ends_with (tx "/") (x :: a) = true) by (apply ends_slash_spec; eauto). congruence.
Qed.
Lemma inside_fun a b p q : inside a b p -> inside a b q -> p = q.
Proof.
  intros H H'. assert (AN : forall d : text, [] <> d ++ [slash]) by (intros [|? ?] X; discriminate).
  destruct H as [N|R E|d R E|R N D], H' as [N'|R' E'|d' R' E'|R' N' D']; try reflexivity; try contradiction; exfalso.
  - rewrite E in E'. exact (AN _ E').
  - rewrite E' in E. exact (AN _ E).
  - exact (D' _ E).
  - exact (D _ E').
Qed.

Lemma tile_type_name filename :
  starts_with (tx "tile_type_") filename && ends_with (tx ".json") filename = true <->
  exists ty, filename = tx "tile_type_" ++ ty ++ tx ".json".
Proof.
  rewrite andb_true_iff. unfold ends_with. rewrite !starts_with_spec. split.
  - intros [(b & E) (c & E')]. apply (f_equal (@rev ascii)) in E'. rewrite rev_app_distr, !rev_involutive in E'.
    rewrite E in E'. remember (rev c) as c' eqn:Ec. clear Ec c.
    assert (X : exists ty, b = ty ++ tx ".json").
    { revert E'. cbn [app tx list_ascii_of_string]. intros E'. 
      destruct c' as [|a c]; [discriminate E'|]. injection E' as <- E'.
      do 9 (destruct c as [|a c]; [discriminate E'|]; injection E' as <- E'). exists c. exact E'. }
    destruct X as (ty & ->). exists ty. exact E.
  - intros (ty & ->). split; [eexists; reflexivity|]. exists (rev (tx "tile_type_" ++ ty)). rewrite !rev_app_distr.
    now rewrite <- app_assoc.
Qed.

Lemma tile_type_core ty : tile_type_of_filename (tx "tile_type_" ++ ty ++ tx ".json") = ty.
Proof.
  unfold tile_type_of_filename. rewrite !app_length. change (List.length (tx "tile_type_")) with 10%nat. change (List.length (tx ".json")) with 5%nat.
  replace (10 + (List.length ty + 5) - 10 - 5)%nat with (List.length ty) by lia.
  change (skipn 10 (tx "tile_type_" ++ ty ++ tx ".json")) with (ty ++ tx ".json"). now rewrite firstn_app, Nat.sub_diag, firstn_all, app_nil_r.
Qed.
Lemma tile_type_noslash ty : ~ In slash (tx "tile_type_" ++ ty ++ tx ".json") <-> ~ In slash ty.
Proof.
  rewrite !in_app_iff. split; [tauto|]. intros N [I|[I|I]]; [|contradiction|]; revert I; cbn; intuition discriminate.
Qed.
Lemma path_cut d f : ~ In slash f -> path_filename (d ++ slash :: f) = f /\ path_parent (d ++ slash :: f) = match d with [] => tx "/" | _ => d end.
Proof.
  intros N. unfold path_filename, path_parent. pose proof (rfind_char_spec "/" (d ++ slash :: f)) as R.
  destruct (rfind_char "/" (d ++ slash :: f)) as [n|].
  - destruct R as (d' & f' & E & N' & ->). apply last_delim in E as [-> ->]; auto. split.
    + replace (List.length d' + 1)%nat with (List.length (d' ++ [slash])) by (rewrite app_length; reflexivity).
      change (d' ++ slash :: f') with (d' ++ [slash] ++ f'). rewrite app_assoc.
      rewrite skipn_app, skipn_all, Nat.sub_diag. reflexivity.
    + destruct d' as [|c d']; [reflexivity|]. cbn [List.length].
      change (Datatypes.S (List.length d')) with (List.length (c :: d')). rewrite firstn_app, Nat.sub_diag, firstn_all. apply app_nil_r.
  - exfalso. apply R. apply in_or_app. right. now left.
Qed.
Lemma tile_type_path path dir ty : In slash path ->
  (path_filename path = tx "tile_type_" ++ ty ++ tx ".json" /\ path_parent path = dir) <-> tile_type_file path dir ty.
Proof.
  intros I. unfold tile_type_file. split.
  - intros [E E']. pose proof (rfind_char_spec "/" path) as R. destruct (rfind_char "/" path) as [n|] eqn:EF; [|contradiction].
    destruct R as (d & f & -> & N & _). destruct (path_cut d f N) as [A B].
    assert (f = tx "tile_type_" ++ ty ++ tx ".json") as -> by (rewrite <- E; symmetry; exact A).
    assert (D : dir = match d with [] => tx "/" | _ => d end) by (rewrite <- E'; exact B). clear E E' A B.
    exists d. split; [reflexivity|]. split; [now apply tile_type_noslash|]. destruct d as [|c d]; [left; auto|right; split; [discriminate|exact D]].
  - intros (d & -> & N & H). apply tile_type_noslash in N. destruct (path_cut d _ N) as [A B]. split; [exact A|]. etransitivity; [exact B|].
    destruct d as [|c d]; destruct H as [[E ->]|[E ->]]; try reflexivity; try discriminate. now elim E.
Qed.

Lemma to_lower_spec c c' : to_lower c = c' <-> lower_char c c'.
Proof.
  unfold to_lower, lower_char. change (ccode c) with (N_of_ascii c).
  destruct (N.leb_spec 65 (N_of_ascii c)) as [A|A]; [destruct (N.leb_spec (N_of_ascii c) 90) as [B|B]|]; cbn [andb].
  - split.
    + intros <-. left. split; [lia|]. apply N_ascii_embedding. lia.
    + intros [[_ E]|[N _]]; [|lia]. rewrite <- (ascii_N_embedding c'), E. reflexivity.
  - split; [intros <-; right; split; [lia|reflexivity]|]. intros [[X _]|[_ ->]]; [lia|reflexivity].
  - split; [intros <-; right; split; [lia|reflexivity]|]. intros [[X _]|[_ ->]]; [lia|reflexivity].
Qed.
Lemma lower_spec s : forall t, map to_lower s = t <-> lower s t.
Proof.
  induction s as [|c s IH]; intros t; cbn [map].
  - split; [intros <-; constructor|]. intros H. now inversion H.
  - split.
    + intros <-. constructor; [now apply to_lower_spec|now apply IH].
    + intros H. inversion H as [|? c' ? t' Hc Ht]; subst. apply to_lower_spec in Hc. apply IH in Ht. congruence.
Qed.

(** ** The index of tile types *)
Definition paths_of (e : environment) (dir ty : text) : tile_paths :=
  {| tp_segbits := if_exists e (path_join dir (tx "segbits_" ++ map to_lower ty ++ tx ".db"));
     tp_block_ram := if_exists e (path_join dir (tx "segbits_" ++ map to_lower ty ++ tx ".block_ram.db"));
     tp_ppips := if_exists e (path_join dir (tx "ppips_" ++ map to_lower ty ++ tx ".db")) |}.
Definition index_step (e : environment) (out : list (text * tile_paths)) (path : text) :=
  let filename := path_filename path in
  if starts_with (tx "tile_type_") filename && ends_with (tx ".json") filename
  then get_database_paths e path out else out.
Lemma index_step_find e out path ty : In slash path ->
  (forall dir, tile_type_file path dir ty ->
     hm_find text_eqb ty (index_step e out path) = match hm_find text_eqb ty out with Some p => Some p | None => Some (paths_of e dir ty) end) /\
  ((forall dir, ~ tile_type_file path dir ty) -> hm_find text_eqb ty (index_step e out path) = hm_find text_eqb ty out).
Proof.
  intros I. unfold index_step. destruct (_ && _) eqn:E.
  - apply tile_type_name in E as (ty' & E). unfold get_database_paths. rewrite E, tile_type_core. split.
    + intros dir H. apply tile_type_path in H as [EF EP]; [|exact I]. rewrite EF in E. apply app_inv_head in E. apply app_inv_tail in E. subst ty'.
      rewrite (hm_find_insert _ text_eqb_eq). rewrite EP. rewrite (eqb_refl' _ text_eqb_eq).
      destruct (hm_find text_eqb ty out); reflexivity.
    + intros H. rewrite (hm_find_insert _ text_eqb_eq). destruct (text_eqb ty ty') eqn:Et; [|reflexivity].
      apply text_eqb_eq in Et. subst ty'. exfalso. apply (H (path_parent path)). apply tile_type_path; auto.
  - split; [|reflexivity]. intros dir H. apply tile_type_path in H as [EF EP]; [|exact I].
    assert (X : starts_with (tx "tile_type_") (path_filename path) && ends_with (tx ".json") (path_filename path) = true).
    { apply tile_type_name. eauto. }
    congruence.
Qed.
Lemma tile_type_dec path ty : (exists dir, tile_type_file path dir ty) \/ (forall dir, ~ tile_type_file path dir ty).
Proof.
  destruct (in_dec Ascii.ascii_dec slash path) as [I|N].
  - destruct (text_eqb (path_filename path) (tx "tile_type_" ++ ty ++ tx ".json")) eqn:E.
    + apply text_eqb_eq in E. left. exists (path_parent path). now apply tile_type_path.
    + right. intros dir H. apply tile_type_path in H as [EF _]; [|exact I]. apply text_eqb_eq in EF. congruence.
  - right. intros dir (d & -> & _). apply N. apply in_or_app. right. now left.
Qed.
Lemma index_find e ty l : Forall (fun p => In slash p) l -> forall out,
  match hm_find text_eqb ty out with
  | Some p => hm_find text_eqb ty (fold_left (index_step e) l out) = Some p
  | None => (exists before path after dir, l = before ++ path :: after /\ tile_type_file path dir ty /\
               (forall p d, In p before -> ~ tile_type_file p d ty) /\
               hm_find text_eqb ty (fold_left (index_step e) l out) = Some (paths_of e dir ty)) \/
            ((forall p d, In p l -> ~ tile_type_file p d ty) /\ hm_find text_eqb ty (fold_left (index_step e) l out) = None)
  end.
Proof.
  intros F. induction F as [|path l I F IH]; intros out; cbn [fold_left].
  - destruct (hm_find text_eqb ty out); [reflexivity|]. right. split; [intros p d []|reflexivity].
  - specialize (IH (index_step e out path)). destruct (index_step_find e out path ty I) as [A B].
    destruct (tile_type_dec path ty) as [(dir & H)|H].
    + rewrite (A _ H) in IH. destruct (hm_find text_eqb ty out); [exact IH|]. left. exists [], path, l, dir.
      split; [reflexivity|]. split; [exact H|]. split; [intros p d []|exact IH].
    + rewrite (B H) in IH. destruct (hm_find text_eqb ty out); [exact IH|]. destruct IH as [(b & p & a & dir & -> & Ht & Nb & E)|(Nb & E)].
      * left. exists (path :: b), p, a, dir. split; [reflexivity|]. split; [exact Ht|]. split; [|exact E].
        intros p' d [<-|J]; [apply H|now apply Nb].
      * right. split; [|exact E]. intros p' d [<-|J]; [apply H|now apply Nb].
Qed.
