(** C87: the cache keys and the work list of scripts/run-clang-tidy-cached.cc, for every source tree and every hash function. *)
From Verif Require Import Base BaseFacts Absl Print Tidy TidyPool TidyFacts TidyRun TidySpec MapFacts DbFacts TidyKeyFacts.
From Coq Require Import Permutation.

(** The files looked at: all source files and headers of the project, each with its key. *)
Theorem C87_files hash t p k :
  In (p, k) (files_of_interest hash t) <->
  exists c, In (p, c) t /\ ~ outside p /\ has_extension p source_extensions /\ key_is hash t c k.
Proof.
  unfold files_of_interest. rewrite in_map_iff. split.
  - intros ((p' & c) & E & H). cbn [fst snd] in E. injection E as -> <-. apply filter_In in H as [H F]. cbn [fst] in F.
    apply andb_true_iff in F as [F1 F2]. apply negb_true_iff in F1. rewrite <- not_true_iff_false, excluded_iff in F1.
    apply consider_ext_iff in F2. exists c. rewrite work_hash_key. auto using key_of_is.
  - intros (c & H & O & X & K). exists (p, c). cbn [fst snd]. split.
    + rewrite work_hash_key. now rewrite <- (key_is_unique _ _ _ _ K).
    + apply filter_In. split; [exact H|]. cbn [fst]. apply andb_true_iff. split; [|now apply consider_ext_iff].
      apply negb_true_iff. now rewrite <- not_true_iff_false, excluded_iff.
Qed.
(** No file is looked at twice. *)
Theorem C87_once hash t : NoDup (map fst t) -> NoDup (map fst (files_of_interest hash t)).
Proof.
  unfold files_of_interest. rewrite map_map. cbn [fst]. induction t as [|[p c] t IH]; cbn [map filter]; intros H; [constructor|].
  inversion H as [|? ? NI ND]; subst. destruct (_ && _); [|auto]. cbn [map fst]. constructor; [|auto].
  intros I. apply NI. apply in_map_iff in I as (x & <- & I). apply filter_In in I as [I _]. now apply in_map.
Qed.
(** Every content has exactly one key. *)
Theorem C87_key_unique hash t c : exists! k, key_is hash t c k.
Proof. exists (key_of hash t c). split; [apply key_of_is|]. intros k K. symmetry. now apply key_is_unique. Qed.

(** The key does not depend on the order in which the directories list their files. *)
Theorem C87_order hash t t' c k : Permutation t t' -> key_is hash t c k -> key_is hash t' c k.
Proof.
  intros P K. rewrite (key_is_unique _ _ _ _ K). clear K.
  assert (Q : forall b, Permutation (named_headers b t) (named_headers b t')).
  { intros b. unfold named_headers. apply Permutation_map. clear - P. induction P as [|x l l' P IH|x y l|a b' d P1 IH1 P2 IH2]; cbn [filter].
    - constructor.
    - destruct (is_header b x); [now constructor|exact IH].
    - destruct (is_header b x), (is_header b y); try constructor; apply Permutation_refl.
    - eapply Permutation_trans; eauto. }
  assert (E : key_of hash t c = key_of hash t' c); [|rewrite E; apply key_of_is].
  unfold key_of. cbn [xor_all]. f_equal. induction (includes c) as [|i l IH]; [reflexivity|]. cbn [flat_map]. rewrite !xor_app, IH. f_equal.
  apply xor_perm. apply Permutation_map. apply Q.
Qed.

(** The name of the cache entry: two files share one exactly if base name and key agree (keys have 64 bits). *)
Theorem C87_entry_name dir p k p' k' : path_for dir (p, k) = path_for dir (p', k') <->
  (exists b, base_name p b /\ base_name p' b) /\ k mod 2 ^ 64 = k' mod 2 ^ 64.
Proof.
  rewrite path_for_inj. split.
  - intros [A B]. split; [|exact B]. exists (path_filename p). split; apply base_name_iff; congruence.
  - intros [(b & A & A') B]. apply base_name_iff in A, A'. split; [congruence|exact B].
Qed.

(** A changed header is noticed exactly by the files that include it an odd number of times (up to collisions of the hash). *)
Theorem C87_header_change hash t t' b c1 c2 c incs bs k k' :
  headers_named b t [c1] -> headers_named b t' [c2] ->
  (forall x l, x <> b -> headers_named x t l -> headers_named x t' l) ->
  directives c incs -> Forall2 base_name incs bs -> key_is hash t c k -> key_is hash t' c k' ->
  (k = k' <-> hash c1 = hash c2 \/ Nat.even (count_occ (list_eq_dec Ascii.ascii_dec) bs b) = true).
Proof.
  intros H1 H2 Other D B K K'. rewrite (key_is_unique _ _ _ _ K), (key_is_unique _ _ _ _ K'). clear K K' k k'.
  apply headers_named_unique in H1, H2.
  assert (Other' : forall x, x <> b -> named_headers x t' = named_headers x t).
  { intros x Hx. symmetry. apply headers_named_unique. apply Other; [exact Hx|apply named_headers_spec]. }
  clear Other. rewrite (directives_unique _ _ (includes_spec c) _ D) in B. clear D incs. unfold key_of. cbn [xor_all].
  assert (E : N.lxor (xor_all (flat_map (fun inc => map hash (named_headers (path_filename inc) t)) (includes c)))
                     (xor_all (flat_map (fun inc => map hash (named_headers (path_filename inc) t')) (includes c))) =
              if Nat.even (count_occ (list_eq_dec Ascii.ascii_dec) bs b) then 0 else N.lxor (hash c1) (hash c2)).
  { induction B as [|i x is xs Bi B IH]; [reflexivity|]. cbn [flat_map]. rewrite !xor_app. cbn [count_occ].
    apply base_name_iff in Bi. rewrite Bi.
    set (X := xor_all (flat_map _ is)) in *. set (X' := xor_all (flat_map (fun inc => map hash (named_headers (path_filename inc) t')) is)) in *.
    destruct (list_eq_dec Ascii.ascii_dec x b) as [->|NE].
    - rewrite <- H1, <- H2. cbn [map xor_all]. rewrite !N.lxor_0_r, Nat.even_succ, <- Nat.negb_even.
      assert (R : N.lxor (N.lxor (hash c1) X) (N.lxor (hash c2) X') = N.lxor (N.lxor (hash c1) (hash c2)) (N.lxor X X')).
      { apply N.bits_inj. intros j. rewrite !N.lxor_spec. destruct (N.testbit _ j), (N.testbit _ j), (N.testbit _ j), (N.testbit _ j); reflexivity. }
      rewrite R, IH. destruct (Nat.even _); cbn [negb]; [apply N.lxor_0_r|apply N.lxor_nilpotent].
    - rewrite (Other' x NE). rewrite <- IH. set (Y := xor_all (map hash _)).
      apply N.bits_inj. intros j. rewrite !N.lxor_spec. destruct (N.testbit _ j), (N.testbit _ j), (N.testbit _ j); reflexivity. }
  split.
  - intros Q. apply (f_equal (N.lxor (hash c))) in Q. rewrite <- !N.lxor_assoc, N.lxor_nilpotent, !N.lxor_0_l in Q.
    rewrite Q, N.lxor_nilpotent in E. destruct (Nat.even _); [now right|left]. symmetry in E. now apply N.lxor_eq in E.
  - intros Q. assert (Z : N.lxor (xor_all (flat_map (fun inc => map hash (named_headers (path_filename inc) t)) (includes c)))
      (xor_all (flat_map (fun inc => map hash (named_headers (path_filename inc) t')) (includes c))) = 0).
    { rewrite E. destruct (Nat.even _); [reflexivity|]. destruct Q as [->|Q]; [apply N.lxor_nilpotent|discriminate]. }
    apply N.lxor_eq in Z. now rewrite Z.
Qed.

(** The work list: the files looked at whose entry does not exist. *)
Theorem C87_work_list hash has dir t w :
  In w (work_list hash has dir t) <-> In w (files_of_interest hash t) /\ has (path_for dir w) = false.
Proof. unfold work_list. rewrite filter_In. unfold needs_refresh. now rewrite negb_true_iff. Qed.

(** ** A concrete tree *)
Definition nl : text := [ch_newline].
Definition inc (h : text) : text := tx "#include " ++ [ch_quote] ++ h ++ [ch_quote] ++ nl.
Definition ex_hash (s : text) : N := fold_left (fun a c => (31 * a + ccode c) mod 2 ^ 64) s 7.
Definition ex_cc : text := inc (tx "fpga/a.h") ++ tx "int main() {}" ++ nl.
Definition ex_tree (h : text) : tree :=
  [(tx "fpga/a.h", h); (tx "fpga/main.cc", ex_cc); (tx "fpga/README.md", tx "hi"); (tx "build/x.cc", tx "no")].
Example ex_files : map fst (files_of_interest ex_hash (ex_tree (tx "int a;"))) = [tx "fpga/a.h"; tx "fpga/main.cc"] /\
  directives ex_cc [tx "fpga/a.h"] /\ headers_named (tx "a.h") (ex_tree (tx "int a;")) [tx "int a;"].
Proof.
  split; [vm_compute; reflexivity|]. split.
  - replace [tx "fpga/a.h"] with (includes ex_cc) by (vm_compute; reflexivity). apply includes_spec.
  - replace [tx "int a;"] with (named_headers (tx "a.h") (ex_tree (tx "int a;"))) by (vm_compute; reflexivity). apply named_headers_spec.
Qed.
(** The change of its header changes the key of main.cc. *)
Example ex_noticed : forall k k', key_is ex_hash (ex_tree (tx "int a;")) ex_cc k -> key_is ex_hash (ex_tree (tx "int b;")) ex_cc k' -> k <> k'.
Proof.
  intros k k' K K' E.
  assert (X : ex_hash (tx "int a;") = ex_hash (tx "int b;") \/
    Nat.even (count_occ (list_eq_dec Ascii.ascii_dec) [tx "a.h"] (tx "a.h")) = true).
  { eapply (C87_header_change ex_hash (ex_tree (tx "int a;")) (ex_tree (tx "int b;"))); try exact K; try exact K'; try exact E.
    - replace [tx "int a;"] with (named_headers (tx "a.h") (ex_tree (tx "int a;"))) by (vm_compute; reflexivity). apply named_headers_spec.
    - replace [tx "int b;"] with (named_headers (tx "a.h") (ex_tree (tx "int b;"))) by (vm_compute; reflexivity). apply named_headers_spec.
    - intros x l NE H. apply headers_named_unique in H. subst l.
      assert (Z : named_headers x (ex_tree (tx "int a;")) = named_headers x (ex_tree (tx "int b;"))); [|rewrite Z; apply named_headers_spec].
      unfold named_headers, ex_tree. cbn [filter]. unfold is_header. cbn [fst].
      rewrite (text_eqb_neq (path_filename (tx "fpga/a.h")) x); [|intros Q; apply NE; rewrite <- Q; reflexivity].
      rewrite !andb_false_r. reflexivity.
    - exact (proj1 (proj2 ex_files)).
    - apply Forall2_cons; [apply base_name_iff; vm_compute; reflexivity|constructor]. }
  destruct X as [X|X]; vm_compute in X; discriminate.
Qed.

(** *** What the key misses *)
(** A header included twice: its changes are not noticed. *)
Theorem C87_double_include_refuted :
  exists c t t' k, c = inc (tx "fpga/a.h") ++ inc (tx "a.h") ++ tx "int x;" ++ nl /\
    headers_named (tx "a.h") t [tx "int a;"] /\ headers_named (tx "a.h") t' [tx "char a;"] /\
    key_is ex_hash t c k /\ key_is ex_hash t' c k.
Proof.
  exists (inc (tx "fpga/a.h") ++ inc (tx "a.h") ++ tx "int x;" ++ nl), [(tx "fpga/a.h", tx "int a;")], [(tx "fpga/a.h", tx "char a;")],
    (ex_hash (inc (tx "fpga/a.h") ++ inc (tx "a.h") ++ tx "int x;" ++ nl)).
  split; [reflexivity|]. split; [|split; [|split]].
  - replace [tx "int a;"] with (named_headers (tx "a.h") [(tx "fpga/a.h", tx "int a;")]) by (vm_compute; reflexivity). apply named_headers_spec.
  - replace [tx "char a;"] with (named_headers (tx "a.h") [(tx "fpga/a.h", tx "char a;")]) by (vm_compute; reflexivity). apply named_headers_spec.
  - match goal with |- key_is ?h ?t ?c ?k => replace k with (key_of h t c) by (vm_compute; reflexivity) end. apply key_of_is.
  - match goal with |- key_is ?h ?t ?c ?k => replace k with (key_of h t c) by (vm_compute; reflexivity) end. apply key_of_is.
Qed.
(** Two equal headers with the same base name: changing both the same way is not noticed either. *)
Theorem C87_twin_headers_refuted :
  exists c t t' k, headers_named (tx "a.h") t [tx "int a;"; tx "int a;"] /\ headers_named (tx "a.h") t' [tx "char a;"; tx "char a;"] /\
    directives c [tx "a.h"] /\ key_is ex_hash t c k /\ key_is ex_hash t' c k.
Proof.
  exists (inc (tx "a.h")), [(tx "fpga/a.h", tx "int a;"); (tx "fpga/x/a.h", tx "int a;")],
    [(tx "fpga/a.h", tx "char a;"); (tx "fpga/x/a.h", tx "char a;")], (ex_hash (inc (tx "a.h"))).
  split; [|split; [|split; [|split]]].
  - match goal with |- headers_named ?b ?t ?l => replace l with (named_headers b t) by (vm_compute; reflexivity) end. apply named_headers_spec.
  - match goal with |- headers_named ?b ?t ?l => replace l with (named_headers b t) by (vm_compute; reflexivity) end. apply named_headers_spec.
  - match goal with |- directives ?c ?l => replace l with (includes c) by (vm_compute; reflexivity) end. apply includes_spec.
  - match goal with |- key_is ?h ?t ?c ?k => replace k with (key_of h t c) by (vm_compute; reflexivity) end. apply key_of_is.
  - match goal with |- key_is ?h ?t ?c ?k => replace k with (key_of h t c) by (vm_compute; reflexivity) end. apply key_of_is.
Qed.

Print Assumptions C87_files.
Print Assumptions C87_once.
Print Assumptions C87_key_unique.
Print Assumptions C87_order.
Print Assumptions C87_entry_name.
Print Assumptions C87_header_change.
Print Assumptions C87_work_list.
Print Assumptions C87_double_include_refuted.
Print Assumptions C87_twin_headers_refuted.
