(** C59, C60, C61, C68: the JSON files of the database. *)
From Verif Require Import Base BaseFacts Absl Part PartSpec DbText DbJson AsmSpec MapFacts DbSpec DbFacts JsonSpec JsonFacts JsonFacts2.
From Verif Require Import YamlFacts Database P_Database2.

(** ** C59: part.json *)
(** What is read is what the document says ... *)
Theorem C59_part_is_read : forall j p, parse_part_json (Some j) = Ok p -> json_part j p.
Proof. exact (rd_ok un_part_reader). Qed.
(** ... and every document that describes a part is accepted. *)
Theorem C59_described_part_is_accepted : forall j p, json_part j p -> exists p', parse_part_json (Some j) = Ok p' /\ json_part j p'.
Proof.
  intros j p H. destruct (rd_complete un_part_reader _ _ H) as (p' & E). exists p'. split; [exact E|exact (rd_ok un_part_reader _ _ E)].
Qed.
Print Assumptions C59_part_is_read.
Print Assumptions C59_described_part_is_accepted.

Lemma numbered_nth {A} (R : json -> A -> Prop) n l xs : numbered R n l xs -> forall i x, nth_error xs i = Some x ->
  exists k v, nth_error l i = Some (k, v) /\ int_key k (n + Z.of_nat i) /\ R v x.
Proof.
  intros F. induction F as [n|n k v l y xs Hk Hy F IH]; intros i x E; [destruct i; discriminate|].
  destruct i as [|i].
  - injection E as <-. exists k, v. rewrite Z.add_0_r. auto.
  - cbn [nth_error] in *. destruct (IH i x E) as (k' & v' & E' & Hk' & H). exists k', v'.
    split; [exact E'|]. split; [|exact H]. replace (n + Z.of_nat (S i))%Z with (n + 1 + Z.of_nat i)%Z by lia. exact Hk'.
Qed.
Lemma numbered_nth' {A} (R : json -> A -> Prop) n l xs : numbered R n l xs -> forall i k v, nth_error l i = Some (k, v) ->
  exists x, nth_error xs i = Some x /\ int_key k (n + Z.of_nat i) /\ R v x.
Proof.
  intros F. induction F as [n|n k v l y xs Hk Hy F IH]; intros i k0 v0 E; [destruct i; discriminate|].
  destruct i as [|i].
  - injection E as <- <-. exists y. rewrite Z.add_0_r. auto.
  - cbn [nth_error] in *. destruct (IH i k0 v0 E) as (x & E' & Hk' & H). exists x.
    split; [exact E'|]. split; [|exact H]. replace (n + Z.of_nat (S i))%Z with (n + 1 + Z.of_nat i)%Z by lia. exact Hk'.
Qed.
Lemma bus_key_fun k t t' : bus_key k t -> bus_key k t' -> t = t'.
Proof. intros H H'. apply bus_key_spec in H. apply bus_key_spec in H'. congruence. Qed.

(** The rows and columns are numbered 0, 1, 2, ... in document order. *)
Theorem C59_rows_are_numbered : forall j p (bottom : bool), parse_part_json (Some j) = Ok p ->
  exists regions h rows, member j (tx "global_clock_regions") regions /\
    member regions (if bottom then tx "bottom" else tx "top") h /\ member h (tx "rows") (JObj rows) /\
    length rows = length (half p bottom) /\
    forall i k v, nth_error rows i = Some (k, v) ->
      int_key k (Z.of_nat i) /\ exists buses row, member v (tx "configuration_buses") buses /\
        json_row buses row /\ nth_error (half p bottom) i = Some row.
Proof.
  intros j p bottom H. apply C59_part_is_read in H as [bk _ _ _ (rg & Mr & Hb & Ht)]. cbn [fst snd] in *.
  assert (X : field (if bottom then tx "bottom" else tx "top") (field (tx "rows") json_half) rg (half p bottom)) by (destruct bottom; assumption).
  destruct X as (h & Mh & rw & Mw & l & -> & F). exists rg, h, l. split; [exact Mr|]. split; [exact Mh|]. split; [exact Mw|].
  split; [clear - F; induction F; cbn; congruence|]. intros i k v E.
  destruct (numbered_nth' _ _ _ _ F i k v E) as (row & E' & Hk & b & Mb & Hrow). split; [exact Hk|]. exists b, row. auto.
Qed.
Print Assumptions C59_rows_are_numbered.

(** The frames of the part are exactly those the document lists. *)
Theorem C59_frames_are_the_listed_ones : forall j p t bottom r c m, parse_part_json (Some j) = Ok p ->
  (has_frame p t bottom r c m <-> lists_frame j t bottom r c m).
Proof.
  intros j p t bottom r c m H. apply C59_part_is_read in H as [bk _ _ _ (rg & Mr & Hb & Ht)]. cbn [fst snd] in *.
  assert (X : field (if bottom then tx "bottom" else tx "top") (field (tx "rows") json_half) rg (half p bottom)) by (destruct bottom; assumption).
  clear Hb Ht. destruct X as (h & Mh & rw & Mw & l & -> & F). split.
  - intros (row & cols & count & Er & I & Ec & L).
    destruct (numbered_nth _ _ _ _ F _ _ Er) as (rk & rv & Erl & _ & bs & Mb & (bl & es & -> & Fe & ND & Co)).
    apply (In_maps_to (K := bus_type)) in I; [|exact ND]. apply Co in I as (e1 & e2 & -> & Ne).
    apply Forall2_app_inv_r in Fe as (b1 & b2' & Fe1 & Fe2 & ->). inversion Fe2 as [|[bk' bv] ? b2 ? [Hk (cj & Mc & (cl & -> & Fc))] Fe3]; subst.
    cbn [fst snd] in *. destruct (numbered_nth _ _ _ _ Fc _ _ Ec) as (ck & cv & Ecl & _ & cn & Mcn & -> & _).
    exists rg, h, l, rk, rv, (b1 ++ (bk', bv) :: b2), b1, bk', bv, b2, cl, ck, cv, count.
    repeat (split; [assumption||reflexivity|]). split; [|repeat (split; [assumption|]); assumption].
    intros k v Ikv Hk'. apply Ne. clear - Fe1 Ikv Hk'. induction Fe1 as [|kv e b1 e1 [Hk _] F IH]; [destruct Ikv|].
    destruct Ikv as [->|I]; [|right; now apply IH]. left. cbn [fst snd] in *. eapply bus_key_fun; eauto.
  - intros (rg' & h' & l' & rk & rv & bl & b1 & bk' & bv & b2 & cl & ck & cv & count & Mr' & Mh' & Mw' & Er & Mb & -> & Hk & Nb & Mc & Ec & Mf & L).
    rewrite (member_fun _ _ _ _ Mr' Mr) in *. rewrite (member_fun _ _ _ _ Mh' Mh) in *.
    pose proof (member_fun _ _ _ _ Mw' Mw) as E. injection E as ->.
    destruct (numbered_nth' _ _ _ _ F _ _ _ Er) as (row & Erow & _ & bs & Mb' & (bl' & es & -> & Fe & ND & Co)).
    pose proof (member_fun _ _ _ _ Mb' Mb) as E. injection E as ->.
    apply Forall2_app_inv_l in Fe as (e1 & e2' & Fe1 & Fe2 & ->). inversion Fe2 as [|? [t' cols] ? e2 [Hk' (cj & Mc' & (cl' & -> & Fc))] Fe3]; subst.
    cbn [fst snd] in *. rewrite (bus_key_fun _ _ _ Hk' Hk) in *. pose proof (member_fun _ _ _ _ Mc' Mc) as E. injection E as ->.
    destruct (numbered_nth' _ _ _ _ Fc _ _ _ Ec) as (x & Ex & _ & cn & Mcn & -> & _).
    pose proof (member_fun _ _ _ _ Mcn Mf) as E. injection E as E. apply N2Z.inj in E. subst x.
    exists row, cols, count. split; [exact Erow|]. split; [|auto].
    apply (maps_to_In (K := bus_type)). apply Co. exists e1, e2. split; [reflexivity|].
    intros I. clear - Fe1 I Nb. revert I Nb. induction Fe1 as [|[k v] [t' cs] b1 e1 [Hk _] F IH]; [intros []|]. cbn [fst snd] in Hk.
    intros I Nb. cbn in I. destruct I as [E|I].
    + subst t'. apply (Nb k v); [now left|exact Hk].
    + apply IH; [exact I|]. intros k' v' I'. apply (Nb k' v'). now right.
Qed.
Print Assumptions C59_frames_are_the_listed_ones.

(** A document with one row, two columns and a repeated bus. *)
Definition sample_columns : json :=
  JObj [(tx "0", JObj [(tx "frame_count", JInt 42)]); (tx "1", JObj [(tx "frame_count", JInt 30)])].
Definition sample_part : json :=
  JObj [(tx "idcode", JInt 56803475);
        (tx "global_clock_regions", JObj [
           (tx "bottom", JObj [(tx "rows", JObj [])]);
           (tx "top", JObj [(tx "rows", JObj [
              (tx "0", JObj [(tx "configuration_buses", JObj [
                  (tx "CLB_IO_CLK", JObj [(tx "configuration_columns", sample_columns)]);
                  (tx "BLOCK_RAM", JObj [(tx "configuration_columns", JObj [])]);
                  (tx "CLB_IO_CLK", JObj [(tx "configuration_columns", JObj [])]) ])])])])])].
Example C59_case : exists p, parse_part_json (Some sample_part) = Ok p /\
  has_frame p BusCLBIOCLK false 0 1 29 /\ ~ has_frame p BusCLBIOCLK false 0 1 30 /\ dp_idcode p = 56803475.
Proof.
  exists {| dp_idcode := 56803475; dp_bottom_rows := []; dp_top_rows := [[(BusCLBIOCLK, [42; 30]); (BusBlockRam, [])]]; dp_iobanks := [] |}.
  split; [vm_compute; reflexivity|]. split; [|split; [|reflexivity]].
  - exists [(BusCLBIOCLK, [42; 30]); (BusBlockRam, [])], [42; 30], 30. split; [reflexivity|]. split; [now left|]. split; [reflexivity|lia].
  - intros (row & cols & count & E & I & E' & L). injection E as <-. destruct I as [I|[I|[]]]; [|discriminate I].
    injection I as <-. injection E' as <-. lia.
Qed.

(** ** C60: base addresses *)
(** A base address is read exactly as the grammar of C integers says ... *)
Theorem C60_base_address_is_read : forall s v, base_address_of s = Ok v <-> address_text s v.
Proof. exact base_address_spec. Qed.
(** ... and is an error otherwise. *)
Theorem C60_otherwise_an_error : forall s, (forall v, ~ address_text s v) -> base_address_of s = Err.
Proof.
  intros s N. destruct (base_address_or s) as [(v & E)|E]; [|exact E]. apply base_address_spec in E. now elim (N v).
Qed.
(** The form used by the database. *)
Theorem C60_hexadecimal_addresses : forall ds v, ds <> [] -> numeral 16 ds v ->
  (v < 2 ^ 63 -> base_address_of (tx "0x" ++ ds) = Ok v) /\ (2 ^ 63 <= v -> base_address_of (tx "0x" ++ ds) = Err).
Proof.
  intros ds v NE Hn.
  assert (C : c_number (tx "0x" ++ ds) v).
  { change (tx "0x" ++ ds) with ("0"%char :: "x"%char :: ds). rewrite <- (app_nil_r ds). apply c_hex; [now left|exact NE|exact Hn|].
    intros c r d E. discriminate. }
  apply c_number_spec in C.
  assert (E : base_address_of (tx "0x" ++ ds) = signed_address false v).
  { rewrite base_address_cut. change (strip_leading (tx "0x" ++ ds)) with ("0"%char :: "x"%char :: ds). cbv iota.
    change (Ascii.eqb "0" "-") with false. change (Ascii.eqb "0" "+") with false. cbv iota. now rewrite <- C. }
  rewrite E. unfold signed_address. split; intros L.
  - apply N.ltb_lt in L. now rewrite L.
  - apply N.ltb_ge in L. now rewrite L.
Qed.
(** In a block, as part of the whole record. *)
Theorem C60_block_base : forall j b, un_block j = Ok b -> exists s, member j (tx "baseaddr") (JStr s) /\ address_text s (bb_base b).
Proof. intros j b H. apply (rd_ok un_block_reader) in H as (_ & (v & M & s & -> & A) & _). exists s. auto. Qed.
(** What follows the number is not looked at, and no number at all reads as 0: neither
    is an error; a negative number wraps. *)
Theorem C60_unparsable_is_an_error_refuted :
  base_address_of (tx "0x00400000 or so") = Ok 4194304 /\ base_address_of (tx "unknown") = Ok 0 /\
  base_address_of [] = Ok 0 /\ base_address_of (tx "-1") = Ok (2 ^ 64 - 1).
Proof. repeat split. Qed.
Print Assumptions C60_base_address_is_read.
Print Assumptions C60_otherwise_an_error.
Print Assumptions C60_hexadecimal_addresses.
Print Assumptions C60_block_base.
Print Assumptions C60_unparsable_is_an_error_refuted.
Example C60_case : numeral 16 (tx "00400A00") 4196864 /\ base_address_of (tx "0xFFFFFFFFFFFFFFFF") = Err.
Proof.
  split; [|reflexivity]. exists [0; 0; 4; 0; 0; 10; 0; 0]. split; [|reflexivity].
  repeat (constructor; [split; [lia|cbn; lia]|]). constructor.
Qed.

(** ** C68: tilegrid.json *)
Theorem C68_grid_is_read : forall j g, parse_tilegrid (Some j) = Ok g -> json_grid j g.
Proof. exact (rd_ok grid_reader). Qed.
Theorem C68_described_grid_is_accepted : forall j g, json_grid j g -> exists g', parse_tilegrid (Some j) = Ok g' /\ json_grid j g'.
Proof.
  intros j g H. destruct (rd_complete grid_reader _ _ H) as (g' & E). exists g'. split; [exact E|exact (rd_ok grid_reader _ _ E)].
Qed.
(** Tile by tile: the tile of a name is what its first entry says, and there are no others. *)
Theorem C68_each_tile : forall l g name t, parse_tilegrid (Some (JObj l)) = Ok g -> maps_to g name t ->
  exists l1 k v l2, l = l1 ++ (k, v) :: l2 /\ c_string k name /\ json_tile v t /\
    forall k' v', In (k', v') l1 -> ~ c_string k' name.
Proof.
  intros l g name t H M. apply C68_grid_is_read in H as (l' & es & E & F & ND & Co). injection E as <-.
  apply Co in M as (e1 & e2 & -> & N). apply Forall2_app_inv_r in F as (l1 & l2' & F1 & F2 & ->).
  inversion F2 as [|[k v] ? l2 ? [Hk Hv] F3]; subst. cbn [fst snd] in *. exists l1, k, v, l2.
  split; [reflexivity|]. split; [exact Hk|]. split; [exact Hv|]. intros k' v' I C. apply N.
  clear - F1 I C. induction F1 as [|kv e l1 e1 [Hk _] F IH]; [destruct I|]. destruct I as [->|I]; [|right; now apply IH].
  left. cbn [fst snd] in *. eapply c_string_fun; eauto.
Qed.
Theorem C68_no_tile_is_lost : forall l g k v name, parse_tilegrid (Some (JObj l)) = Ok g -> In (k, v) l -> c_string k name -> has_key g name.
Proof.
  intros l g k v name H I C. apply C68_grid_is_read in H as (l' & es & E & F & ND & Co). injection E as <-.
  assert (K : has_key es name).
  { clear - F I C. induction F as [|kv e l es [Hk _] F IH]; [destruct I|]. destruct I as [->|I]; [|right; now apply IH].
    left. cbn [fst snd] in *. eapply c_string_fun; eauto. }
  destruct (key_maps_to _ text_eqb_eq _ _ K) as (t & M). apply Co in M. eapply maps_to_key; eauto.
Qed.
Print Assumptions C68_grid_is_read.
Print Assumptions C68_described_grid_is_accepted.
Print Assumptions C68_each_tile.
Print Assumptions C68_no_tile_is_lost.

Definition sample_tile (bits : json) : json :=
  JObj [(tx "type", JStr (tx "INT_L")); (tx "grid_x", JInt 3); (tx "grid_y", JInt 7); (tx "bits", bits);
        (tx "pin_functions", JObj []); (tx "sites", JObj [(tx "TIEOFF_X0Y0", JStr (tx "TIEOFF"))]); (tx "prohibited_sites", JArr [])].
Definition sample_bits : json :=
  JObj [(tx "CLB_IO_CLK", JObj [(tx "baseaddr", JStr (tx "0x00400A00")); (tx "frames", JInt 28); (tx "offset", JInt 99); (tx "words", JInt 2)])].
Example C68_case : exists g t, parse_tilegrid (Some (JObj [(tx "INT_L_X2Y0", sample_tile sample_bits)])) = Ok g /\ maps_to g (tx "INT_L_X2Y0") t /\
  t_type t = tx "INT_L" /\ t_bits t = [(BusCLBIOCLK, {| bb_alias := None; bb_base := 4196864; bb_frames := 28; bb_offset := 99; bb_words := 2 |})].
Proof.
  destruct (parse_tilegrid (Some (JObj [(tx "INT_L_X2Y0", sample_tile sample_bits)]))) as [g| | | |] eqn:E; try (vm_compute in E; discriminate).
  vm_compute in E. injection E as <-. eexists. eexists. split; [reflexivity|]. split; [exists [], []; split; [reflexivity|intros []]|]. split; reflexivity.
Qed.

(** ** C61: what a malformed file does *)
Definition read_or_reported {A} (o : outcome A) : Prop := (exists x, o = Ok x) \/ o = Err.
Definition aborted {A} (o : outcome A) : Prop := o = Crash \/ o = UB.

Lemma ofold_dec {A S} (f : S -> A -> outcome S) l : (forall s x, ok_or_err (f s x)) -> forall s, ok_or_err (ofold f l s).
Proof.
  intros D. induction l as [|x l IH]; intros s; [left; eexists; reflexivity|]. cbn [ofold].
  destruct (D s x) as [(s' & ->)| ->]; [apply IH|now right].
Qed.
Lemma lines_dec {S} after (sink : S -> N -> text -> outcome S) (D : forall s n l, ok_or_err (sink s n l)) s content :
  splittable after content -> content <> [] -> ok_or_err (lines_generator after sink s content).
Proof.
  intros R NE. destruct (text_lines_total content) as (ls & T). unfold lines_generator. destruct content as [|c content]; [contradiction|].
  rewrite (lines_loop_spec after sink _ ls T R _ 0 s (le_n _)). apply ofold_dec. intros s' [n l]. apply D.
Qed.
Lemma parse_yaml_dec {S} (sink : S -> text -> props -> outcome S) (D : forall s k p, ok_or_err (sink s k p)) content s :
  ok_or_err (parse_yaml sink content s).
Proof.
  destruct (yaml_document_or_not sink D content) as [(es & H)|(ls & l & P & I & N)].
  - destruct (parse_yaml_doc sink D content es s H) as (es' & _ & ->). now apply run_entries_dec.
  - right. eapply parse_yaml_bad; eauto.
Qed.
Lemma parse_parts_infos_dec parts devices : ok_or_err (parse_parts_infos parts devices).
Proof.
  unfold parse_parts_infos. destruct (parse_yaml_dec fabric_sink fabric_sink_dec devices []) as [(f & ->)| ->]; [|now right].
  cbn [obind]. apply parse_yaml_dec. apply part_sink_dec.
Qed.
(** The text files are read or reported, provided they can be split into lines. *)
Theorem C61_text_files : forall after content, splittable after content ->
  read_or_reported (parse_segbits after content) /\ read_or_reported (parse_ppips after content) /\
  read_or_reported (parse_pins after content).
Proof.
  intros after content R. destruct content as [|c content].
  - split; [left; eexists; reflexivity|]. split; [left; eexists; reflexivity|]. first [left; eexists; reflexivity|right; reflexivity].
  - split; [|split].
    + apply (lines_dec after segbits_line segbits_line_dec); [exact R|discriminate].
    + apply (lines_dec after ppip_line ppip_line_dec); [exact R|discriminate].
    + apply (lines_dec after pin_line pin_line_dec); [exact R|discriminate].
Qed.
Theorem C61_parts_tables : forall parts devices, read_or_reported (parse_parts_infos parts devices).
Proof. exact parse_parts_infos_dec. Qed.

(** tilegrid.json aborts the program exactly when the first thing wrong with it is a tile
    whose "bits" is not an object; every other document is read or reported. *)
Theorem C61_tilegrid : forall doc,
  (aborted (parse_tilegrid doc) <-> exists j, doc = Some j /\ grid_aborts j) /\
  (aborted (parse_tilegrid doc) \/ read_or_reported (parse_tilegrid doc)).
Proof.
  intros [j|].
  - split.
    + rewrite (rd_fatal grid_reader j). split; [eauto|]. intros (j' & E & H). now injection E as <-.
    + pose proof (rd_fuel grid_reader j) as F. unfold aborted, read_or_reported. cbv beta in F.
      destruct (parse_tilegrid (Some j)) as [g| | | |]; eauto; now elim F.
  - split; [|now right; right]. split; [intros [H|H]; discriminate|]. intros (j & E & _). discriminate.
Qed.
(** part.json: the same for I/O banks that are not an object of strings and for array keys
    out of sequence. *)
Theorem C61_part : forall doc,
  (aborted (parse_part_json doc) <-> exists j, doc = Some j /\ part_aborts j) /\
  (aborted (parse_part_json doc) \/ read_or_reported (parse_part_json doc)).
Proof.
  intros [j|].
  - split.
    + etransitivity; [exact (rd_fatal un_part_reader j)|]. split; [eauto|]. intros (j' & E & H). now injection E as <-.
    + pose proof (rd_fuel un_part_reader j) as F. unfold aborted, read_or_reported, parse_part_json.
      destruct (un_part j) as [g| | | |]; eauto; now elim F.
  - split; [|now right; right]. split; [intros [H|H]; discriminate|]. intros (j & E & _). discriminate.
Qed.
(** So a document that neither aborts nor describes anything is an error. *)
Theorem C61_otherwise_reported : forall j,
  (~ grid_aborts j -> (forall g, ~ json_grid j g) -> parse_tilegrid (Some j) = Err) /\
  (~ part_aborts j -> (forall p, ~ json_part j p) -> parse_part_json (Some j) = Err).
Proof.
  intros j. split; intros A D.
  - destruct (C61_tilegrid (Some j)) as [I [X|[(g & E)|E]]]; [|apply C68_grid_is_read in E; now elim (D g)|exact E].
    apply I in X as (j' & E & X). injection E as <-. contradiction.
  - destruct (C61_part (Some j)) as [I [X|[(g & E)|E]]]; [|apply C59_part_is_read in E; now elim (D g)|exact E].
    apply I in X as (j' & E & X). injection E as <-. contradiction.
Qed.
(** These really occur: each of the following aborts. *)
Theorem C61_malformed_is_reported_refuted :
  parse_tilegrid (Some (JObj [(tx "INT_L_X2Y0", sample_tile (JArr []))])) = Crash /\
  parse_part_json (Some (JObj [(tx "idcode", JInt 0); (tx "iobanks", JArr [])])) = Crash /\
  parse_part_json (Some (JObj [(tx "idcode", JInt 0); (tx "iobanks", JObj [(tx "14", JInt 5)])])) = Crash /\
  parse_part_json (Some (JObj [(tx "idcode", JInt 0); (tx "global_clock_regions",
    JObj [(tx "bottom", JObj [(tx "rows", JObj [(tx "1", JObj [])])])])])) = Crash /\
  parse_part_json (Some (JObj [(tx "idcode", JInt 0); (tx "global_clock_regions",
    JObj [(tx "bottom", JObj [(tx "rows", JObj [(tx "-2147483648", JObj [])])])])])) = UB.
Proof. repeat split. Qed.

(** The whole database: reading it aborts only through one of these documents or a pin file that
    cannot be split. *)
Theorem C61_database : forall e ord root part, aborted (parse_database e ord root part) ->
  exists path content, e_read e path = Some content /\
    ((exists j, e_json e content = Some j /\ (grid_aborts j \/ part_aborts j)) \/
     ~ splittable (after_mapping content) content).
Proof.
  intros e ord root part H.
  assert (MF : forall p, ~ fatal (map_file e p)) by (intros p; unfold map_file; destruct (e_read e p); [apply fatal_Ok|apply fatal_Err]).
  assert (RR : forall A (o : outcome A), read_or_reported o -> ~ fatal o) by (intros A o [(x & ->)| ->]; [apply fatal_Ok|apply fatal_Err]).
  change (fatal (parse_database e ord root part)) in H. unfold parse_database in H.
  apply fatal_obind in H as [H|(info & _ & H)].
  { exfalso. unfold parse_part_info in H. apply fatal_obind in H as [H|(ps & _ & H)]; [exact (MF _ H)|].
    apply fatal_obind in H as [H|(ds & _ & H)]; [exact (MF _ H)|].
    apply fatal_obind in H as [H|(is & _ & H)]; [exact (RR _ _ (C61_parts_tables _ _) H)|].
    destruct (hm_find _ _ _); [now apply fatal_Ok in H|now apply fatal_Err in H]. }
  apply fatal_obind in H as [H|(gt & Eg & H)]; [destruct (MF _ H)|].
  assert (RD : forall p c, map_file e p = Ok c -> e_read e p = Some c).
  { intros p c. unfold map_file. destruct (e_read e p); intros X; [now injection X as ->|discriminate]. }
  apply RD in Eg.
  apply fatal_obind in H as [H|(g & _ & H)].
  { apply C61_tilegrid in H as (j & Ej & A). eexists. exists gt. split; [exact Eg|]. left. eauto. }
  apply fatal_obind in H as [H|(paths & _ & H)].
  { exfalso. unfold index_tile_types in H. destruct (e_walk e root); [now apply fatal_Ok in H|now apply fatal_Err in H]. }
  apply fatal_obind in H as [H|(pt & Ep & H)]; [destruct (MF _ H)|]. apply RD in Ep.
  apply fatal_obind in H as [H|(p & _ & H)].
  { apply C61_part in H as (j & Ej & A). eexists. exists pt. split; [exact Ep|]. left. eauto. }
  apply fatal_obind in H as [H|(bk & _ & H)]; [|now apply fatal_Ok in H].
  unfold create_banks_registry in H. apply fatal_obind in H as [H|(ct & Ec & H)]; [destruct (MF _ H)|]. apply RD in Ec.
  eexists. exists ct. split; [exact Ec|]. right. intros S.
  apply fatal_obind in H as [H|(pins & _ & H)]; [|now apply fatal_Ok in H].
  exact (RR _ _ (proj2 (proj2 (C61_text_files _ _ S))) H).
Qed.
Print Assumptions C61_text_files.
Print Assumptions C61_parts_tables.
Print Assumptions C61_tilegrid.
Print Assumptions C61_part.
Print Assumptions C61_otherwise_reported.
Print Assumptions C61_malformed_is_reported_refuted.
Print Assumptions C61_database.
(** Damaged documents that are reported. *)
Example C61_case :
  parse_tilegrid (Some (JObj [(tx "INT_L_X2Y0", sample_tile (JObj [(tx "WHAT", JNull)]))])) = Err /\
  parse_part_json (Some (JObj [(tx "idcode", JInt (-1))])) = Err.
Proof. split; reflexivity. Qed.
