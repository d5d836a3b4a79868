(** Facts about the messages of a failed load (LoadLog): the readers are those of Database.v, what is said is a fault
    of the specification, and a value with a fault is not readable. *)
From Verif Require Import Base BaseFacts Absl Part DbText DbJson Database Fasm Assembler AsmSpec MapFacts OutcomeFacts
  DbSpec JsonSpec LoadSpec JsonFacts JsonFacts2 DbFacts YamlFacts LoadFacts FasmLog LoadLog LoadLogSpec.
From Coq Require Import Lia.

(** ** Leaving out the texts *)
Lemma unsaid_bind {A B} (o : said A) (f : A -> said B) : unsaid (sbind o f) = obind (unsaid o) (fun x => unsaid (f x)).
Proof. destruct o; reflexivity. Qed.
Lemma unsaid_unchecked {A} (o : outcome A) m : unsaid (unchecked o m) = o.
Proof. destruct o; reflexivity. Qed.
Lemma unsaid_fold {A S} (f : S -> A -> said S) g l : (forall s x, unsaid (f s x) = g s x) -> forall s, unsaid (sfold f l s) = ofold g l s.
Proof.
  intros H. induction l as [|a l IH]; intros s; [reflexivity|]. cbn [sfold ofold]. rewrite unsaid_bind, H.
  destruct (g s a); cbn [obind]; try reflexivity. apply IH.
Qed.
Lemma obind_ext {A B} (o : outcome A) (f g : A -> outcome B) : (forall x, f x = g x) -> obind o f = obind o g.
Proof. intros H. destruct o; cbn [obind]; auto. Qed.

Section Erase.
  Context (lt : library_texts).
  Lemma basic_erase {A} (un : json -> outcome A) j : ok_or_err (un j) -> unsaid (say_basic lt un j) = un j.
  Proof. intros [(x & E)|E]; unfold say_basic; rewrite E; reflexivity. Qed.
  Lemma string_or j : ok_or_err (un_string j).
  Proof. unfold ok_or_err. destruct j; cbn [un_string]; eauto. Qed.
  Lemma u32_or j : ok_or_err (un_u32 j).
  Proof. unfold ok_or_err. destruct j; cbn [un_u32]; eauto. destruct (_ && _)%bool; eauto. Qed.
  Lemma i32_or j : ok_or_err (un_i32 j).
  Proof. unfold ok_or_err. destruct j; cbn [un_i32]; eauto. destruct (_ && _)%bool; eauto. Qed.
  Lemma string_erase j : unsaid (say_basic lt un_string j) = un_string j.
  Proof. apply basic_erase, string_or. Qed.
  Lemma u32_erase j : unsaid (say_basic lt un_u32 j) = un_u32 j.
  Proof. apply basic_erase, u32_or. Qed.
  Lemma i32_erase j : unsaid (say_basic lt un_i32 j) = un_i32 j.
  Proof. apply basic_erase, i32_or. Qed.
  Lemma members_erase j : unsaid (say_members j) = members j.
  Proof. destruct j; reflexivity. Qed.
  Lemma unchecked_erase j : unsaid (say_members_unchecked j) = members_unchecked j.
  Proof. destruct j; reflexivity. Qed.
  Lemma member_erase {A} (f : json -> said A) g j name : (forall v, unsaid (f v) = g v) -> unsaid (say_member lt f j name) = get_member g j name.
  Proof.
    intros H. unfold say_member, get_member. rewrite unsaid_bind, members_erase. apply obind_ext. intros l.
    destruct (find_member name l); [apply H|reflexivity].
  Qed.
  Lemma opt_member_erase {A} (f : json -> said A) g j name : (forall v, unsaid (f v) = g v) -> unsaid (say_opt_member f j name) = opt_get_member g j name.
  Proof.
    intros H. unfold say_opt_member, opt_get_member. rewrite unsaid_bind, members_erase. apply obind_ext. intros l.
    destruct (find_member name l); [|reflexivity]. rewrite unsaid_bind, H. reflexivity.
  Qed.
  Lemma string_map_erase j : unsaid (say_string_map lt j) = un_string_map j.
  Proof.
    unfold say_string_map, un_string_map. rewrite unsaid_bind, members_erase. apply obind_ext. intros l. apply unsaid_fold.
    intros s x. rewrite unsaid_bind, string_erase. reflexivity.
  Qed.
  Lemma string_list_erase j : unsaid (say_string_list lt j) = un_string_list j.
  Proof. destruct j; try reflexivity. cbn [say_string_list un_string_list]. apply unsaid_fold. intros s x. destruct x; reflexivity. Qed.
  Lemma address_erase s : unsaid (say_address s) = base_address_of s.
  Proof. unfold say_address. destruct (base_address_or s) as [(v & E)|E]; rewrite E; reflexivity. Qed.
  Lemma alias_erase j : unsaid (say_alias lt j) = un_alias j.
  Proof.
    unfold say_alias, un_alias. rewrite unsaid_bind, (member_erase _ _ _ _ string_map_erase). apply obind_ext. intros a.
    rewrite unsaid_bind, (member_erase _ _ _ _ u32_erase). apply obind_ext. intros b.
    rewrite unsaid_bind, (member_erase _ _ _ _ string_erase). reflexivity.
  Qed.
  Lemma block_erase j : unsaid (say_block lt j) = un_block j.
  Proof.
    unfold say_block, un_block. rewrite unsaid_bind, (opt_member_erase _ _ _ _ alias_erase). apply obind_ext. intros a.
    rewrite unsaid_bind, unsaid_bind, (member_erase _ _ _ _ string_erase).
    rewrite (obind_ext _ _ base_address_of address_erase). apply obind_ext. intros b.
    rewrite unsaid_bind, (member_erase _ _ _ _ u32_erase). apply obind_ext. intros c.
    rewrite unsaid_bind, (member_erase _ _ _ _ i32_erase). apply obind_ext. intros d.
    rewrite unsaid_bind, (member_erase _ _ _ _ u32_erase). reflexivity.
  Qed.
  Lemma bus_erase w s : unsaid (say_bus w s) = bus_of_string s.
  Proof. unfold say_bus. destruct (bus_of_string_or s) as [(v & E)|E]; rewrite E; reflexivity. Qed.
  Lemma bits_erase j : unsaid (say_bits lt j) = un_bits j.
  Proof.
    unfold say_bits, un_bits. rewrite unsaid_bind, unchecked_erase. apply obind_ext. intros l. apply unsaid_fold.
    intros s x. rewrite unsaid_bind, bus_erase. apply obind_ext. intros b. rewrite unsaid_bind, block_erase. reflexivity.
  Qed.
  Lemma tile_erase j : unsaid (say_tile lt j) = un_tile j.
  Proof.
    unfold say_tile, un_tile. rewrite unsaid_bind, (member_erase _ _ _ _ string_erase). apply obind_ext. intros a.
    rewrite unsaid_bind, (member_erase _ _ _ _ u32_erase). apply obind_ext. intros b.
    rewrite unsaid_bind, (member_erase _ _ _ _ u32_erase). apply obind_ext. intros c.
    rewrite unsaid_bind, (opt_member_erase _ _ _ _ string_erase). apply obind_ext. intros d.
    rewrite unsaid_bind, (member_erase _ _ _ _ bits_erase). apply obind_ext. intros f.
    rewrite unsaid_bind, (member_erase _ _ _ _ string_map_erase). apply obind_ext. intros g.
    rewrite unsaid_bind, (member_erase _ _ _ _ string_map_erase). apply obind_ext. intros h.
    rewrite unsaid_bind, (member_erase _ _ _ _ string_list_erase). reflexivity.
  Qed.
  Lemma tilegrid_erase c d : unsaid (say_tilegrid lt c d) = parse_tilegrid d.
  Proof.
    unfold say_tilegrid, parse_tilegrid. destruct d as [j|]; [|reflexivity]. destruct j; try reflexivity.
    apply unsaid_fold. intros s x. rewrite <- tile_erase. destruct (say_tile lt (snd x)); reflexivity.
  Qed.
  Lemma iobanks_erase j : unsaid (say_iobanks lt j) = un_iobanks j.
  Proof.
    unfold say_iobanks, un_iobanks. rewrite unsaid_bind, unchecked_erase. apply obind_ext. intros l. apply unsaid_fold.
    intros s x. destruct (atoi_u32 (c_str (fst x))) as [k []]; [|reflexivity]. destruct (snd x); reflexivity.
  Qed.
  Lemma columns_erase j : unsaid (say_columns lt j) = un_columns j.
  Proof.
    unfold say_columns, un_columns. rewrite unsaid_bind, members_erase. apply obind_ext. intros l. rewrite unsaid_bind.
    erewrite unsaid_fold with (g := fun (st : Z * list N) (kv : text * json) =>
      let '(prev, v) := st in
      match atoi_i32 (c_str (fst kv)) with
      | (_, false) => Err
      | (key, true) => obind (check_next prev key) (fun _ => obind (get_member un_u32 (snd kv) (tx "frame_count")) (fun fc => Ok (key, v ++ [fc])))
      end).
    - apply obind_ext. intros [z v]. reflexivity.
    - intros [prev v] x. destruct (atoi_i32 (c_str (fst x))) as [k []]; [|reflexivity].
      rewrite unsaid_bind, unsaid_unchecked. apply obind_ext. intros u. rewrite unsaid_bind, (member_erase _ _ _ _ u32_erase). reflexivity.
  Qed.
  Lemma row_erase j : unsaid (say_row lt j) = un_row j.
  Proof.
    unfold say_row, un_row. rewrite unsaid_bind, members_erase. apply obind_ext. intros l. apply unsaid_fold.
    intros s x. rewrite unsaid_bind, bus_erase. apply obind_ext. intros b. rewrite unsaid_bind, (member_erase _ _ _ _ columns_erase). reflexivity.
  Qed.
  Lemma half_erase j : unsaid (say_half lt j) = un_half j.
  Proof.
    unfold say_half, un_half. rewrite unsaid_bind, members_erase. apply obind_ext. intros l. rewrite unsaid_bind.
    erewrite unsaid_fold with (g := fun (st : Z * clock_region_half) (kv : text * json) =>
      let '(prev, v) := st in
      match atoi_i32 (c_str (fst kv)) with
      | (_, false) => Err
      | (key, true) => obind (check_next prev key) (fun _ => obind (get_member un_row (snd kv) (tx "configuration_buses")) (fun r => Ok (key, v ++ [r])))
      end).
    - apply obind_ext. intros [z v]. reflexivity.
    - intros [prev v] x. destruct (atoi_i32 (c_str (fst x))) as [k []]; [|reflexivity].
      rewrite unsaid_bind, unsaid_unchecked. apply obind_ext. intros u. rewrite unsaid_bind, (member_erase _ _ _ _ row_erase). reflexivity.
  Qed.
  Lemma regions_erase j : unsaid (say_regions lt j) = un_regions j.
  Proof.
    unfold say_regions, un_regions. destruct (pointer2 (tx "bottom") (tx "rows") j); [|reflexivity].
    rewrite unsaid_bind, half_erase. apply obind_ext. intros b. destruct (pointer2 (tx "top") (tx "rows") j); [|reflexivity].
    rewrite unsaid_bind, half_erase. reflexivity.
  Qed.
  Lemma part_erase j : unsaid (say_part lt j) = un_part j.
  Proof.
    unfold say_part, un_part. rewrite unsaid_bind, members_erase. apply obind_ext. intros l.
    rewrite unsaid_bind, (member_erase _ _ _ _ u32_erase). apply obind_ext. intros a.
    rewrite unsaid_bind, (opt_member_erase _ _ _ _ iobanks_erase). apply obind_ext. intros b.
    rewrite unsaid_bind, (member_erase _ _ _ _ regions_erase). apply obind_ext. intros [p q]. reflexivity.
  Qed.
  Lemma part_json_erase c d : unsaid (say_part_json lt c d) = parse_part_json d.
  Proof. destruct d; [apply part_erase|reflexivity]. Qed.

  Lemma lines_erase {S} after (f : S -> N -> text -> said S) g : (forall s n l, unsaid (f s n l) = g s n l) ->
    forall fuel n s it, unsaid (say_lines_loop fuel after f n s it) = lines_loop fuel after g n s it.
  Proof.
    intros H. induction fuel as [|fuel IH]; intros n s it; [destruct it; reflexivity|].
    destruct it as [|c it]; [reflexivity|]. cbn [say_lines_loop lines_loop]. unfold say_to_eol. rewrite unsaid_bind, unsaid_unchecked.
    apply obind_ext. intros [l r]. rewrite unsaid_bind, H. apply obind_ext. intros s'. apply IH.
  Qed.
  Lemma pin_line_erase s n l : unsaid (say_pin_line s n l) = pin_line s n l.
  Proof.
    unfold say_pin_line, pin_line. destruct (n =? 1); [destruct (texts_eqb _ _); reflexivity|].
    destruct (map strip _) as [|p [|b [|si [|t [|f [|]]]]]]; try reflexivity. destruct (atoi_u32 b) as [k []]; reflexivity.
  Qed.
  Lemma pins_erase after c : unsaid (say_pins after c) = parse_pins after c.
  Proof. destruct c as [|a c]; [reflexivity|]. unfold say_pins, parse_pins, lines_generator. apply lines_erase. exact pin_line_erase. Qed.

  Lemma flush_erase {S} (f : S -> text -> props -> said S) g key ps s : (forall s k p, unsaid (f s k p) = g s k p) ->
    unsaid (say_flush f key ps s) = yaml_flush g key ps s.
  Proof. intros H. destruct key; [reflexivity|apply H]. Qed.
  Lemma yaml_erase {S} (f : S -> text -> props -> said S) g c s : (forall s k p, unsaid (f s k p) = g s k p) ->
    unsaid (say_yaml f c s) = parse_yaml g c s.
  Proof.
    intros H. unfold say_yaml, parse_yaml. rewrite unsaid_bind. rewrite (unsaid_fold (say_yaml_line f) (yaml_line g)).
    - apply obind_ext. intros [[k p] s']. now apply flush_erase.
    - intros [[key ps] s'] l. unfold say_yaml_line, yaml_line. destruct (strip l) as [|ch r]; [reflexivity|].
      destruct (Ascii.eqb ch "#"); [reflexivity|]. destruct (Nat.eqb _ _).
      + rewrite unsaid_bind, (flush_erase _ _ _ _ _ H). apply obind_ext. intros s2. destruct (ends_with (tx ":") (ch :: r)); reflexivity.
      + destruct (find_char ":" (ch :: r)); reflexivity.
  Qed.
  Lemma fabric_sink_erase s k p : unsaid (say_fabric_sink s k p) = fabric_sink s k p.
  Proof. unfold say_fabric_sink, fabric_sink. destruct (hm_find text_eqb (tx "fabric") p); reflexivity. Qed.
  Lemma part_sink_erase fb s k p : unsaid (say_part_sink fb s k p) = part_sink fb s k p.
  Proof.
    unfold say_part_sink, part_sink, say_value. destruct (hm_find text_eqb (tx "device") p) as [d|]; [|reflexivity]. cbn [sbind].
    destruct (hm_find text_eqb (tx "package") p); [|reflexivity]. cbn [sbind].
    destruct (hm_find text_eqb (tx "speedgrade") p); [|reflexivity]. cbn [sbind]. destruct (hm_find text_eqb d fb); reflexivity.
  Qed.
  Lemma parts_infos_erase a b : unsaid (say_parts_infos a b) = parse_parts_infos a b.
  Proof.
    unfold say_parts_infos, parse_parts_infos. rewrite unsaid_bind, (yaml_erase _ _ _ _ fabric_sink_erase). apply obind_ext. intros fb.
    apply yaml_erase. apply part_sink_erase.
  Qed.
  Lemma file_erase e p : unsaid (say_file lt e p) = map_file e p.
  Proof. unfold say_file, map_file. destruct (e_read e p); reflexivity. Qed.
  Lemma part_info_erase e root part : unsaid (say_part_info lt e root part) = parse_part_info e root part.
  Proof.
    unfold say_part_info, parse_part_info. rewrite unsaid_bind, file_erase. apply obind_ext. intros a.
    rewrite unsaid_bind, file_erase. apply obind_ext. intros b. rewrite unsaid_bind, parts_infos_erase. apply obind_ext. intros i.
    destruct (hm_find text_eqb part i); reflexivity.
  Qed.
  Lemma database_erase e ord root part : unsaid (say_database lt e ord root part) = parse_database e ord root part.
  Proof.
    unfold say_database, parse_database. rewrite unsaid_bind, part_info_erase. apply obind_ext. intros i.
    rewrite unsaid_bind, file_erase. apply obind_ext. intros gt. rewrite unsaid_bind, tilegrid_erase. apply obind_ext. intros g.
    rewrite unsaid_bind. unfold say_index. rewrite unsaid_unchecked. apply obind_ext. intros ps.
    rewrite unsaid_bind, file_erase. apply obind_ext. intros pt. rewrite unsaid_bind, part_json_erase. apply obind_ext. intros p.
    cbv zeta. unfold say_banks_registry, create_banks_registry. rewrite unsaid_bind, unsaid_bind, file_erase. f_equal.
    - apply obind_ext. intros c. rewrite unsaid_bind, pins_erase. reflexivity.
  Qed.
End Erase.
