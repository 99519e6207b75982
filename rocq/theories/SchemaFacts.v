(** Proofs about Schema.v. *)
From Verif Require Export SpecSchema LayoutProofs.

(** ** Building entries *)
Definition built_entry (st : cstate) (s : slot) : bentry :=
  let e := sentry_of (cs_store st) s in
  let m := se_meta e in
  mkBentry (match se_kind e with KFile _ _ => 0 | KDir => 1 | KLink _ => 2 end)
    [VArray (se_name e); VWord (fun ord => parent_value ord (se_parent e)); VUnsigned (m_uid m); VUnsigned (m_gid m);
     VUnsigned (m_mode m); VUnsigned (m_mtime m)]
    (match se_kind e with
     | KDir => [VWord (fun ord => first_child st ord s); VWord (fun _ => nb_children st (Some s))]
     | KFile size addr => [VContent addr; VUnsigned size]
     | KLink t => [VArray t]
     end).

Lemma basic_entry_ok st s :
  basic_entry entry_def (variant_of (se_kind (sentry_of (cs_store st) s))) (values_of st s) = Some (built_entry st s).
Proof. unfold values_of, built_entry. destruct (se_kind (sentry_of (cs_store st) s)); reflexivity. Qed.
Lemma entries_of_ok st l : entries_of entry_def st l = Some (map (built_entry st) l).
Proof. induction l as [|s l IH]; cbn [entries_of map]; auto. now rewrite basic_entry_ok, IH. Qed.

Lemma bentry_at_ok st n s : (s < n)%nat -> bentry_at (map (built_entry st) (seq 0 n)) s = built_entry st s.
Proof.
  intros H. unfold bentry_at. rewrite nth_indep with (d' := built_entry st 0%nat) by now rewrite map_length, seq_length.
  rewrite map_nth, seq_nth by auto. reflexivity.
Qed.
Lemma keys_ok st ord s t :
  keys_cmp entry_def (sc_keys entry_def) ord (built_entry st s) (built_entry st t) =
  key_cmp (key (cs_store st) ord s) (key (cs_store st) ord t).
Proof.
  unfold key_cmp, key, built_entry. cbn [entry_def sc_keys sc_common keys_cmp key_at property_beq be_common resolve data_cmp fst snd].
  destruct (parent_value ord (se_parent (sentry_of (cs_store st) s)) ?= parent_value ord (se_parent (sentry_of (cs_store st) t))); auto.
  now destruct (bytes_cmp (se_name (sentry_of (cs_store st) s)) (se_name (sentry_of (cs_store st) t))).
Qed.

(** ** Sorting depends on the comparisons of the elements only *)
Lemma insert_by_in {A} (leb : A -> A -> bool) x y l : In y (insert_by leb x l) <-> y = x \/ In y l.
Proof.
  induction l as [|z l IH]; cbn; [intuition congruence|]. destruct (leb x z); cbn; [intuition congruence|]. rewrite IH. intuition congruence.
Qed.
Lemma sort_by_in {A} (leb : A -> A -> bool) y l : In y (sort_by leb l) <-> In y l.
Proof. induction l as [|z l IH]; cbn; [tauto|]. rewrite insert_by_in, IH. intuition congruence. Qed.
Lemma insert_by_ext {A} (f g : A -> A -> bool) x l : (forall y, In y l -> f x y = g x y) -> insert_by f x l = insert_by g x l.
Proof.
  induction l as [|z l IH]; intros H; cbn; auto. rewrite (H z) by now left. destruct (g x z); auto. rewrite IH; auto. intros y Hy. apply H. now right.
Qed.
Lemma sort_by_ext {A} (f g : A -> A -> bool) l : (forall x y, In x l -> In y l -> f x y = g x y) -> sort_by f l = sort_by g l.
Proof.
  induction l as [|z l IH]; intros H; cbn; auto. rewrite IH by (intros; apply H; now right).
  apply insert_by_ext. intros y Hy. apply sort_by_in in Hy. apply H; [now left|now right].
Qed.
Lemma sorted_byb_ext {A} (f g : A -> A -> bool) l : (forall x y, In x l -> In y l -> f x y = g x y) -> sorted_byb f l = sorted_byb g l.
Proof.
  induction l as [|z l IH]; intros H; cbn; auto. destruct l as [|y l]; auto. rewrite (H z y) by (cbn; auto). f_equal. apply IH. intros; apply H; now right.
Qed.

Lemma sort_store_ok st fuel : forall ord, (forall s, In s ord -> (s < length (cs_store st))%nat) ->
  sort_store entry_def (map (built_entry st) (seq 0 (length (cs_store st)))) fuel ord = sort_loop (cs_store st) fuel ord.
Proof.
  assert (E : forall ord s t, (s < length (cs_store st))%nat -> (t < length (cs_store st))%nat ->
    bentry_leb entry_def (map (built_entry st) (seq 0 (length (cs_store st)))) ord s t = slot_leb (cs_store st) ord s t).
  { intros ord s t Hs Ht. unfold bentry_leb, slot_leb, key_leb. now rewrite !bentry_at_ok, keys_ok by auto. }
  induction fuel as [|k IH]; intros ord H; cbn [sort_store sort_loop];
    rewrite (sorted_byb_ext _ (slot_leb (cs_store st) ord)) by (intros; apply E; auto);
    destruct (sorted_byb (slot_leb (cs_store st) ord) ord); auto.
  rewrite (sort_by_ext _ (slot_leb (cs_store st) ord)) by (intros; apply E; auto).
  apply IH. intros s Hs. apply sort_by_in in Hs. auto.
Qed.
Lemma sort_loop_in store fuel : forall ord c, sort_loop store fuel ord = Some c -> forall s, In s c <-> In s ord.
Proof.
  induction fuel as [|k IH]; intros ord c; cbn [sort_loop]; destruct (sorted_byb (slot_leb store ord) ord); try (intros H; injection H as <-; tauto); try discriminate.
  intros H s. rewrite (IH _ _ H s). apply sort_by_in.
Qed.

(** ** The layout arx writes is one it reads *)
Definition arx_properties : properties := mkProperties 0 1 2 3 4 5 (0, 0)%nat (0, 1)%nat (1, 0)%nat (1, 1)%nat (2, 0)%nat.
Lemma own_layout : all_properties (layout_of_schema entry_def) = Ok arx_properties.
Proof. vm_compute. reflexivity. Qed.

Lemma read_built junk st ord s : read_row junk arx_properties (row_of ord (built_entry st s)) = record_of st ord s.
Proof. unfold row_of, built_entry, record_of, read_row. destruct (se_kind (sentry_of (cs_store st) s)); reflexivity. Qed.

Lemma finalize_ok st fetch ord : layout_of (cs_store st) = Some ord ->
  exists rows, store_finalize st fetch = Ok (mkContainer
      [(b "arx_entries", (O, (0, as_u32 (N.of_nat (length (cs_store st))))));
       (b "arx_root", (O, (0, as_u32 (nb_children st None))))]
      [(layout_of_schema entry_def, rows)] fetch) /\
    forall junk, map (read_row junk arx_properties) rows = map (record_of st ord) ord.
Proof.
  intros H. assert (Hin : forall s, In s ord -> (s < length (cs_store st))%nat).
  { intros s Hs. apply (sort_loop_in _ _ _ _ H) in Hs. apply in_seq in Hs. lia. }
  unfold store_finalize. rewrite entries_of_ok, map_length, seq_length, sort_store_ok by (intros s Hs; apply in_seq in Hs; lia).
  unfold layout_of in H. rewrite H. eexists. split; [reflexivity|]. intros junk. rewrite map_map. apply map_ext_in. intros s Hs.
  rewrite bentry_at_ok by auto. apply read_built.
Qed.

(** ** Opening *)
Lemma pkind_beq_spec x y : pkind_beq x y = true <-> x = y.
Proof. destruct x, y; cbn; split; easy. Qed.
Lemma property_at_ok l n k i : property_at l n k = Ok i <-> assoc n l = Some (i, k).
Proof.
  unfold property_at. destruct (assoc n l) as [[j k']|]; [|split; easy]. destruct (pkind_beq k' k) eqn:E.
  - apply pkind_beq_spec in E. subst k'. split; intros H; injection H as ->; auto.
  - split; [easy|]. intros H. injection H as -> ->. assert (pkind_beq k k = true) by now apply pkind_beq_spec. congruence.
Qed.
Lemma property_at_offers l n k : (exists i, property_at l n k = Ok i) <-> offers l n k.
Proof. unfold offers. split; intros [i H]; exists i; now apply property_at_ok. Qed.
Lemma variant_property_at_ok vs names v n k x i : variant_property_at vs names v n k = Ok (x, i) <->
  exists l, assoc v names = Some x /\ nth_error vs x = Some l /\ assoc n l = Some (i, k).
Proof.
  unfold variant_property_at. destruct (assoc v names) as [y|]; [|split; [easy|now intros (l & H & _)]].
  destruct (nth_error vs y) as [l|] eqn:E.
  2: { split; [easy|]. intros (l & H1 & H2 & _). injection H1 as ->. congruence. }
  destruct (property_at l n k) as [j|e| |] eqn:Ep; cbn [bind].
  - apply property_at_ok in Ep. split.
    + intros H. injection H as -> ->. eauto.
    + intros (l' & H1 & H2 & H3). injection H1 as ->. assert (l' = l) by congruence. subst l'. congruence.
  - split; [easy|]. intros (l' & H1 & H2 & H3). injection H1 as ->. assert (l' = l) by congruence. subst l'. apply property_at_ok in H3. congruence.
  - split; [easy|]. intros (l' & H1 & H2 & H3). injection H1 as ->. assert (l' = l) by congruence. subst l'. apply property_at_ok in H3. congruence.
  - split; [easy|]. intros (l' & H1 & H2 & H3). injection H1 as ->. assert (l' = l) by congruence. subst l'. apply property_at_ok in H3. congruence.
Qed.
Lemma variant_property_at_offers vs names v n k : (exists x, variant_property_at vs names v n k = Ok x) <-> variant_offers vs names v n k.
Proof.
  unfold variant_offers, offers. split.
  - intros [[x i] H]. apply variant_property_at_ok in H as (l & H1 & H2 & H3). exists x, l. eauto.
  - intros (x & l & H1 & H2 & i & H3). exists (x, i). apply variant_property_at_ok. eauto.
Qed.

Lemma bind_ok {A B} (r : res A) (f : A -> res B) y : bind r f = Ok y <-> exists x, r = Ok x /\ f x = Ok y.
Proof. destruct r; cbn; split; try easy; [eauto|now intros (x & H & Hf); injection H as ->|now intros (x & H & _)..]. Qed.

Lemma all_properties_ok ly p : all_properties ly = Ok p <->
  exists vs names, ly_variants ly = Some (vs, names) /\ length vs = 3%nat /\
    property_at (ly_common ly) (b "name") TArray = Ok (p_name p) /\
    property_at (ly_common ly) (b "parent") TUint = Ok (p_parent p) /\
    property_at (ly_common ly) (b "owner") TUint = Ok (p_owner p) /\
    property_at (ly_common ly) (b "group") TUint = Ok (p_group p) /\
    property_at (ly_common ly) (b "rights") TUint = Ok (p_rights p) /\
    property_at (ly_common ly) (b "mtime") TUint = Ok (p_mtime p) /\
    variant_property_at vs names (b "file") (b "content") TContent = Ok (p_content p) /\
    variant_property_at vs names (b "file") (b "size") TUint = Ok (p_size p) /\
    variant_property_at vs names (b "dir") (b "first_child") TUint = Ok (p_first_child p) /\
    variant_property_at vs names (b "dir") (b "nb_children") TUint = Ok (p_nb_children p) /\
    variant_property_at vs names (b "link") (b "target") TArray = Ok (p_target p).
Proof.
  unfold all_properties. destruct (ly_variants ly) as [[vs names]|].
  2: { split; [easy|]. intros (vs & names & H & _). discriminate H. }
  destruct (Nat.eqb_spec (length vs) 3) as [E|E].
  2: { split; [easy|]. intros (vs' & names' & H & Hl & _). injection H as <- <-. contradiction. }
  rewrite bind_ok. split.
  - intros (x1 & H1 & H). exists vs, names. split; auto. split; auto.
    apply bind_ok in H as (x2 & H2 & H). apply bind_ok in H as (x3 & H3 & H). apply bind_ok in H as (x4 & H4 & H).
    apply bind_ok in H as (x5 & H5 & H). apply bind_ok in H as (x6 & H6 & H). apply bind_ok in H as (x7 & H7 & H).
    apply bind_ok in H as (x8 & H8 & H). apply bind_ok in H as (x9 & H9 & H). apply bind_ok in H as (x10 & H10 & H).
    apply bind_ok in H as (x11 & H11 & H). injection H as <-.
    cbn [p_name p_parent p_owner p_group p_rights p_mtime p_content p_size p_first_child p_nb_children p_target]. repeat (split; [assumption|]). assumption.
  - intros (vs' & names' & H & _ & H1 & H2 & H3 & H4 & H5 & H6 & H7 & H8 & H9 & H10 & H11). injection H as <- <-.
    exists (p_name p). split; auto. rewrite H2, H3, H4, H5, H6, H7, H8, H9, H10, H11. cbn [bind]. now destruct p.
Qed.

Lemma all_properties_iff ly : (exists p, all_properties ly = Ok p) <-> arx_layout ly.
Proof.
  unfold arx_layout. split.
  - intros [p H]. apply all_properties_ok in H as (vs & names & H0 & Hl & H1 & H2 & H3 & H4 & H5 & H6 & H7 & H8 & H9 & H10 & H11).
    exists vs, names. split; auto. split; auto.
    repeat (split; [first [apply property_at_offers; eauto|apply variant_property_at_offers; eauto]|]). apply variant_property_at_offers. eauto.
  - intros (vs & names & H0 & Hl & H1 & H2 & H3 & H4 & H5 & H6 & H7 & H8 & H9 & H10 & H11).
    apply property_at_offers in H1 as [x1 H1]. apply property_at_offers in H2 as [x2 H2]. apply property_at_offers in H3 as [x3 H3].
    apply property_at_offers in H4 as [x4 H4]. apply property_at_offers in H5 as [x5 H5]. apply property_at_offers in H6 as [x6 H6].
    apply variant_property_at_offers in H7 as [x7 H7]. apply variant_property_at_offers in H8 as [x8 H8]. apply variant_property_at_offers in H9 as [x9 H9].
    apply variant_property_at_offers in H10 as [x10 H10]. apply variant_property_at_offers in H11 as [x11 H11].
    exists (mkProperties x1 x2 x3 x4 x5 x6 x7 x8 x9 x10 x11). apply all_properties_ok. exists vs, names. cbn [p_name p_parent p_owner p_group p_rights p_mtime p_content p_size p_first_child p_nb_children p_target]. repeat (split; [assumption|]). assumption.
Qed.

(** With the right types, what is missing is a panic. *)
Lemma property_at_types l n k : (forall i k', assoc n l = Some (i, k') -> k' = k) -> forall i, property_at l n k = Ok i \/ property_at l n k = Panic \/ exists j, property_at l n k = Ok j.
Proof.
  intros H i. unfold property_at. destruct (assoc n l) as [[j k']|]; auto. rewrite (H j k' eq_refl). right. right. exists j.
  now rewrite (proj2 (pkind_beq_spec k k) eq_refl).
Qed.
Lemma property_at_total l n k : (forall i k', assoc n l = Some (i, k') -> k' = k) -> property_at l n k = Panic \/ exists j, property_at l n k = Ok j.
Proof. intros H. destruct (property_at_types l n k H 0%nat) as [E|E]; eauto. Qed.
Lemma variant_property_at_total vs names v n k : (forall l i k', In l vs -> assoc n l = Some (i, k') -> k' = k) ->
  variant_property_at vs names v n k = Panic \/ exists j, variant_property_at vs names v n k = Ok j.
Proof.
  intros H. unfold variant_property_at. destruct (assoc v names) as [x|]; auto. destruct (nth_error vs x) as [l|] eqn:E; auto.
  apply nth_error_In in E. destruct (property_at_total l n k) as [->|[j ->]]; cbn; eauto.
Qed.
Lemma bind_total {A B} (r : res A) (f : A -> res B) : (r = Panic \/ exists x, r = Ok x) -> (forall x, f x = Panic \/ exists y, f x = Ok y) ->
  bind r f = Panic \/ exists y, bind r f = Ok y.
Proof. intros [->|[x ->]] H; cbn; auto. Qed.

Lemma all_properties_total ly : arx_types ly -> all_properties ly = Panic \/ exists p, all_properties ly = Ok p.
Proof.
  intros [Hc Hv]. unfold all_properties. destruct (ly_variants ly) as [[vs names]|] eqn:Ev; auto. destruct (Nat.eqb (length vs) 3); auto.
  specialize (Hv vs names).
  assert (Tc : forall n k, (forall k', arx_type n k' -> k' = k) ->
    property_at (ly_common ly) n k = Panic \/ exists j, property_at (ly_common ly) n k = Ok j).
  { intros n k H. apply property_at_total. intros i k' Hk. apply H. now apply Hc in Hk. }
  assert (Tv : forall v n k, (forall k', arx_type n k' -> k' = k) ->
    variant_property_at vs names v n k = Panic \/ exists j, variant_property_at vs names v n k = Ok j).
  { intros v n k H. apply variant_property_at_total. intros l i k' Hl Hk. apply H. eapply Hv in Hk; auto. }
  repeat (apply bind_total; [first [apply Tc|apply Tv]; intros k' (T1 & T2 & T3 & T4); first [now apply T1|now apply T2|now apply T3|apply T4; cbn [In]; tauto]|intros ?]). eauto.
Qed.

Lemma open_index_ok k name o : open_index k name = Ok o <->
  exists ly, index_on k name (o_range o) ly (o_rows o) /\ all_properties ly = Ok (o_props o) /\ o_fetch o = k_fetch k.
Proof.
  unfold open_index, index_on. destruct (assoc name (k_indexes k)) as [[store rg]|].
  2: { split; [easy|]. intros (ly & (st & H & _) & _). discriminate H. }
  destruct (nth_error (k_stores k) store) as [[ly rows]|] eqn:E.
  2: { split; [easy|]. intros (ly & (st & H & H') & _). injection H as <- _. congruence. }
  rewrite bind_ok. split.
  - intros (p & Hp & H). injection H as <-. exists ly. cbn [o_range o_props o_rows o_fetch]. split; eauto.
  - intros (ly' & (st & H & H') & Hp & Hf). injection H as <- E'. rewrite E in H'. injection H' as <- E2. exists (o_props o). split; auto.
    destruct o as [x1 x2 x3 x4]; cbn [o_range o_props o_rows o_fetch] in *; congruence.
Qed.

Lemma own_open name rg idxs rows fetch : assoc name idxs = Some (O, rg) ->
  open_index (mkContainer idxs [(layout_of_schema entry_def, rows)] fetch) name = Ok (mkOpened rg arx_properties rows fetch).
Proof. intros H. apply open_index_ok. exists (layout_of_schema entry_def). split; [exists O; auto|]. split; [exact own_layout|reflexivity]. Qed.

(** ** Reading by name *)
Lemma means_read junk ly p r e : all_properties ly = Ok p -> arx_numbers ly -> means ly r e -> read_row junk p r = e.
Proof.
  intros Hp Hn (F1 & F2 & F3 & F4 & F5 & F6 & FV).
  apply all_properties_ok in Hp as (vs & names & H0 & Hl & H1 & H2 & H3 & H4 & H5 & H6 & H7 & H8 & H9 & H10 & H11).
  destruct (Hn vs names H0) as (N1 & N2 & N3).
  assert (Hc : forall n k i d, property_at (ly_common ly) n k = Ok i -> field ly r n d -> common_value r i = d).
  { intros n k i d Ha (i' & k' & Hb & Hd). apply property_at_ok in Ha. rewrite Ha in Hb. injection Hb as <- <-. unfold common_value. now apply nth_error_nth. }
  assert (Hv : forall v n k x d, variant_property_at vs names v n k = Ok x -> variant_field ly r v n d -> variant_value junk r x = d /\ rw_variant r = N.of_nat (fst x)).
  { intros v n k [x i] d Ha (vs' & names' & x' & l & i' & k' & Hb & Hx & Hr & Hll & Hi & Hd). rewrite H0 in Hb. injection Hb as <- <-.
    apply variant_property_at_ok in Ha as (l' & A1 & A2 & A3). rewrite A1 in Hx. injection Hx as <-. rewrite A2 in Hll. injection Hll as <-. rewrite A3 in Hi. injection Hi as <- <-.
    unfold variant_value. cbn [fst snd]. rewrite <- Hr, N.eqb_refl. split; auto. now apply nth_error_nth. }
  unfold read_row.
  rewrite (Hc _ _ _ _ H1 F1), (Hc _ _ _ _ H2 F2), (Hc _ _ _ _ H3 F3), (Hc _ _ _ _ H4 F4), (Hc _ _ _ _ H5 F5), (Hc _ _ _ _ H6 F6).
  destruct e as [en ep eo eg er em pay]. cbn [r_name r_parent r_owner r_group r_rights r_mtime r_payload as_array as_uint] in *. f_equal.
  assert (Hnum : forall v n k x i, variant_property_at vs names v n k = Ok x -> assoc v names = Some i -> fst x = i).
  { intros v n k [x i'] i Ha Hi. apply variant_property_at_ok in Ha as (l' & A1 & _). cbn. congruence. }
  destruct pay as [addr size|first nb|t|v].
  - destruct FV as [V1 V2]. destruct (Hv _ _ _ _ _ H7 V1) as [E1 E]. destruct (Hv _ _ _ _ _ H8 V2) as [E2 _].
    rewrite E, (Hnum _ _ _ _ _ H7 N1). cbn [N.of_nat etype_of_id]. now rewrite E1, E2.
  - destruct FV as [V1 V2]. destruct (Hv _ _ _ _ _ H9 V1) as [E1 E]. destruct (Hv _ _ _ _ _ H10 V2) as [E2 _].
    rewrite E, (Hnum _ _ _ _ _ H9 N2). cbn. now rewrite E1, E2.
  - destruct (Hv _ _ _ _ _ H11 FV) as [E1 E]. rewrite E, (Hnum _ _ _ _ _ H11 N3). cbn. now rewrite E1.
  - easy.
Qed.
