(** C73: the layout of entries and how archives are opened. *)
From Verif Require Export SchemaFacts ReadFacts Demo.

(** What a creator wrote is opened, and the opened archive is the one of all other theorems: exactly the
    entries accepted, at their paths, with their kinds and metadata.  Nothing depends on what reading a
    property of another kind of entry would give. *)
Theorem C73_created_opens : forall l fetch junk, small l ->
  exists k o, store_finalize (after l) fetch = Ok k /\ arx_new k = Ok o /\
    archive_of l fetch (view junk k o) /\ mount_view junk k o = Ok (view junk k o) /\
    (forall p nd, has l p nd <-> exists i, astored (view junk k o) i p nd).
Proof.
  intros l fetch junk Hs. destruct (archive_exists l fetch Hs) as [a Ha]. pose proof Ha as Hb. unfold archive_of, write_archive in Hb.
  destruct (layout_of (cs_store (after l))) as [ord|] eqn:E; [|discriminate Hb]. injection Hb as Hb.
  destruct (finalize_ok (after l) fetch ord E) as (rows & Ef & Er). eexists. eexists. split; [exact Ef|].
  split; [apply (own_open _ (0, as_u32 (nb_children (after l) None))); reflexivity|].
  split; [unfold view; cbn [o_props o_rows o_range o_fetch]; rewrite Er; change (entries_range _) with (0, as_u32 (N.of_nat (length (cs_store (after l))))); rewrite Hb; exact Ha|].
  split; [unfold mount_view; erewrite own_open by reflexivity; reflexivity|].
  intros p nd. apply (archive_has l fetch); [exact Hs|].
  unfold view. cbn [o_props o_rows o_range o_fetch]. rewrite Er. change (entries_range _) with (0, as_u32 (N.of_nat (length (cs_store (after l))))). rewrite Hb. exact Ha.
Qed.
Print Assumptions C73_created_opens.

(** The second index of the container, used by the mount, covers the whole table. *)
Theorem C73_entries_index : forall l fetch k o, small l -> store_finalize (after l) fetch = Ok k -> arx_new k = Ok o ->
  open_index k (b "arx_entries") =
    Ok (mkOpened (0, N.of_nat (length (o_rows o))) (o_props o) (o_rows o) (o_fetch o)).
Proof.
  intros l fetch k o Hs Hk Ho. destruct (archive_exists l fetch Hs) as [a Ha]. pose proof Ha as Hb. unfold archive_of, write_archive in Hb.
  destruct (layout_of (cs_store (after l))) as [ord|] eqn:E; [|discriminate Hb]. injection Hb as Hb.
  destruct (finalize_ok (after l) fetch ord E) as (rows & Ef & Er). rewrite Ef in Hk. injection Hk as <-.
  unfold arx_new in Ho. erewrite own_open in Ho by reflexivity. erewrite own_open by reflexivity. injection Ho as <-. cbn [o_rows o_props o_fetch].
  assert (Hl : length rows = length (cs_store (after l))).
  { specialize (Er (fun _ _ => DUint 0)). apply (f_equal (@length _)) in Er. rewrite !map_length in Er. rewrite Er.
    destruct (archive_ok l fetch a Hs Ha) as (m & _ & _ & _ & _ & _ & _ & _ & Hn). rewrite <- Hb in Hn. cbn [a_recs] in Hn. now rewrite map_length in Hn. }
  rewrite Hl. unfold as_u32. rewrite N.mod_small by exact Hs. reflexivity.
Qed.
Print Assumptions C73_entries_index.

(** Exactly these containers can be opened... *)
Theorem C73_opens_iff : forall k name,
  (exists o, open_index k name = Ok o) <-> (exists rg ly rows, index_on k name rg ly rows /\ arx_layout ly).
Proof.
  intros k name. split.
  - intros [o H]. apply open_index_ok in H as (ly & H1 & H2 & _). exists (o_range o), ly, (o_rows o). split; auto. apply all_properties_iff. eauto.
  - intros (rg & ly & rows & H1 & H2). apply all_properties_iff in H2 as [p Hp]. exists (mkOpened rg p rows (k_fetch k)).
    apply open_index_ok. exists ly. auto.
Qed.
Print Assumptions C73_opens_iff.

(** ... without the index it is an error... *)
Theorem C73_no_index : forall k name, (forall rg ly rows, ~ index_on k name rg ly rows) -> exists e, open_index k name = Err e.
Proof.
  intros k name H. unfold open_index. destruct (assoc name (k_indexes k)) as [[store rg]|] eqn:E; [|eauto].
  destruct (nth_error (k_stores k) store) as [[ly rows]|] eqn:E2; [|eauto]. destruct (H rg ly rows). exists store. auto.
Qed.
Print Assumptions C73_no_index.

(** ... and with the index on an entry store that lacks a property arx names, or that does not have three
    variants, opening aborts the process instead of returning an error. *)
Theorem C73_foreign_aborts : forall k name rg ly rows,
  index_on k name rg ly rows -> arx_types ly -> ~ arx_layout ly -> open_index k name = Panic.
Proof.
  intros k name rg ly rows (store & H1 & H2) Ht Hn. unfold open_index. rewrite H1, H2.
  destruct (all_properties_total ly Ht) as [->|[p Hp]]; auto. destruct Hn. apply all_properties_iff. eauto.
Qed.
Print Assumptions C73_foreign_aborts.

(** An archive whose variants are numbered as arx numbers them is read by name, wherever its properties
    are and whatever else it holds. *)
Theorem C73_read_by_name : forall k name o rg ly rows junk i r e,
  open_index k name = Ok o -> index_on k name rg ly rows -> arx_numbers ly ->
  nth_error rows i = Some r -> means ly r e -> nth_error (a_recs (view junk k o)) i = Some e.
Proof.
  intros k name o rg ly rows junk i r e Ho (store & H1 & H2) Hn Hr Hm. apply open_index_ok in Ho as (ly' & (store' & H3 & H4) & Hp & _).
  rewrite H1 in H3. injection H3 as <- _. rewrite H2 in H4. injection H4 as <- Erows. unfold view. cbn [a_recs].
  rewrite nth_error_map, <- Erows, Hr. cbn [option_map]. f_equal. eapply means_read; eauto.
Qed.
Print Assumptions C73_read_by_name.

(** The number is not looked up by name: an archive that offers everything, with the variants in another
    order, is opened, and its directory is taken for a file. *)
Definition swapped_layout : layout :=
  mkLayout (named 0 (sc_common entry_def))
    (Some ([named 0 [(PFirstChild, TUint); (PNbChildren, TUint)]; named 0 [(PContent, TContent); (PSize, TUint)]; named 0 [(PTarget, TArray)]],
           [(b "dir", 0%nat); (b "file", 1%nat); (b "link", 2%nat)])).
Definition swapped_row : row := mkRow 0 [DArray (b "d"); DUint 0; DUint 7; DUint 8; DUint 493; DUint 99] [DUint 1; DUint 0].
Definition swapped : container :=
  mkContainer [(b "arx_entries", (O, (0, 1))); (b "arx_root", (O, (0, 1)))] [(swapped_layout, [swapped_row])] (fun _ => NoContent).
Theorem C73_numbers_refuted : exists o,
  arx_new swapped = Ok o /\ index_on swapped (b "arx_root") (0, 1) swapped_layout [swapped_row] /\ arx_layout swapped_layout /\
  (exists e, means swapped_layout swapped_row e /\ r_payload e = RDir 1 0) /\
  forall junk, exists r addr size, nth_error (a_recs (view junk swapped o)) 0 = Some r /\ r_payload r = RFile addr size.
Proof.
  assert (Hp : all_properties swapped_layout = Ok (mkProperties 0 1 2 3 4 5 (1, 0)%nat (1, 1)%nat (0, 0)%nat (0, 1)%nat (2, 0)%nat)) by (vm_compute; reflexivity).
  exists (mkOpened (0, 1) (mkProperties 0 1 2 3 4 5 (1, 0)%nat (1, 1)%nat (0, 0)%nat (0, 1)%nat (2, 0)%nat) [swapped_row] (fun _ => NoContent)).
  split; [apply open_index_ok; exists swapped_layout; split; [exists 0%nat; split; reflexivity|]; split; [exact Hp|reflexivity]|]. split; [exists 0%nat; split; reflexivity|].
  split; [apply all_properties_iff; eauto|]. split.
  - exists (mkRec (b "d") 0 7 8 493 99 (RDir 1 0)). split; [|reflexivity]. unfold means, field, variant_field. cbn [r_name r_parent r_owner r_group r_rights r_mtime r_payload].
    split; [exists 0%nat, TArray; split; reflexivity|]. split; [exists 1%nat, TUint; split; reflexivity|]. split; [exists 2%nat, TUint; split; reflexivity|].
    split; [exists 3%nat, TUint; split; reflexivity|]. split; [exists 4%nat, TUint; split; reflexivity|]. split; [exists 5%nat, TUint; split; reflexivity|].
    split; (eexists; eexists; exists 0%nat; eexists; eexists; eexists; repeat (split; [reflexivity|]); reflexivity).
  - intros junk. eexists. eexists. eexists. split; reflexivity.
Qed.
Print Assumptions C73_numbers_refuted.

(** The mount reads the entries of the index "arx_entries": on the same entry store these are the ones
    the other readers read... *)
Theorem C73_mount_same : forall k o a junk store rg rg',
  arx_new k = Ok o -> mount_view junk k o = Ok a ->
  assoc (b "arx_root") (k_indexes k) = Some (store, rg) -> assoc (b "arx_entries") (k_indexes k) = Some (store, rg') ->
  a = view junk k o.
Proof.
  intros k o a junk store rg rg' Ho Hm H1 H2. unfold mount_view, open_index in Hm. unfold arx_new, open_index in Ho. rewrite H1 in Ho. rewrite H2 in Hm.
  unfold view, entries_range. rewrite H2.
  destruct (nth_error (k_stores k) store) as [[ly rows]|]; [|discriminate Ho].
  destruct (all_properties ly) as [p| | |]; cbn [bind] in Ho, Hm; try discriminate Ho.
  assert (Eo : o = mkOpened rg p rows (k_fetch k)) by congruence. subst o. cbn [o_props o_rows o_range o_fetch] in *. congruence.
Qed.
Print Assumptions C73_mount_same.

(** ... without that index, which the other readers do not need, mounting is an error... *)
Theorem C73_mount_no_index : forall k o junk, arx_new k = Ok o -> assoc (b "arx_entries") (k_indexes k) = None ->
  exists e, mount_view junk k o = Err e.
Proof. intros k o junk _ H. unfold mount_view, open_index. rewrite H. cbn [bind]. eauto. Qed.
Print Assumptions C73_mount_no_index.

(** ... and with the index on another entry store, the mount shows other entries than [arx list] does. *)
Definition other_row : row := mkRow 2 [DArray (b "l"); DUint 0; DUint 7; DUint 8; DUint 511; DUint 99] [DArray (b "x")].
Definition two_stores : container :=
  mkContainer [(b "arx_entries", (1%nat, (0, 1))); (b "arx_root", (O, (0, 1)))]
    [(layout_of_schema entry_def, [swapped_row]); (layout_of_schema entry_def, [other_row])] (fun _ => NoContent).
Theorem C73_mount_store_refuted : forall junk, exists o a, arx_new two_stores = Ok o /\ mount_view junk two_stores o = Ok a /\
  map r_name (a_recs (view junk two_stores o)) = [b "d"] /\ map r_name (a_recs a) = [b "l"].
Proof. intros junk. eexists. eexists. split; [reflexivity|]. split; [reflexivity|]. split; reflexivity. Qed.
Print Assumptions C73_mount_store_refuted.

(** The session of Demo.v, its layout, and an entry store without "mtime". *)
Definition no_mtime : layout := mkLayout (removelast (named 0 (sc_common entry_def))) (ly_variants (layout_of_schema entry_def)).
Example C73_meets_hypotheses :
  small demo /\ (forall junk, exists k o, store_finalize (after demo) demo_fetch = Ok k /\ arx_new k = Ok o /\ view junk k o = demo_arx /\ mount_view junk k o = Ok demo_arx) /\
  arx_layout (layout_of_schema entry_def) /\ arx_numbers (layout_of_schema entry_def) /\
  arx_types no_mtime /\ ~ arx_layout no_mtime /\
  open_index (mkContainer [(b "arx_root", (O, (0, 0)))] [(no_mtime, [])] (fun _ => NoContent)) (b "arx_root") = Panic.
Proof.
  split; [exact demo_small|]. split.
  { intros junk. destruct (C73_created_opens demo demo_fetch junk demo_small) as (k & o & H1 & H2 & H3 & H4 & _). exists k, o. split; auto. split; auto.
    pose proof demo_built as Hd. assert (E : view junk k o = demo_arx) by (unfold archive_of in *; congruence). split; [exact E|]. now rewrite H4, E. }
  split; [apply all_properties_iff; eexists; exact own_layout|].
  split; [intros vs names H; vm_compute in H; injection H as <- <-; vm_compute; auto|].
  assert (Hnone : all_properties no_mtime = Panic) by (vm_compute; reflexivity).
  split; [|split; [intros Hn; apply all_properties_iff in Hn as [p Hp]; congruence|vm_compute; reflexivity]].
  assert (Hl : forall l n (i : nat) (k : pkind), assoc n l = Some (i, k) -> In (n, (i, k)) l).
  { induction l as [|[n' v] l IH]; intros n i k H; [discriminate H|]. cbn [assoc] in H. destruct (bytes_eqb_spec n' n) as [-> |]; [injection H as ->; now left|right; auto]. }
  split.
  - intros n i k H. apply Hl in H. vm_compute in H.
    repeat (destruct H as [H|H]; [injection H as <- <- <-; repeat split; try (intros HH; discriminate HH); try reflexivity; intros HH; vm_compute in HH; repeat (destruct HH as [HH|HH]; [discriminate HH|]); easy|]). easy.
  - intros vs names l n i k Hv Hin H. vm_compute in Hv. injection Hv as <- <-. apply Hl in H.
    repeat (destruct Hin as [<- |Hin]; [vm_compute in H;
      repeat (destruct H as [H|H]; [injection H as <- <- <-; repeat split; try (intros HH; discriminate HH); try reflexivity; intros HH; vm_compute in HH; repeat (destruct HH as [HH|HH]; [discriminate HH|]); easy|]); easy|]). easy.
Qed.
