(** C01-C06: what a history of add_entry calls stores. *)
From Verif Require Export Demo CreatorFacts ReadFacts.

(** C01: for every history, the answers and the stored entries are those of the abstract map. *)
Theorem C01_history_is_map_insertion : forall l,
  answers l = snd (spec_adds empty_map l) /\ holds (cs_store (after l)) (fst (spec_adds empty_map l)).
Proof. exact run_adds_refines. Qed.
Print Assumptions C01_history_is_map_insertion.

(** The abstract map is not trivial: an explicit reading of one step. *)
Theorem C01_step_reading : forall (m : pmap) e k n,
  e_kind e = Ok (Some k) -> last_of (e_path e) = Some n ->
  let p := dir_of (e_path e) ++ [n] in
  (* some ancestor is not a directory: refused *)
  ((exists q r nd, q <> [] /\ dir_of (e_path e) = q ++ r /\ m q = Some nd /\ fst nd <> KDir) ->
     spec_add_entry m e = (m, Err EParentNotDir)) /\
  ((forall q r nd, q <> [] -> dir_of (e_path e) = q ++ r -> m q = Some nd -> fst nd = KDir) ->
     (* free path: stored, with the missing ancestors, nothing else changes *)
     (m p = None -> snd (spec_add_entry m e) = Ok tt /\
        forall q, fst (spec_add_entry m e) q =
          if path_beq q p then Some (k, e_meta e)
          else match m q with
               | Some nd => Some nd
               | None => if negb (path_beq q []) && is_prefix q (dir_of (e_path e)) then Some implicit_dir else None
               end) /\
     (* taken path: unchanged; accepted only for a directory over a directory *)
     (forall old, m p = Some old -> fst (spec_add_entry m e) = m /\
        (snd (spec_add_entry m e) = Ok tt <-> k = KDir /\ fst old = KDir))).
Proof.
  intros m e k n Hk Hn p. unfold spec_add_entry, spec_add. rewrite Hk, Hn. fold p. split.
  - intros (q & r & nd & H1 & H2 & H3 & H4).
    assert (blocked m (dir_of (e_path e)) = true) as ->; auto.
    apply blocked_true. exists q, nd. repeat split; auto; [apply is_prefix_spec; eauto|].
    destruct nd as [[] ?]; auto; now destruct H4.
  - intros H. assert (blocked m (dir_of (e_path e)) = false) as ->.
    { apply blocked_false. intros q nd H1 H2 H3. apply is_prefix_spec in H2 as [r H2].
      specialize (H q r nd H1 H2 H3). unfold is_dir_node. now rewrite H. }
    cbv zeta. split.
    + intros ->. destruct k; cbn [fst snd]; (split; [reflexivity|]); intros q; unfold update, with_dirs;
        destruct (path_beq q p); auto; destruct (m q); auto; destruct q; auto.
    + intros old ->. destruct old as [ko mt]. destruct k, ko; cbn; split; auto; split; intros E; try easy; now destruct E.
Qed.
Print Assumptions C01_step_reading.

(** C02: a refused call leaves the whole state of the creator as it was. *)
Theorem C02_refused_changes_nothing : forall l e st' x k,
  add_entry (after l) e = (st', Err x) -> e_kind e = Ok (Some k) -> st' = after l.
Proof. exact refused_unchanged. Qed.
Print Assumptions C02_refused_changes_nothing.

Example C02_meets_hypotheses :
  exists st', add_entry (after demo) (d_file (b "l/x/y") 3 1) = (st', Err EParentNotDir).
Proof. eexists. vm_compute. reflexivity. Qed.

(** The proviso on kind() is needed: if kind() itself fails, the missing parents stay behind. *)
Theorem C02_refuted_when_kind_fails : exists l e st' x,
  add_entry (after l) e = (st', Err x) /\
  (forall nd, ~ has l [b "d"] nd) /\ stored (cs_store st') [b "d"] implicit_dir.
Proof.
  exists [], (mkEntry (b "d/f") (Err (EIo IoOther)) d_meta). eexists. exists (EIo IoOther).
  split; [vm_compute; reflexivity|]. split.
  - intros nd (s & e & He & _). destruct s; discriminate He.
  - exists 0%nat, (mkSentry (b "d") None KDir default_dir_meta). split; [reflexivity|]. split; [|reflexivity].
    eapply (spath_top _ _ (mkSentry (b "d") None KDir default_dir_meta)); reflexivity.
Qed.
Print Assumptions C02_refuted_when_kind_fails.

(** C03: whatever is called later, what is stored stays stored, unchanged. *)
Theorem C03_first_writer_wins : forall l1 l2 p nd,
  has l1 p nd -> stored (cs_store (fst (run_adds (after l1) l2))) p nd.
Proof. exact stored_kept. Qed.
Print Assumptions C03_first_writer_wins.

Theorem C03_one_node_per_path : forall l p nd nd', has l p nd -> has l p nd' -> nd = nd'.
Proof. exact has_fun. Qed.
Print Assumptions C03_one_node_per_path.

(** C04: every stored node was given by a call for that path, or is a directory with the default
    metadata on the way to the path of a call. *)
Theorem C04_implicit_parents : forall l p nd, has l p nd ->
  (exists e n, In e l /\ e_kind e = Ok (Some (fst nd)) /\ e_meta e = snd nd /\
               last_of (e_path e) = Some n /\ p = dir_of (e_path e) ++ [n]) \/
  (nd = (KDir, mkMeta 1000 1000 493 0) /\ exists e r, In e l /\ p <> [] /\ dir_of (e_path e) = p ++ r).
Proof.
  intros l p nd H. destruct (stored_origin l p nd H) as [(e & H1 & H2 & H3 & n & H4 & H5)|(H1 & e & H2 & H3 & r & H4)].
  - left. exists e, n. auto.
  - right. split; auto. exists e, r. auto.
Qed.
Print Assumptions C04_implicit_parents.

(** ... and an accepted call stores what it was given (unless a directory was there already) and all
    the directories on its path. *)
Theorem C04_accepted_is_stored : forall l e st' k n,
  add_entry (after l) e = (st', Ok tt) -> e_kind e = Ok (Some k) -> last_of (e_path e) = Some n ->
  (stored (cs_store st') (dir_of (e_path e) ++ [n]) (k, e_meta e) \/
   (k = KDir /\ exists mt, has l (dir_of (e_path e) ++ [n]) (KDir, mt))) /\
  (forall q r, q <> [] -> dir_of (e_path e) = q ++ r -> exists mt, stored (cs_store st') q (KDir, mt)).
Proof.
  intros l e st' k n H1 H2 H3. destruct (accepted_stored l e st' k n H1 H2 H3) as [H4 H5].
  split; [exact H4|]. intros q r Hq Hr. apply H5; eauto.
Qed.
Print Assumptions C04_accepted_is_stored.

Example C04_meets_hypotheses : has demo [b "a"; b "b"; b "f.txt"] (KFile 5 (mkAddr 1 0), d_meta).
Proof. exact demo_has. Qed.

(** C05: exactly when does a call abort. *)
Theorem C05_panic_iff : forall l e, (forall k, e_kind e = k -> k <> Panic) ->
  snd (add_entry (after l) e) = Panic <->
  (~ (exists q r nd, dir_of (e_path e) = q ++ r /\ has l q nd /\ is_dir_node nd = false) /\
   (exists k, e_kind e = Ok (Some k)) /\ last_of (e_path e) = None).
Proof. exact panic_iff. Qed.
Print Assumptions C05_panic_iff.

(** Hence "adding never aborts" is false: the empty path (a tar member "./" is given that path). *)
Theorem C05_never_panics_refuted : exists e, e_kind e = Ok (Some KDir) /\ snd (add_entry (after []) e) = Panic.
Proof. exists (d_dir []). split; reflexivity. Qed.
Print Assumptions C05_never_panics_refuted.

(** C06: in every written archive (parent, name) identifies the entry, and each path has one entry. *)
Theorem C06_unique_names : forall l fetch a, small l -> archive_of l fetch a ->
  (forall i j ri rj, at_ (a_recs a) i = Some ri -> at_ (a_recs a) j = Some rj ->
     r_parent ri = r_parent rj -> r_name ri = r_name rj -> i = j) /\
  (forall i j p, apath a i p -> apath a j p -> i = j) /\
  (forall p nd, has l p nd <-> exists i, astored a i p nd) /\
  length (a_recs a) = length (cs_store (after l)).
Proof.
  intros l fetch a Hs Ha. destruct (archive_ok l fetch a Hs Ha) as (m & _ & _ & _ & Hw & _ & _ & _ & Hl).
  split; [intros; eapply rec_unique; eauto|]. split; [intros; eapply apath_inj; eauto|].
  split; [intros; now apply (archive_has l fetch)|exact Hl].
Qed.
Print Assumptions C06_unique_names.

Example C06_meets_hypotheses : small demo /\ archive_of demo demo_fetch demo_arx.
Proof. split; [exact demo_small|exact demo_built]. Qed.
