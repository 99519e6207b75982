(** C72: the mount of an archive that no creator wrote. *)
From Verif Require Import SpecForeignFuse ForeignProofs FuseFacts ForeignFuse.

(** C72: whatever the table of records and the range served, and after any requests, an answer is true
    of the records: names, kinds, attributes, bytes and errors; provided that the index "arx_entries"
    starts at the first record. *)
Theorem C72_truthful : forall a root h s q s' r, fst (a_entries a) = 0 -> served a root h s -> step a root s q = (s', Ok r) ->
  truthful a root h q r.
Proof.
  intros a root h s q s' r Hz Hs Hq. destruct (served_any _ _ Hz _ _ Hs) as [K1 K2].
  now destruct (step_any _ _ Hz _ _ _ _ _ K1 K2 Hq).
Qed.
Print Assumptions C72_truthful.

(** C72: in a directory whose records are in name order, "no such file" means no such file. *)
Theorem C72_not_found : forall a root h s p nm rg i r, fst (a_entries a) = 0 -> served a root h s -> lists a root p rg -> ordered a rg ->
  snd (step a root s (Lookup p nm)) = Ok (RError ENOENT) ->
  fst rg <= i < fst rg + snd rg -> at_ (a_recs a) i = Some r -> r_name r <> nm.
Proof.
  intros a root h s p nm rg i r Hz Hs Hl Ho Hq Hi Hr. destruct (served_any _ _ Hz _ _ Hs) as [K1 K2].
  destruct (step a root s (Lookup p nm)) as [s' o] eqn:E. cbn [snd] in Hq. subst o. cbn [step] in E.
  destruct (lookup_any a root Hz s p nm s' _ K1 E) as (_ & _ & Hp & [(_ & _ & Hn)|(i' & rc & t & HH & _)]); [|discriminate HH].
  cbn [fst snd] in Hn. unfold resolve in Hn.
  destruct (get_entry_range a root p) as [rg'| | |] eqn:Eg; try discriminate Hn.
  assert (Erg : rg' = rg).
  { apply range_lists in Eg; [|exact Hz|exact Hp]. destruct Hl as [[-> ->]|(i1 & r1 & f1 & n1 & (Hge & -> & Hr1) & Ep1 & ->)];
      destruct Eg as [[E1 ->]|(i2 & r2 & f2 & n2 & (Hge2 & -> & Hr2) & Ep2 & ->)]; try lia; auto.
    assert (r2 = r1) by congruence. subst r2. congruence. }
  subst rg'. cbn [unwrap bind] in Hn. destruct rg as [lo n]. cbn [fst snd] in Hi.
  pose proof (range_find_spec a lo n nm) as Hf. destruct (range_find a (lo, n) nm) as [[k|]| | |]; try discriminate Hn.
  destruct Ho as [Ho1 Ho2]. specialize (Hf (conj Ho1 Ho2)). replace i with (lo + (i - lo)) in Hr by lia. apply (Hf (i - lo) r); auto. lia.
Qed.
Print Assumptions C72_not_found.

(** C72: if the values of the table can be represented, no request of the kernel stops the server. *)
Theorem C72_no_abort : forall a root h s q, healthy a root -> served a root h s -> kernel_like h q ->
  exists s' r, step a root s q = (s', Ok r).
Proof. intros a root h s q Hh Hs Hq. now apply healthy_total with h. Qed.
Print Assumptions C72_no_abort.

(** ** A table in disorder: a directory that lists "b" before "a", and itself. *)
Definition odd_recs : list rec :=
  [mkRec (b "d") 9 1 2 493 7 (RDir 0 3);
   mkRec (b "b") 0 1 2 420 8 (RFile (mkAddr 1 0) 3);
   mkRec (b "a") 7 1 2 511 9 (RLink (b "../x"))].
Definition odd_fetch (c : caddr) : fetched := Found (b "abc").
Definition short_fetch (c : caddr) : fetched := Found (b "").
Definition odd_of (f : caddr -> fetched) : archive := mkArchive odd_recs (0, 1) (0, 3) f.
Notation odd := (odd_of odd_fetch).

Lemma odd_in r : In r odd_recs ->
  r = mkRec (b "d") 9 1 2 493 7 (RDir 0 3) \/ r = mkRec (b "b") 0 1 2 420 8 (RFile (mkAddr 1 0) 3) \/
  r = mkRec (b "a") 7 1 2 511 9 (RLink (b "../x")).
Proof. intros [<-|[<-|[<-|[]]]]; auto. Qed.

Lemma odd_healthy : healthy odd (0, 1).
Proof.
  constructor; change (a_recs odd) with odd_recs; change (N.of_nat (length odd_recs)) with 3; try (cbn; lia);
    intros; match goal with H : In _ _ |- _ => apply odd_in in H as [->|[->| ->]] end; cbn [r_name r_parent r_mtime r_payload] in *; try discriminate; try lia.
  - assert (f = 0 /\ n = 3) as [-> ->] by (split; congruence). split; vm_compute; congruence.
  - assert (t = b "../x") by congruence. subst t. vm_compute. reflexivity.
  - assert (size = 3) by congruence. subst size. vm_compute. reflexivity.
  - assert (size = 3 /\ data = b "abc") as [-> ->]. { split; [congruence|]. match goal with H : a_fetch _ _ = Found ?d |- _ => change (Found (b "abc") = Found d) in H end. congruence. } vm_compute. congruence.
Qed.

Definition q_d := Lookup 1 (b "d").
Definition q_x := Lookup 2 (b "d").
Definition q_b := Lookup 2 (b "b").
Definition q_ls := Readdir 2 0 (fun _ _ => false).
Definition odd1 := Eval vm_compute in step odd (0, 1) fs_new q_d.
Definition odd2 := Eval vm_compute in step odd (0, 1) (fst odd1) q_x.
Definition odd3 := Eval vm_compute in step odd (0, 1) (fst odd2) q_ls.
Definition odd4 := Eval vm_compute in step odd (0, 1) (fst odd3) q_b.
Definition odd5 := Eval vm_compute in step odd (0, 1) (fst odd4) (Open 3).
Definition odd6 := Eval vm_compute in step odd (0, 1) (fst odd5) (Read 3 1 10).

Definition odd_h : list (request * res reply) := [(q_d, snd odd1); (q_x, snd odd2)].
Definition odd_h2 : list (request * res reply) := [(q_ls, snd odd3)].
Definition odd_h5 : list (request * res reply) := odd_h ++ odd_h2 ++ [(q_b, snd odd4); (Open 3, snd odd5)].

Lemma odd_served : served odd (0, 1) odd_h (fst odd2).
Proof.
  apply (served_step odd (0, 1) [(q_d, snd odd1)] (fst odd1) q_x (fst odd2) (RError ENOENT)); [|reflexivity].
  eapply (served_step odd (0, 1) [] fs_new q_d (fst odd1)); [constructor|reflexivity].
Qed.
Lemma odd_served2 : served odd (0, 1) (odd_h ++ odd_h2) (fst odd3).
Proof. eapply (served_step odd (0, 1) odd_h (fst odd2) q_ls (fst odd3)); [apply odd_served|reflexivity]. Qed.
Lemma odd_served5 : served odd (0, 1) odd_h5 (fst odd5).
Proof.
  eapply (served_step odd (0, 1) (odd_h ++ odd_h2 ++ [(q_b, snd odd4)]) (fst odd4) (Open 3) (fst odd5)); [|reflexivity].
  eapply (served_step odd (0, 1) (odd_h ++ odd_h2) (fst odd3) q_b (fst odd4)); [apply odd_served2|reflexivity].
Qed.

Example C72_meets_hypotheses :
  healthy odd (0, 1) /\ served odd (0, 1) odd_h5 (fst odd5) /\ kernel_like odd_h5 (Read 3 1 10) /\
  step odd (0, 1) (fst odd5) (Read 3 1 10) = (fst odd6, Ok (RData (b "bc"))) /\
  lists odd (0, 1) 1 (0, 1) /\ ordered odd (0, 1).
Proof.
  split; [exact odd_healthy|]. split; [exact odd_served5|]. split.
  - split; [vm_compute; reflexivity|].
    exists (mkAttr 3 3 FtFile 8 8 292 1 1 2 512). split; [split; [reflexivity|]|vm_compute; congruence].
    exists 2, (b "b"). right. right. right. left. reflexivity.
  - split; [reflexivity|]. split; [left; auto|]. split.
    + intros i Hi. cbn [fst snd] in Hi. assert (i = 0) by lia. subst i. eexists. reflexivity.
    + intros i j r s Hi Hij Hj. cbn [fst snd] in *. lia.
Qed.

(** Refuted: without name order a name can be absent, and then, once the directory was listed,
    present: the answers depend on what was asked before. *)
Theorem C72_disorder_refuted : ~ forall a root h s h2 s2 p nm, healthy a root -> served a root h s ->
  served a root (h ++ h2) s2 -> snd (step a root s2 (Lookup p nm)) = snd (step a root s (Lookup p nm)).
Proof.
  intros H. specialize (H odd (0, 1) odd_h (fst odd2) odd_h2 (fst odd3) 2 (b "d") odd_healthy odd_served odd_served2).
  vm_compute in H. discriminate H.
Qed.
Print Assumptions C72_disorder_refuted.

(** Refuted: a record that claims more bytes than its content has makes an ordinary read stop the
    server (the table is healthy with another content). *)
Theorem C72_size_refuted : exists recs root ix good bad h s q,
  healthy (mkArchive recs root ix good) root /\ served (mkArchive recs root ix bad) root h s /\ kernel_like h q /\
  snd (step (mkArchive recs root ix bad) root s q) = Panic.
Proof.
  exists odd_recs, (0, 3), (0, 3), odd_fetch, short_fetch.
  exists [(Lookup 1 (b "b"), Ok (REntry (mkAttr 3 3 FtFile 8 8 292 1 1 2 512))); (Open 3, Ok ROpened)].
  exists (mkFs [((1, b "b"), Some 1)] [(1, mkAttr 3 3 FtFile 8 8 292 1 1 2 512)] [(3, (b "", 1))]).
  exists (Read 3 2 10). change (mkArchive odd_recs (0, 3) (0, 3) odd_fetch) with (mkArchive (a_recs odd) (0, 3) (0, 3) odd_fetch).
  split; [|split; [|split]].
  - destruct odd_healthy as [H1 H2 H3 H4 H5 H6 H7 H8 H9 H10]. constructor; auto. vm_compute. congruence.
  - apply (served_step (mkArchive odd_recs (0, 3) (0, 3) short_fetch) (0, 3) [(Lookup 1 (b "b"), Ok (REntry (mkAttr 3 3 FtFile 8 8 292 1 1 2 512)))]
      (mkFs [((1, b "b"), Some 1)] [(1, mkAttr 3 3 FtFile 8 8 292 1 1 2 512)] [])); [|reflexivity].
    apply (served_step (mkArchive odd_recs (0, 3) (0, 3) short_fetch) (0, 3) [] fs_new); [constructor|reflexivity].
  - split; [vm_compute; reflexivity|]. exists (mkAttr 3 3 FtFile 8 8 292 1 1 2 512). split; [split; [reflexivity|]|vm_compute; congruence].
    exists 1, (b "b"). left. reflexivity.
  - reflexivity.
Qed.
Print Assumptions C72_size_refuted.

(** Refuted: a range past the end of the table stops the server at the first listing. *)
Theorem C72_range_refuted : exists recs ix, (exists root, healthy (mkArchive recs root ix odd_fetch) root) /\
  exists root q, kernel_like [] q /\ snd (step (mkArchive recs root ix odd_fetch) root fs_new q) = Panic.
Proof.
  exists odd_recs, (0, 3). split; [exists (0, 1); exact odd_healthy|]. exists (2, 2), (Readdir 1 0 (fun _ _ => false)). split; [left; auto|]. reflexivity.
Qed.
Print Assumptions C72_range_refuted.

(** Refuted: on a table that is healthy with an index on all its records, an index "arx_entries" that
    starts at the second record shows under a name the attributes of another record, and stops the
    server at the last name. *)
Theorem C72_index_refuted : exists recs root all ix h s,
  healthy (mkArchive recs root all odd_fetch) root /\ fst ix = 1 /\ served (mkArchive recs root ix odd_fetch) root h s /\
  (exists r t f n, at_ recs 0 = Some r /\ r_name r = b "d" /\ r_payload r = RDir f n /\
     snd (step (mkArchive recs root ix odd_fetch) root s (Lookup 1 (b "d"))) = Ok (REntry t) /\ at_kind t = FtFile) /\
  kernel_like h (Lookup 1 (b "a")) /\ snd (step (mkArchive recs root ix odd_fetch) root s (Lookup 1 (b "a"))) = Panic.
Proof.
  pose (q := Readdir 1 0 (fun _ _ => false)). pose (x := mkArchive odd_recs (0, 3) (1, 2) odd_fetch).
  exists odd_recs, (0, 3), (0, 3), (1, 2), [(q, snd (step x (0, 3) fs_new q))], (fst (step x (0, 3) fs_new q)).
  split; [destruct odd_healthy as [H1 H2 H3 H4 H5 H6 H7 H8 H9 H10]; constructor; auto; vm_compute; congruence|]. split; [reflexivity|].
  split; [eapply (served_step x (0, 3) [] fs_new q); [constructor|vm_compute; reflexivity]|].
  split; [eexists; eexists; eexists; eexists; split; [reflexivity|]; split; [reflexivity|]; split; [reflexivity|]; split; [vm_compute; reflexivity|reflexivity]|].
  split; [left; auto|]. vm_compute. reflexivity.
Qed.
Print Assumptions C72_index_refuted.
