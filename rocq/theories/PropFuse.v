(** C19-C28: the FUSE mount. *)
From Verif Require Export Demo ReadFacts FuseFacts.

(** A mount of an archive written by a session: the whole archive, or a directory of it. *)
Definition mount_of (l : list entry) (fetch : caddr -> fetched) (a : archive) (root : range) (rd : path) : Prop :=
  small l /\ archive_of l fetch a /\ mounted a root rd.

Lemma mount_wf l fetch a root rd : mount_of l fetch a root rd -> wf a.
Proof. intros (Hs & Ha & _). now destruct (archive_ok l fetch a Hs Ha) as (m & _ & _ & _ & Hw & _). Qed.
Lemma mount_range_ok l fetch a root rd : mount_of l fetch a root rd -> mounted a root rd.
Proof. now intros (_ & _ & H). Qed.
Ltac mount H := pose proof (mount_wf _ _ _ _ _ H) as Hwf; pose proof (mount_range_ok _ _ _ _ _ H) as Hm.

(** What `arx mount [--root-dir p]` serves is such a mount; anything but a directory is refused. *)
Theorem C19_mount_serves_directory : forall l fetch a rp, small l -> archive_of l fetch a ->
  match mount_range a rp with
  | Ok root => exists rd, mount_of l fetch a root rd /\ match rp with None => rd = [] | Some p => exists q, ref_from_path p = Ok q /\ pieces q = rd end
  | _ => rp <> None
  end.
Proof.
  intros l fetch a [p|] Hs Ha; cbn [mount_range].
  - destruct (ref_from_path p) as [q| | |] eqn:Eq; cbn [bind]; try easy.
    destruct (archive_ok l fetch a Hs Ha) as (m & _ & _ & _ & Hw & _).
    destruct (pieces q) as [|x t] eqn:Ep; [now rewrite (get_entry_empty _ _ _ Ep)|].
    assert (HB : total_builder a unit_builder).
    { intros i r Hr. unfold create_entry. rewrite (rec_at_ok _ _ _ Hr). cbn [bind].
      pose proof (wf_variant _ Hw i r) as Hv. destruct (r_payload r) as [| | |v]; try (eexists; reflexivity). now destruct (Hv v). }
    pose proof (get_entry_spec a Hw unit_builder q HB) as H. rewrite Ep in H. specialize (H ltac:(easy)).
    destruct (get_entry unit_builder a q) as [[f|f|rg d]| | |] eqn:E; cbn [bind]; try easy.
    destruct H as (i & Hp & Hc). destruct (apath_at _ _ _ Hp) as [r Hr].
    exists (x :: t). split; [|exists q; auto]. split; [exact Hs|]. split; [exact Ha|]. right.
    unfold create_entry in Hc. rewrite (rec_at_ok _ _ _ Hr) in Hc. cbn [bind] in Hc.
    destruct (r_payload r) as [|f nb| |] eqn:Epl; try discriminate Hc. cbn in Hc. injection Hc as E1 _.
    destruct (wf_dir_u32 a Hw _ _ _ _ Hr Epl) as [U1 U2]. rewrite U1, U2 in E1. exists i, r, f, nb. auto.
  - exists []. split; auto. split; [exact Hs|]. split; [exact Ha|]. now left.
Qed.
Print Assumptions C19_mount_serves_directory.

(** C19: inode of entry i is i+2; an entry found by lookup answers getattr on the same inode. *)
Theorem C19_inodes : forall l fetch a root rd h s ino p nm t, mount_of l fetch a root rd -> served a root h s ->
  denotes a rd ino p -> is_dir a p -> snd (step a root s (Lookup ino nm)) = Ok (REntry t) ->
  exists i nd, astored a i (p ++ [nm]) nd /\ at_ino t = i + 2 /\ 2 <= at_ino t /\
    snd (step a root s (Getattr (at_ino t))) = Ok (RAttr t).
Proof.
  intros l fetch a root rd h s ino p nm t HM Hs Hd Hdir Hl. mount HM. pose proof (served_inv a root rd Hwf Hm _ _ Hs) as Hi.
  cbn [step] in Hl. destruct (lookup_gives a root s ino nm Hi) as (_ & _ & E). rewrite E in Hl. unfold pure_lookup, ino_from in Hl.
  rewrite (denotes_nonzero a rd _ _ Hd) in Hl. cbn [bind] in Hl.
  destruct (resolve_spec a root rd Hwf Hm ino p nm Hd Hdir) as [(i & Er & Hp)|[Er _]]; rewrite Er in Hl; cbn [bind] in Hl; [|discriminate Hl].
  destruct (index_get build_attr a i) as [t'| | |] eqn:Eb; try discriminate Hl. cbn in Hl. injection Hl as ->.
  destruct (denotes_rec a Hwf _ _ Hp) as (r & nd & Hr & _ & Hst). exists i, nd. split; auto.
  assert (Et : at_ino t = i + 2).
  { rewrite (index_get_ok a Hwf _ _ _ Hr) in Eb. unfold build_attr in Eb. destruct (ftype_of r) as [k| | |]; try discriminate Eb. cbn [bind] in Eb.
    destruct (match r_payload r with RFile _ _ => _ | RDir _ _ => _ | RLink _ => _ | RBad _ => _ end) as [z| | |]; try discriminate Eb. cbn [bind] in Eb.
    destruct (match k with FtFile => _ | FtDir => _ | FtLink => _ end) as [y| | |]; try discriminate Eb. cbn [bind] in Eb.
    destruct (_ <? _); [|discriminate Eb]. injection Eb as <-. reflexivity. }
  split; auto. split; [lia|]. rewrite Et. cbn [step]. destruct (getattr_gives a root s (i + 2) Hi) as (_ & _ & ->).
  unfold pure_getattr, ino_from. destruct (N.eqb_spec (i + 2) 0); [lia|]. cbn [bind]. rewrite (idx_of_ino a Hwf _ _ Hr), Eb. reflexivity.
Qed.
Print Assumptions C19_inodes.

(** Two different entries never share an inode, and an inode is not that of two paths. *)
Theorem C19_inodes_distinct : forall l fetch a root rd i j p q, mount_of l fetch a root rd ->
  apath a i p -> apath a j q -> (i + 2 = j + 2 <-> p = q) /\ i + 2 <> 0 /\ i + 2 <> 1.
Proof.
  intros l fetch a root rd i j p q HM Hp Hq. mount HM. split; [|lia]. split.
  - intros E. assert (i = j) as <- by lia. eapply apath_det; eauto.
  - intros <-. f_equal. eapply apath_inj; eauto.
Qed.
Print Assumptions C19_inodes_distinct.

(** C20: every answer is the one of a server whose caches are empty; for requests that do not touch
    open files it is the one of a fresh server. *)
Theorem C20_caches_transparent : forall l fetch a root rd h s q, mount_of l fetch a root rd -> served a root h s ->
  let cold := mkFs [] [] (f_open s) in
  snd (step a root s q) = snd (step a root cold q) /\
  f_open (fst (step a root s q)) = f_open (fst (step a root cold q)) /\
  match q with
  | Open _ | Read _ _ _ | Release _ => True
  | _ => snd (step a root s q) = snd (step a root fs_new q)
  end.
Proof.
  intros l fetch a root rd h s q HM Hs cold. mount HM. pose proof (served_inv a root rd Hwf Hm _ _ Hs) as Hi.
  destruct (step_cache a root rd Hwf Hm s q [] Hi) as (H1 & H2 & H3). split; [exact H1|]. split; [exact H2|].
  destruct q; try exact I; exact (proj1 (H3 eq_refl)).
Qed.
Print Assumptions C20_caches_transparent.

(** C21 *)
Theorem C21_caches_bounded : forall l fetch a root rd h s, mount_of l fetch a root rd -> served a root h s ->
  (length (f_names s) <= 4096)%nat /\ NoDup (map fst (f_names s)) /\
  (length (f_attrs s) <= 100)%nat /\ NoDup (map fst (f_attrs s)) /\
  NoDup (map fst (f_open s)) /\
  (forall ino, releases ino h <= opens ino h) /\
  (forall ino, In ino (map fst (f_open s)) <-> releases ino h < opens ino h) /\
  (forall ino data c, In (ino, (data, c)) (f_open s) -> opens ino h = releases ino h + c).
Proof.
  intros l fetch a root rd h s HM Hs. mount HM. destruct (served_inv a root rd Hwf Hm _ _ Hs) as [Hn Ha].
  destruct (served_open a root rd Hwf Hm _ _ Hs) as [Hd Ho].
  split; [exact (proj2 (proj2 Hn))|]. split; [exact (proj1 (proj2 Hn))|]. split; [exact (proj2 (proj2 Ha))|]. split; [exact (proj1 (proj2 Ha))|].
  split; auto. split; [|split].
  - intros i. specialize (Ho i). destruct (open_find i (f_open s)) as [[d c]|]; lia.
  - intros i. specialize (Ho i). destruct (open_find i (f_open s)) as [[d c]|] eqn:E.
    + split; [lia|]. intros _. apply (lru_find_in _ N.eqb_eq) in E. apply (in_map fst) in E. exact E.
    + split; [|lia]. intros H. now apply (lru_find_none _ N.eqb_eq) in E.
  - intros i d c Hin. apply (lru_find_nodup _ N.eqb_eq) in Hin; auto. specialize (Ho i). unfold open_find in Ho. rewrite Hin in Ho. tauto.
Qed.
Print Assumptions C21_caches_bounded.

(** C22 *)
Theorem C22_lookup : forall l fetch a root rd h s ino p nm, mount_of l fetch a root rd -> served a root h s ->
  denotes a rd ino p -> is_dir a p ->
  (forall i nd, astored a i (p ++ [nm]) nd -> sane nd ->
     exists t, snd (step a root s (Lookup ino nm)) = Ok (REntry t) /\ attr_shows a i (p ++ [nm]) nd t) /\
  ((forall nd, ~ has l (p ++ [nm]) nd) -> snd (step a root s (Lookup ino nm)) = Ok (RError ENOENT)).
Proof.
  intros l fetch a root rd h s ino p nm HM Hs Hd Hdir. mount HM. pose proof (served_inv a root rd Hwf Hm _ _ Hs) as Hi.
  destruct (lookup_answer a root rd Hwf Hm s ino p nm Hi Hd Hdir) as [(i & nd & Hst & H)|[Hno E]].
  - split.
    + intros i' nd' Hst' Hsane. destruct Hst as (r & Hr & Hp & Hn), Hst' as (r' & Hr' & Hp' & Hn').
      assert (i' = i) as -> by (eapply apath_inj; eauto). rewrite Hr in Hr'. injection Hr' as <-. rewrite Hn in Hn'. injection Hn' as <-.
      destruct (H Hsane) as (t & H1 & _ & H2). eauto.
    + intros Hnone. exfalso. destruct HM as (Hsm & Ha & _). apply (Hnone nd). eapply archive_has; eauto.
  - split; auto. intros i nd Hst. now apply Hno in Hst.
Qed.
Print Assumptions C22_lookup.

(** C23 *)
Theorem C23_attributes : forall l fetch a root rd h s i p nd, mount_of l fetch a root rd -> served a root h s ->
  astored a i p nd -> sane nd ->
  exists t, snd (step a root s (Getattr (i + 2))) = Ok (RAttr t) /\ attr_shows a i p nd t.
Proof.
  intros l fetch a root rd h s i p nd HM Hs Hst Hsane. mount HM. pose proof (served_inv a root rd Hwf Hm _ _ Hs) as Hi.
  destruct (getattr_answer a root Hwf s i p nd Hi Hst Hsane) as (t & H1 & _ & H2). eauto.
Qed.
Print Assumptions C23_attributes.

Theorem C23_root : forall a root s, exists t,
  step a root s (Getattr 1) = (s, Ok (RAttr t)) /\ at_ino t = 1 /\ at_kind t = FtDir /\
  N.testbit (at_perm t) 1 = false /\ N.testbit (at_perm t) 4 = false /\ N.testbit (at_perm t) 7 = false.
Proof. intros. eexists. split; [reflexivity|]. repeat split. Qed.
Print Assumptions C23_root.

(** C24: [reading] is a sequence of reads of the given sizes, each where the previous one stopped. *)
Fixpoint reading (a : archive) (root : range) (s : fs) (ino off : N) (sizes : list N) : res bytes :=
  match sizes with
  | [] => Ok []
  | z :: r =>
      match step a root s (Read ino off z) with
      | (s', Ok (RData d)) => let? rest := reading a root s' ino (off + N.of_nat (length d)) r in Ok (d ++ rest)
      | _ => Panic
      end
  end.

Theorem C24_read : forall l fetch a root rd h s ino p, mount_of l fetch a root rd -> served a root h s ->
  denotes a rd ino p -> releases ino h < opens ino h -> exists data, file_data a ino data /\
  (forall off size, off <= N.of_nat (length data) ->
     step a root s (Read ino off size) = (s, Ok (RData (firstn (N.to_nat size) (skipn (N.to_nat off) data))))) /\
  (forall sizes, (length data <= list_sum (map N.to_nat sizes))%nat -> reading a root s ino 0 sizes = Ok data).
Proof.
  intros l fetch a root rd h s ino p HM Hs Hd Hlt. mount HM.
  destruct (read_answer a root rd Hwf Hm h s ino p Hs Hd Hlt) as (data & Hf & Hr). exists data. split; auto. split; auto.
  enough (H : forall sizes off, off <= N.of_nat (length data) ->
    reading a root s ino off sizes = Ok (firstn (list_sum (map N.to_nat sizes)) (skipn (N.to_nat off) data))).
  { intros sizes Hl. rewrite H by lia. f_equal. apply firstn_all2. exact Hl. }
  induction sizes as [|z sizes IH]; intros off Hoff; [reflexivity|].
  cbn [reading]. rewrite (Hr off z Hoff). set (t := skipn (N.to_nat off) data).
  assert (Hlt' : length t = (length data - N.to_nat off)%nat) by apply skipn_length.
  rewrite IH; [|rewrite firstn_length; lia]. cbn [bind map list_sum fold_right]. f_equal.
  fold (list_sum (map N.to_nat sizes)).
  rewrite <- (pages_step t (N.to_nat z)). f_equal.
  destruct (le_lt_dec (N.to_nat z) (length t)) as [Hz|Hz].
  - rewrite firstn_length, Nat.min_l by assumption. f_equal. subst t.
    replace (N.to_nat (off + N.of_nat (N.to_nat z))) with (N.to_nat off + N.to_nat z)%nat by lia.
    generalize (N.to_nat off) as x, (N.to_nat z) as y. clear. intros x. revert data. induction x; intros data y; cbn; auto.
    destruct data; [now rewrite !skipn_nil|]. apply IHx.
  - rewrite (firstn_all2 (n := N.to_nat z)) by lia. rewrite (skipn_all2 (n := N.to_nat z)) by lia. rewrite skipn_all2 by lia. reflexivity.
Qed.
Print Assumptions C24_read.

Theorem C24_open : forall l fetch a root rd h s i p nd, mount_of l fetch a root rd -> served a root h s -> astored a i p nd ->
  snd (step a root s (Open (i + 2))) =
    Ok (match fst nd with
        | KDir => RError EISDIR
        | KLink _ => RError ENOENT
        | KFile _ addr => match fetch addr with Found _ => ROpened | MissingPack => RError ENOMEDIUM | _ => RError EIO end
        end).
Proof.
  intros l fetch a root rd h s i p nd HM Hs Hst. mount HM. rewrite (open_answer a root rd Hwf Hm h s i p nd Hs Hst).
  destruct HM as (Hsm & Ha & _). destruct (archive_ok l fetch a Hsm Ha) as (m & _ & _ & -> & _). reflexivity.
Qed.
Print Assumptions C24_open.

(** C25 *)
Theorem C25_listing : forall l fetch a root rd h s ino p, mount_of l fetch a root rd -> narrow a -> served a root h s ->
  denotes a rd ino p -> is_dir a p -> exists all,
  complete_listing a rd ino p all /\
  forall between f more, fits_two f -> Forall (fun bf => fits_one (snd bf)) more ->
  let res := pages a root s ino 0 ((between, f) :: more) in
  (forall r, In r res -> exists x, r = Ok x) /\ length res = S (length more) /\
  (exists rest, all = replies res ++ rest) /\
  (In (Ok []) res \/ (length all <= length more)%nat -> replies res = all).
Proof.
  intros l fetch a root rd h s ino p HM Hnar Hs Hd Hdir. mount HM. pose proof (served_inv a root rd Hwf Hm _ _ Hs) as Hi.
  exact (whole_listing a root rd Hwf Hm s ino p Hi Hd Hdir Hnar).
Qed.
Print Assumptions C25_listing.

(** With a first reply of one entry the listing never ends: every page is ".". *)
Definition one_entry : buffer := fun acc _ => match acc with [] => false | _ => true end.
Theorem C25_one_entry_refuted : forall k,
  pages demo_arx (a_root demo_arx) fs_new 1 0 (repeat ([], one_entry) k) = repeat (Ok [mkDirent 1 0 FtDir (b ".")]) k.
Proof.
  assert (H : forall s, pages demo_arx (a_root demo_arx) s 1 0 (repeat ([], one_entry) 1) = [Ok [mkDirent 1 0 FtDir (b ".")]]) by reflexivity.
  intros k. generalize fs_new as s. induction k as [|k IH]; intros s; [reflexivity|]. cbn [repeat pages serve fst].
  assert (E : step demo_arx (a_root demo_arx) s (Readdir 1 0 one_entry) = (s, Ok (RDirents [mkDirent 1 0 FtDir (b ".")]))) by reflexivity.
  rewrite E. cbn [map last de_off]. now rewrite IH.
Qed.
Print Assumptions C25_one_entry_refuted.

(** C26: ".." (the entry of offset 1) is the parent directory. *)
Theorem C26_dotdot : forall l fetch a h s ino p off f ds d, mount_of l fetch a (a_root a) [] -> narrow a ->
  served a (a_root a) h s -> denotes a [] ino p -> is_dir a p ->
  snd (step a (a_root a) s (Readdir ino off f)) = Ok (RDirents ds) -> In d ds -> de_off d = 1 ->
  de_name d = b ".." /\ denotes a [] (de_ino d) (removelast p) /\ is_dir a (removelast p).
Proof.
  intros l fetch a h s ino p off f ds d HM Hnar Hs Hd Hdir Hstep Hin Hoff. mount HM.
  pose proof (served_inv a (a_root a) [] Hwf Hm _ _ Hs) as Hi.
  destruct (dotdot_answer a (a_root a) [] Hwf Hm s ino p off f ds d Hi Hd Hdir Hnar Hstep Hin Hoff) as [E1 E2]. split; auto.
  destruct (parent_ok a [] Hwf ino p Hd) as (q & Eq & H1 & H2). rewrite E2 in Eq. injection Eq as Eq.
  destruct Hd as [[-> ->]|(i & -> & Hp)].
  - rewrite Eq, (H1 eq_refl). split; left; auto.
  - destruct (H2 i eq_refl) as [[Er Eq2]|(j & Hj & Eq2)]; rewrite Eq, Eq2.
    + rewrite Er. split; left; auto.
    + split; [right; eauto|]. right.
      assert (Hp' : apath a i (removelast p ++ [last p []])).
      { rewrite <- app_removelast_last; auto. eapply apath_nonempty; eauto. }
      destruct (apath_prefix_dir a Hwf _ _ _ _ _ Hj Hp') as (rj & fj & nb & Hrj & Ep).
      exists j, (meta_of_rec rj), rj. split; auto. split; auto. unfold node_of_rec. now rewrite Ep.
Qed.
Print Assumptions C26_dotdot.

(** With --root-dir a, the ".." of a/b is not the inode of the mount root. *)
Theorem C26_root_dir_refuted : exists root ds d,
  mount_range demo_arx (Some (b "a")) = Ok root /\
  snd (step demo_arx root fs_new (Lookup 1 (b "b"))) = Ok (REntry (mkAttr 4 20 FtDir 0 0 365 1 1000 1000 512)) /\
  snd (step demo_arx root fs_new (Readdir 4 0 (fun _ _ => false))) = Ok (RDirents ds) /\
  In d ds /\ de_name d = b ".." /\ de_ino d <> 1.
Proof.
  eexists. eexists. exists (mkDirent 2 1 FtDir (b "..")). split; [vm_compute; reflexivity|].
  split; [vm_compute; reflexivity|]. split; [vm_compute; reflexivity|]. split; [right; left; reflexivity|]. split; [reflexivity|discriminate].
Qed.
Print Assumptions C26_root_dir_refuted.

(** C27 *)
Theorem C27_wrong_kind : forall l fetch a root rd h s i p nd, mount_of l fetch a root rd -> served a root h s -> astored a i p nd ->
  step a root s (Readlink (i + 2)) = (s, Ok (match fst nd with KLink t => RData t | _ => RError ENOLINK end)) /\
  step a root s (Opendir (i + 2)) = (s, Ok (match fst nd with KDir => ROpened | _ => RError ENOTDIR end)) /\
  (forall t, fst nd = KLink t -> snd (step a root s (Open (i + 2))) = Ok (RError ENOENT)) /\
  (fst nd = KDir -> snd (step a root s (Open (i + 2))) = Ok (RError EISDIR)).
Proof.
  intros l fetch a root rd h s i p nd HM Hs Hst. mount HM.
  split; [now apply readlink_answer with p|]. split; [now apply opendir_answer with p|].
  pose proof (open_answer a root rd Hwf Hm h s i p nd Hs Hst) as Ho. split.
  - intros t E. now rewrite E in Ho.
  - intros E. now rewrite E in Ho.
Qed.
Print Assumptions C27_wrong_kind.

Theorem C27_release : forall l fetch a root rd h s i, mount_of l fetch a root rd -> served a root h s -> i <> 0 ->
  snd (step a root s (Release i)) = Ok (if releases i h <? opens i h then ROk else RError ENOENT).
Proof. intros l fetch a root rd h s i HM Hs Hi. mount HM. now apply (release_answer a root rd Hwf Hm h s i). Qed.
Print Assumptions C27_release.

Theorem C27_root : forall a root s, 
  step a root s (Readlink 1) = (s, Ok (RError ENOLINK)) /\ step a root s (Opendir 1) = (s, Ok ROpened).
Proof. intros. split; reflexivity. Qed.
Print Assumptions C27_root.

(** C28 *)
Theorem C28_no_abort : forall l fetch a root rd h s q, mount_of l fetch a root rd -> all_sane a -> narrow a ->
  served a root h s -> legit a rd h q -> exists s' r, step a root s q = (s', Ok r).
Proof. intros l fetch a root rd h s q HM Hsane Hnar Hs Hl. mount HM. exact (no_abort a root rd Hwf Hm h s q Hsane Hnar Hs Hl). Qed.
Print Assumptions C28_no_abort.

(** An entry with an mtime of 2^63 or more makes the server abort on getattr and lookup. *)
Definition old_file : list entry := [mkEntry (b "f") (Ok (Some (KFile 0 (mkAddr 1 0)))) (mkMeta 0 0 420 (as_u64 (-1)))].
Theorem C28_mtime_refuted : exists a, archive_of old_file demo_fetch a /\ apath a 0 [b "f"] /\
  snd (step a (a_root a) fs_new (Getattr 2)) = Panic /\ snd (step a (a_root a) fs_new (Lookup 1 (b "f"))) = Panic.
Proof.
  eexists. split; [vm_compute; reflexivity|]. split; [|split; vm_compute; reflexivity].
  eapply (apath_top _ 0 (mkRec (b "f") 0 0 0 420 _ _)); vm_compute; reflexivity.
Qed.
Print Assumptions C28_mtime_refuted.

(** The hypotheses are met: the demo archive, mounted, after a lookup, an open and a readdir. *)
Example demo_mount : mount_of demo demo_fetch demo_arx (a_root demo_arx) [].
Proof. split; [exact demo_small|]. split; [exact demo_built|]. now left. Qed.

Example demo_mount_sub : mount_of demo demo_fetch demo_arx (2, 2) [b "a"].
Proof.
  split; [exact demo_small|]. split; [exact demo_built|]. right.
  eexists 0, _, 2, 2. split; [|split; [reflexivity|split; reflexivity]].
  eapply (apath_top demo_arx 0 (mkRec (b "a") 0 _ _ _ _ _)); reflexivity.
Qed.

Example demo_sane : all_sane demo_arx /\ narrow demo_arx.
Proof.
  split; [|vm_compute; reflexivity]. intros i p nd (r & Hr & _ & Hn).
  assert (Hi : i < 5) by exact (at_some_lt _ _ _ Hr).
  assert (i = 0 \/ i = 1 \/ i = 2 \/ i = 3 \/ i = 4) as H by lia.
  destruct H as [-> | [-> | [-> | [-> | ->]]]]; vm_compute in Hr; injection Hr as <-; vm_compute in Hn; injection Hn as <-; split; vm_compute; auto.
Qed.

Example demo_served : exists h s, served demo_arx (a_root demo_arx) h s /\ releases 6 h < opens 6 h /\
  denotes demo_arx [] 6 [b "a"; b "b"; b "f.txt"] /\ legit demo_arx [] h (Read 6 2 10) /\ length h = 3%nat /\
  snd (step demo_arx (a_root demo_arx) s (Read 6 2 10)) = Ok (RData (b "llo")).
Proof.
  do 2 eexists. split.
  { eapply (served_step _ _ _ _ (Readdir 1 0 (fun _ _ => false))); [eapply (served_step _ _ _ _ (Open 6)); [eapply (served_step _ _ _ _ (Lookup 1 (b "a"))); [constructor|]|]|];
      vm_compute; reflexivity. }
  assert (Hd : denotes demo_arx [] 6 [b "a"; b "b"; b "f.txt"]).
  { right. exists 4. split; [reflexivity|].
    change [b "a"; b "b"; b "f.txt"] with (([b "a"] ++ [b "b"]) ++ [b "f.txt"]).
    eapply (apath_sub demo_arx 4 (mkRec (b "f.txt") 3 _ _ _ _ _) 2); [vm_compute; reflexivity|reflexivity|].
    eapply (apath_sub demo_arx 2 (mkRec (b "b") 1 _ _ _ _ _) 0); [vm_compute; reflexivity|reflexivity|].
    eapply (apath_top demo_arx 0 (mkRec (b "a") 0 _ _ _ _ _)); vm_compute; reflexivity. }
  split; [vm_compute; reflexivity|]. split; [exact Hd|]. split; [|split; vm_compute; reflexivity].
  split; [eauto|]. split; [vm_compute; reflexivity|]. intros data (i & p & size & addr & mt & E & (r & Hr & _ & Hn) & Hf).
  assert (i = 4) as -> by lia. vm_compute in Hr. injection Hr as <-. vm_compute in Hn. injection Hn as <- <- <-.
  vm_compute in Hf. injection Hf as <-. vm_compute. discriminate.
Qed.

Example C25_meets_hypotheses : fits_two (fun acc _ => (2 <=? length acc)%nat) /\
  pages demo_arx (a_root demo_arx) fs_new 1 0 (repeat ([], fun acc _ => (2 <=? length acc)%nat) 3) =
    [Ok [mkDirent 1 0 FtDir (b "."); mkDirent 1 1 FtDir (b "..")]; Ok [mkDirent 2 2 FtDir (b "a"); mkDirent 3 3 FtLink (b "l")]; Ok []].
Proof. split; [split; [intros d|intros d d']; reflexivity|]. vm_compute. reflexivity. Qed.
