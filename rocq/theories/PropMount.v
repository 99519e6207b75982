(** C63: paths, contents, links and listings seen through a mount. *)
From Verif Require Export SpecMount PropFuse.

(** Everything added can be shown by the attributes of FUSE (see [sane]). *)
Definition showable (l : list entry) : Prop := forall p nd, has l p nd -> sane nd.

Section Mount.
  Variables (l : list entry) (fetch : caddr -> fetched) (a : archive) (root : range) (rd : path).
  Hypothesis HM : mount_of l fetch a root rd.

  Lemma stored_has i p nd : astored a i p nd -> has l p nd.
  Proof. intros H. destruct HM as (Hs & Ha & _). eapply archive_has; eauto. Qed.
  Lemma has_stored p nd : has l p nd -> exists i, astored a i p nd.
  Proof. intros H. destruct HM as (Hs & Ha & _). eapply archive_has in H; eauto. Qed.
  Lemma mount_is_dir : is_dir a rd.
  Proof.
    destruct HM as (_ & _ & [[-> _]|(i & r & f & nb & Hp & Hr & Ep & _)]); [now left|]. right.
    exists i, (meta_of_rec r), r. split; [exact Hr|]. split; [exact Hp|]. unfold node_of_rec. now rewrite Ep.
  Qed.
  Lemma stored_at i p nd p' nd' : astored a i p nd -> astored a i p' nd' -> p = p' /\ nd = nd'.
  Proof.
    pose proof (mount_wf _ _ _ _ _ HM) as Hw.
    intros (r & Hr & Hp & Hn) (r' & Hr' & Hp' & Hn'). split; [eapply apath_det; eauto|]. congruence.
  Qed.
  Lemma stored_index i j p nd nd' : astored a i p nd -> astored a j p nd' -> i = j.
  Proof.
    pose proof (mount_wf _ _ _ _ _ HM) as Hw.
    intros (r & Hr & Hp & Hn) (r' & Hr' & Hp' & Hn'). eapply apath_inj; eauto.
  Qed.

  Lemma resolves_served h s q o : resolves a root h s q o -> served a root h s.
  Proof. induction 1; auto; econstructor; eauto. Qed.

  Definition reached (q : path) (ino : N) (k : ftype) : Prop :=
    (q = [] /\ ino = 1 /\ k = FtDir) \/
    (q <> [] /\ exists i nd, ino = i + 2 /\ astored a i (rd ++ q) nd /\ k = ftype_kind (fst nd)).
  Lemma reached_denotes q ino k : reached q ino k -> denotes a rd ino (rd ++ q).
  Proof.
    intros [(-> & -> & _)|(_ & i & nd & -> & (r & _ & Hp & _) & _)]; [left; now rewrite app_nil_r|right; eauto].
  Qed.
  Lemma reached_dir q ino : reached q ino FtDir -> is_dir a (rd ++ q).
  Proof.
    intros [(-> & _ & _)|(_ & i & [kk mt] & _ & Hst & E)]; [rewrite app_nil_r; apply mount_is_dir|].
    right. exists i, mt. destruct kk; try discriminate E. exact Hst.
  Qed.

  Definition failed_spec (q : path) (e : errno) : Prop :=
    (forall nd, ~ has l (rd ++ q) nd) /\
    match e with
    | ENOENT => forall p x t nd, q = p ++ x :: t -> p <> [] -> has l (rd ++ p) nd -> fst nd = KDir
    | ENOTDIR => exists p x t nd, q = p ++ x :: t /\ p <> [] /\ has l (rd ++ p) nd /\ fst nd <> KDir
    | _ => False
    end.

  Lemma split_prefix (q : path) nm p x t : q ++ [nm] = p ++ x :: t -> (p = q /\ x = nm /\ t = []) \/ exists t', q = p ++ x :: t'.
  Proof.
    intros E. destruct t as [|y t] using rev_ind.
    - apply app_inj_tail in E as [-> ->]. now left.
    - right. exists t. rewrite app_comm_cons, app_assoc in E. now apply app_inj_tail in E as [-> _].
  Qed.

  Lemma resolves_inv h s q o : showable l -> resolves a root h s q o ->
    match o with Reached ino k => reached q ino k | Refused e => failed_spec q e end.
  Proof.
    intros Hsh. induction 1 as [h s Hs|h s p o q s' r Hr IH Hst|h s p ino nm s' t Hr IH Hst|h s p ino nm s' e Hr IH Hst|h s p ino k nm Hr IH Hk|h s p e nm Hr IH].
    - left. auto.
    - exact IH.
    - pose proof (resolves_served _ _ _ _ Hr) as Hs.
      pose proof (reached_denotes _ _ _ IH) as Hd. pose proof (reached_dir _ _ IH) as Hdir.
      assert (E : snd (step a root s (Lookup ino nm)) = Ok (REntry t)) by now rewrite Hst.
      destruct (C19_inodes _ _ _ _ _ _ _ _ _ _ _ HM Hs Hd Hdir E) as (i & nd & Hnd & Ei & _).
      destruct (C22_lookup _ _ _ _ _ _ _ _ _ nm HM Hs Hd Hdir) as [H1 _].
      rewrite <- app_assoc in Hnd.
      assert (Hnd' := Hnd). rewrite app_assoc in Hnd'.
      destruct (H1 i nd Hnd' (Hsh _ _ (stored_has _ _ _ Hnd'))) as (t' & E' & Ht).
      rewrite E' in E. injection E as ->. right. split; [now destruct p|].
      exists i, nd. split; [exact Ei|]. split; [exact Hnd|]. apply Ht.
    - pose proof (resolves_served _ _ _ _ Hr) as Hs.
      pose proof (reached_denotes _ _ _ IH) as Hd. pose proof (reached_dir _ _ IH) as Hdir.
      assert (E : snd (step a root s (Lookup ino nm)) = Ok (RError e)) by now rewrite Hst.
      destruct (C22_lookup _ _ _ _ _ _ _ _ _ nm HM Hs Hd Hdir) as [H1 H2].
      assert (Hno : forall nd, ~ has l ((rd ++ p) ++ [nm]) nd).
      { intros nd Hh. destruct (has_stored _ _ Hh) as [i Hi]. destruct (H1 i nd Hi (Hsh _ _ Hh)) as (t & E' & _). congruence. }
      rewrite (H2 Hno) in E. injection E as <-. split; [now rewrite app_assoc|].
      intros p1 x t nd Eq Hne Hh. apply split_prefix in Eq as [(-> & _ & _)|[t' ->]].
      + destruct IH as [(-> & _)|(_ & i & nd' & _ & Hi & Ek)]; [easy|].
        assert (nd = nd') as -> by (eapply has_fun; [exact Hh|eapply stored_has; eauto]). destruct (fst nd'); [reflexivity|discriminate Ek|discriminate Ek].
      + destruct IH as [(E0 & _)|(_ & i & nd' & _ & Hi & Ek)]; [now destruct p1|].
        apply stored_has in Hi. rewrite app_assoc in Hi.
        destruct (has_ancestor l (rd ++ p1) x t' nd' Hi) as [mt Hmt]; [intros E0; apply app_eq_nil in E0; tauto|].
        now rewrite (has_fun _ _ _ _ Hh Hmt).
    - destruct IH as [(_ & _ & ->)|(Hne & i & nd & _ & Hi & Ek)]; [easy|]. apply stored_has in Hi.
      assert (Hkd : fst nd <> KDir) by (intros E; rewrite E in Ek; subst k; easy).
      assert (Hne' : rd ++ p <> []) by (intros E0; apply app_eq_nil in E0; tauto).
      split.
      + intros nd' Hh. rewrite app_assoc in Hh. destruct (has_ancestor l (rd ++ p) nm [] nd' Hh Hne') as [mt Hmt].
        rewrite (has_fun _ _ _ _ Hi Hmt) in Hkd. easy.
      + exists p, nm, [], nd. auto.
    - destruct IH as [Hno He].
      assert (Hne : rd ++ p = [] -> p = []) by (intros E0; now apply app_eq_nil in E0).
      split.
      + intros nd Hh. rewrite app_assoc in Hh. destruct p as [|x p].
        { destruct e; try contradiction.
          - clear -Hr. exfalso. remember [] as q. remember (Refused ENOENT) as o. induction Hr; try congruence; auto; try (symmetry in Heqq; now apply app_cons_not_nil in Heqq).
          - destruct He as (p1 & x & t & nd' & E & _). now apply app_cons_not_nil in E. }
        destruct (has_ancestor l (rd ++ x :: p) nm [] nd Hh) as [mt Hmt]; [intros E0; apply app_eq_nil in E0; easy|]. now apply Hno in Hmt.
      + destruct e; try contradiction.
        * intros p1 x t nd Eq Hne1 Hh. apply split_prefix in Eq as [(-> & _ & _)|[t' ->]]; [now apply Hno in Hh|].
          eapply He; eauto.
        * destruct He as (p1 & x & t & nd & -> & H1 & H2 & H3). exists p1, x, (t ++ [nm]), nd. rewrite <- app_assoc. auto.
  Qed.
End Mount.

(** C63: the outcome of resolving a path says exactly whether it is in the archive, and what it is. *)
Theorem C63_resolution : forall l fetch a root rd h s q o, mount_of l fetch a root rd -> showable l ->
  resolves a root h s q o ->
  match o with
  | Reached ino k => (q = [] /\ ino = 1 /\ k = FtDir) \/ (q <> [] /\ 2 <= ino /\ exists nd, has l (rd ++ q) nd /\ k = ftype_kind (fst nd))
  | Refused ENOENT => (forall nd, ~ has l (rd ++ q) nd) /\
      forall p x t nd, q = p ++ x :: t -> p <> [] -> has l (rd ++ p) nd -> fst nd = KDir
  | Refused ENOTDIR => (forall nd, ~ has l (rd ++ q) nd) /\
      exists p x t nd, q = p ++ x :: t /\ p <> [] /\ has l (rd ++ p) nd /\ fst nd <> KDir
  | Refused _ => False
  end.
Proof.
  intros l fetch a root rd h s q o HM Hsh Hr. pose proof (resolves_inv _ _ _ _ _ HM _ _ _ _ Hsh Hr) as H.
  destruct o as [ino k|e].
  - destruct H as [H|(Hne & i & nd & -> & Hi & Ek)]; [now left|right]. split; [exact Hne|]. split; [lia|]. exists nd. split; [|exact Ek]. eapply stored_has; eauto.
  - destruct H as [Hno He]. destruct e; try exact He; split; auto.
Qed.
Print Assumptions C63_resolution.

(** Any path can be resolved at any time: every component gets an answer. *)
Theorem C63_resolves_every_path : forall l fetch a root rd h s q, mount_of l fetch a root rd -> showable l ->
  served a root h s -> exists h' s' o, resolves a root (h ++ h') s' q o.
Proof.
  intros l fetch a root rd h s q HM Hsh Hs. induction q as [|nm q IH] using rev_ind.
  { exists [], s, (Reached 1 FtDir). rewrite app_nil_r. now apply res_root. }
  destruct IH as (h' & s' & o & Hr). destruct o as [ino k|e]; [|exists h', s', (Refused e); now apply res_failed].
  assert (Hk : k = FtDir \/ k <> FtDir) by (destruct k; auto; right; easy).
  destruct Hk as [->|Hk]; [|exists h', s', (Refused ENOTDIR); now apply res_not_dir with ino k].
  pose proof (resolves_served _ _ _ _ _ _ Hr) as Hs'. pose proof (resolves_inv _ _ _ _ _ HM _ _ _ _ Hsh Hr) as Hin. cbn in Hin.
  pose proof (reached_denotes _ _ _ _ _ Hin) as Hd. pose proof (reached_dir _ _ _ _ _ HM _ _ Hin) as Hdir.
  mount HM. pose proof (served_inv a root rd Hwf Hm _ _ Hs') as Hi.
  destruct (lookup_answer a root rd Hwf Hm s' ino (rd ++ q) nm Hi Hd Hdir) as [(i & nd & Hst & H)|[Hno E]].
  - destruct (H (Hsh _ _ (stored_has _ _ _ _ _ HM _ _ _ Hst))) as (t & E & _).
    destruct (step a root s' (Lookup ino nm)) as [s2 r] eqn:Es. cbn in E. subst r.
    eexists (h' ++ _), s2, _. rewrite app_assoc. eapply res_down; eauto.
  - destruct (step a root s' (Lookup ino nm)) as [s2 r] eqn:Es. cbn in E. subst r.
    eexists (h' ++ _), s2, _. rewrite app_assoc. eapply res_error; eauto.
Qed.
Print Assumptions C63_resolves_every_path.

(** Inodes are stable and distinct: whatever was served before, and even in another mount of the
    same directory, two resolutions give the same inode exactly when they resolve the same path. *)
Theorem C63_same_inode : forall l fetch a root rd h s q ino k h' s' q' ino' k', mount_of l fetch a root rd -> showable l ->
  resolves a root h s q (Reached ino k) -> resolves a root h' s' q' (Reached ino' k') -> (ino = ino' <-> q = q') /\ (q = q' -> k = k').
Proof.
  intros l fetch a root rd h s q ino k h' s' q' ino' k' HM Hsh H1 H2.
  pose proof (resolves_inv _ _ _ _ _ HM _ _ _ _ Hsh H1) as R1. pose proof (resolves_inv _ _ _ _ _ HM _ _ _ _ Hsh H2) as R2. cbn in R1, R2.
  destruct R1 as [(-> & -> & ->)|(Hne & i & nd & -> & Hi & ->)], R2 as [(-> & -> & ->)|(Hne' & i' & nd' & -> & Hi' & ->)].
  - tauto.
  - split; [|intros E; now symmetry in E]. split; [lia|]. intros E. now symmetry in E.
  - split; [|easy]. split; [lia|easy].
  - split.
    + split; [|intros <-; f_equal; eapply stored_index; eauto].
      intros E. assert (i = i') as -> by lia. destruct (stored_at _ _ _ _ _ HM _ _ _ _ _ Hi Hi') as [E' _]. now apply app_inv_head in E'.
    + intros <-. rewrite <- (stored_index _ _ _ _ _ HM _ _ _ _ _ Hi Hi') in Hi'. now destruct (stored_at _ _ _ _ _ HM _ _ _ _ _ Hi Hi') as [_ <-].
Qed.
Print Assumptions C63_same_inode.

Lemma resolved_stored l fetch a root rd h s q ino k nd : mount_of l fetch a root rd -> showable l ->
  resolves a root h s q (Reached ino k) -> q <> [] -> has l (rd ++ q) nd ->
  exists i, ino = i + 2 /\ astored a i (rd ++ q) nd /\ k = ftype_kind (fst nd).
Proof.
  intros HM Hsh Hr Hne Hh. pose proof (resolves_inv _ _ _ _ _ HM _ _ _ _ Hsh Hr) as R.
  destruct R as [(-> & _)|(_ & i & nd' & -> & Hi & ->)]; [easy|].
  pose proof (stored_has _ _ _ _ _ HM _ _ _ Hi) as Hh'. rewrite <- (has_fun _ _ _ _ Hh Hh') in *. eauto.
Qed.

(** What the entry of a resolved path answers: attributes, target of a link, contents of a file. *)
Theorem C63_contents : forall l fetch a root rd h s q ino k nd, mount_of l fetch a root rd -> showable l ->
  resolves a root h s q (Reached ino k) -> q <> [] -> has l (rd ++ q) nd ->
  k = ftype_kind (fst nd) /\
  (exists t i, snd (step a root s (Getattr ino)) = Ok (RAttr t) /\ attr_shows a i (rd ++ q) nd t) /\
  match fst nd with
  | KLink target => snd (step a root s (Readlink ino)) = Ok (RData target)
  | KFile size addr => forall data, fetch addr = Found data ->
      (* it can be opened *)
      snd (step a root s (Open ino)) = Ok ROpened /\
      (* and, once it is open, read: any range, or all of it by successive reads *)
      (releases ino h < opens ino h ->
         (forall off n, off <= N.of_nat (length data) ->
            snd (step a root s (Read ino off n)) = Ok (RData (firstn (N.to_nat n) (skipn (N.to_nat off) data)))) /\
         (forall sizes, (length data <= list_sum (map N.to_nat sizes))%nat -> reading a root s ino 0 sizes = Ok data))
  | KDir => snd (step a root s (Opendir ino)) = Ok ROpened
  end.
Proof.
  intros l fetch a root rd h s q ino k nd HM Hsh Hr Hne Hh.
  destruct (resolved_stored _ _ _ _ _ _ _ _ _ _ _ HM Hsh Hr Hne Hh) as (i & -> & Hi & Ek).
  pose proof (resolves_served _ _ _ _ _ _ Hr) as Hs. split; [exact Ek|]. split.
  { destruct (C23_attributes _ _ _ _ _ _ _ _ _ _ HM Hs Hi (Hsh _ _ Hh)) as (t & H1 & H2). eauto. }
  destruct (C27_wrong_kind _ _ _ _ _ _ _ _ _ _ HM Hs Hi) as (Hl & Hd & _).
  pose proof (C24_open _ _ _ _ _ _ _ _ _ _ HM Hs Hi) as Ho.
  destruct nd as [[|size addr|target] mt]; cbn [fst] in *.
  - now rewrite Hd.
  - intros data Hf. rewrite Hf in Ho. split; [exact Ho|]. intros Hop.
    assert (Hden : denotes a rd (i + 2) (rd ++ q)) by (right; exists i; split; auto; destruct Hi as (r & _ & Hp & _); exact Hp).
    destruct (C24_read _ _ _ _ _ _ _ _ _ HM Hs Hden Hop) as (data' & (i' & p' & size' & addr' & mt' & Ei & Hi' & Hf') & H1 & H2).
    assert (i = i') as <- by lia. destruct (stored_at _ _ _ _ _ HM _ _ _ _ _ Hi Hi') as [_ E]. injection E as <- <- <-.
    assert (a_fetch a = fetch) as Ea.
    { destruct HM as (Hsm & Ha & _). destruct (archive_ok l fetch a Hsm Ha) as (m & _ & _ & E & _). exact E. }
    assert (data' = data) as -> by congruence. split; [|exact H2]. intros off n Hoff. now rewrite H1.
  - now rewrite Hl.
Qed.
Print Assumptions C63_contents.

(** Listing a resolved directory gives ".", ".." and every entry below it exactly once, in name
    order, under the inode and the type that resolving its path gives. *)
Theorem C63_directory : forall l fetch a root rd h s q ino, mount_of l fetch a root rd -> showable l -> narrow a ->
  resolves a root h s q (Reached ino FtDir) -> exists dot dotdot kids,
  let all := dot :: dotdot :: kids in
  de_name dot = b "." /\ de_ino dot = ino /\ de_name dotdot = b ".." /\
  StronglySorted (fun x y => bytes_cmp (de_name x) (de_name y) = Lt) kids /\
  (forall n, In n (map de_name kids) <-> exists nd, has l (rd ++ q ++ [n]) nd) /\
  (forall d h' s' i k, In d kids -> resolves a root h' s' (q ++ [de_name d]) (Reached i k) -> de_ino d = i /\ de_kind d = k) /\
  forall between f more, fits_two f -> Forall (fun bf => fits_one (snd bf)) more ->
  let res := pages a root s ino 0 ((between, f) :: more) in
  (exists rest, all = replies res ++ rest) /\
  (In (Ok []) res \/ (length all <= length more)%nat -> replies res = all).
Proof.
  intros l fetch a root rd h s q ino HM Hsh Hnar Hr.
  pose proof (resolves_served _ _ _ _ _ _ Hr) as Hs. pose proof (resolves_inv _ _ _ _ _ HM _ _ _ _ Hsh Hr) as Hin. cbn in Hin.
  pose proof (reached_denotes _ _ _ _ _ Hin) as Hd. pose proof (reached_dir _ _ _ _ _ HM _ _ Hin) as Hdir.
  destruct (C25_listing _ _ _ _ _ _ _ _ _ HM Hnar Hs Hd Hdir) as (all & (dot & dotdot & kids & -> & H1 & H2 & _ & H3 & _ & H4 & H5 & H6) & Hp).
  exists dot, dotdot, kids. cbn zeta. split; [exact H2|]. split; [exact H1|]. split; [exact H3|]. split; [exact H4|]. split; [|split].
  - intros n. split.
    + intros Hn. apply in_map_iff in Hn as (d & <- & Hn). destruct (H6 d Hn) as (k & nd & Hk & _). exists nd. rewrite app_assoc. eapply stored_has; eauto.
    + intros [nd Hh]. rewrite app_assoc in Hh. destruct (has_stored _ _ _ _ _ HM _ _ Hh) as [i Hi].
      destruct (H5 _ _ _ Hi) as (d & Hin' & <- & _). now apply in_map.
  - intros d h' s' i k Hin' Hr'.
    destruct (H6 d Hin') as (j & nd & Hj & Ej). rewrite <- app_assoc in Hj.
    assert (Hne : q ++ [de_name d] <> []) by now destruct q.
    destruct (resolved_stored _ _ _ _ _ _ _ _ _ _ nd HM Hsh Hr' Hne) as (i' & -> & Hi' & Ek); [eapply stored_has; eauto|].
    rewrite (stored_index _ _ _ _ _ HM _ _ _ _ _ Hi' Hj). split; [exact Ej|].
    rewrite app_assoc in Hj. destruct (H5 _ _ _ Hj) as (d' & Hd' & En & _ & Ekd).
    assert (d' = d) as ->; [|now rewrite Ekd].
    clear - H4 Hin' Hd' En. induction H4 as [|x xs Hxs IH Hall]; [easy|].
    rewrite Forall_forall in Hall. destruct Hin' as [<-|Hin'], Hd' as [<-|Hd']; auto.
    + specialize (Hall _ Hd'). rewrite En, bytes_cmp_refl in Hall. discriminate Hall.
    + specialize (Hall _ Hin'). rewrite En, bytes_cmp_refl in Hall. discriminate Hall.
  - intros between f more Hf Hmore. destruct (Hp between f more Hf Hmore) as (_ & _ & H7 & H8). auto.
Qed.
Print Assumptions C63_directory.

(** The hypotheses are met: a/b/f.txt of the demo archive is resolved while another client lists the
    root, opened and read; a/b/f.txt/x and a/zz are refused. *)
Example demo_showable : showable demo.
Proof.
  intros p nd Hh. destruct (has_stored _ _ _ _ _ demo_mount _ _ Hh) as [i Hi]. exact (proj1 demo_sane i p nd Hi).
Qed.
Example C63_meets_hypotheses : exists h s, resolves demo_arx (a_root demo_arx) h s [b "a"; b "b"; b "f.txt"] (Reached 6 FtFile) /\
  releases 6 h < opens 6 h /\ reading demo_arx (a_root demo_arx) s 6 0 [2; 2; 2] = Ok (b "hello") /\
  resolves demo_arx (a_root demo_arx) h s [b "a"; b "b"; b "f.txt"; b "x"] (Refused ENOTDIR) /\
  resolves demo_arx (a_root demo_arx) h s [b "a"; b "zz"] (Refused ENOENT).
Proof.
  assert (H0 : resolves demo_arx (a_root demo_arx) [] fs_new [] (Reached 1 FtDir)) by (apply res_root; constructor).
  Ltac serving H nm q := match type of H with resolves ?a ?rt ?h ?s ?p ?o =>
    let x := eval vm_compute in (step a rt s q) in
    match x with (?s', Ok ?r) => 
      assert (nm : step a rt s q = (s', Ok r)) by (vm_compute; reflexivity) end end.
  serving H0 S1 (Lookup 1 (b "a")). pose proof (res_down _ _ _ _ _ _ _ _ _ H0 S1) as H1.
  serving H1 S2 (Readdir 1 0 (fun _ _ => false)). pose proof (res_other _ _ _ _ _ _ _ _ _ H1 S2) as H2.
  serving H2 S3 (Lookup 2 (b "b")). pose proof (res_down _ _ _ _ _ _ _ _ _ H2 S3) as H3.
  serving H3 S4 (Lookup 4 (b "f.txt")). pose proof (res_down _ _ _ _ _ _ _ _ _ H3 S4) as H4.
  serving H4 S5 (Open 6). pose proof (res_other _ _ _ _ _ _ _ _ _ H4 S5) as H5.
  serving H5 S6 (Lookup 2 (b "zz")). pose proof (res_other _ _ _ _ _ _ _ _ _ H5 S6) as H6.
  pose proof (res_other _ _ _ _ _ _ _ _ _ (res_other _ _ _ _ _ _ _ _ _ (res_other _ _ _ _ _ _ _ _ _ H2 S3) S4) S5) as G5.
  pose proof (res_error _ _ _ _ _ _ _ _ _ G5 S6) as G6.
  do 2 eexists. split; [exact H6|]. split; [vm_compute; reflexivity|]. split; [vm_compute; reflexivity|]. split.
  - eapply (res_not_dir _ _ _ _ [b "a"; b "b"; b "f.txt"]); [exact H6|discriminate].
  - exact G6.
Qed.
