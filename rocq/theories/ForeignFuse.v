(** The FUSE server on an arbitrary table of records. *)
From Verif Require Import SpecForeignFuse ForeignProofs FuseFacts.

Section Any.
  Variable a : archive.
  Variable root : range.
  Local Notation recs := (a_recs a).

  Lemma ino_idx_some ino i r : ino <> 0 -> ino_idx ino = Some i -> at_ recs i = Some r -> at_inode a ino i r.
  Proof.
    unfold ino_idx. destruct (N.eqb_spec ino 1) as [->|H1]; [discriminate|]. intros H0 [= <-] Hr. split; [lia|]. split; auto.
  Qed.
  Lemma ino_idx_none ino : ino_idx ino = None -> ino = 1.
  Proof. unfold ino_idx. destruct (N.eqb_spec ino 1); [auto|discriminate]. Qed.
  Lemma at_inode_idx ino i r : at_inode a ino i r -> ino_idx ino = Some i /\ ino <> 0.
  Proof. intros (H & -> & _). unfold ino_idx. destruct (N.eqb_spec ino 1); [lia|]. split; [reflexivity|lia]. Qed.

  Lemma ftype_kind_is r k : ftype_of r = Ok k -> kind_is r k.
  Proof. unfold ftype_of, kind_is. destruct (r_payload r); intros [= <-]; reflexivity. Qed.

  Lemma build_attr_any i r t : build_attr i r = Ok t -> rec_shows i r t.
  Proof.
    unfold build_attr. destruct (ftype_of r) as [k| | |] eqn:Ek; try (intros H; discriminate H). cbn [bind].
    pose proof (ftype_kind_is _ _ Ek) as Hk.
    set (size := match r_payload r with RFile _ s => Ok s | RDir _ nb => u64 ((nb + 1) * 10) | RLink t0 => Ok (N.of_nat (length t0)) | RBad _ => Err EBadVariant end).
    destruct size as [z| | |] eqn:Ez; try (intros H; discriminate H). cbn [bind].
    destruct (match k with FtDir => Ok 0 | _ => u64 (div_ceil z 4096 * 4096) end) as [y| | |] eqn:Ey; try (intros H; discriminate H). cbn [bind].
    destruct (r_mtime r <? 2 ^ 63); [|intros H; discriminate H].
    intros H. assert (E : t = mkAttr (ino_of_idx i) z k (div_ceil y 512) (r_mtime r) (N.land (as_u16 (r_rights r)) 65389) 1
          (as_u32 (r_owner r)) (as_u32 (r_group r)) 512) by congruence. clear H. subst t.
    unfold rec_shows. cbn [at_ino at_size at_kind at_blocks at_mtime at_perm at_nlink at_uid at_gid at_blksize].
    split; [reflexivity|]. split; [exact Hk|]. split; [reflexivity|]. split; [reflexivity|]. split; [reflexivity|].
    split; [reflexivity|]. split; [reflexivity|]. split; [intros; apply perm_bits|]. cbv zeta.
    unfold kind_is in Hk. unfold size in Ez. clear size.
    assert (Hu : forall v w, u64 v = Ok w -> w = v). { intros v w. unfold u64. destruct (_ <? _); congruence. }
    destruct (r_payload r) as [ad s|f n|tg|v]; try contradiction; subst k.
    - assert (s = z) by congruence. subst s. split; auto. apply Hu in Ey. subst y. apply blocks_spec.
    - apply Hu in Ez. assert (y = 0) by congruence. subst. split; reflexivity.
    - assert (N.of_nat (length tg) = z) as -> by congruence. split; auto. apply Hu in Ey. subst y. apply blocks_spec.
  Qed.

  Hypothesis Hzero : fst (a_entries a) = 0.

  Lemma index_zero {A} (f : N -> rec -> res A) i x : index_get f a i = Ok x -> exists r, at_ recs i = Some r /\ f i r = Ok x.
  Proof.
    unfold index_get, entry_index. rewrite Hzero, N.add_0_l. destruct (i <? _); [|discriminate]. unfold rec_at.
    destruct (at_ recs i) as [r|] eqn:E; [|discriminate]. cbn [bind]. eauto.
  Qed.

  Lemma range_lists ino rg : ino <> 0 -> get_entry_range a root ino = Ok rg -> lists a root ino rg.
  Proof.
    intros H0. unfold get_entry_range. destruct (ino_idx ino) as [i|] eqn:Ei.
    - destruct (index_get light_dir a i) as [[x|k]| | |] eqn:E; cbn [bind]; try (intros H; discriminate H).
      intros H. assert (x = rg) by congruence. subst x. apply index_zero in E as (r & Hr & E). right.
      unfold light_dir in E. destruct (ftype_of r); cbn [bind] in E; try discriminate E.
      destruct (r_payload r) as [|f n| |] eqn:Ep; try discriminate E. assert (rg = (as_u32 f, as_u32 n)) by congruence. subst rg.
      exists i, r, f, n. split; [now apply ino_idx_some|]. split; auto.
    - intros H. left. apply ino_idx_none in Ei. split; congruence.
  Qed.

  (** ** The caches *)
  Definition fname_ok (k : N * bytes) (v : option N) : Prop :=
    (exists rg, lists a root (fst k) rg) /\
    match v with
    | Some i => exists r, entry_of a root (fst k) i r /\ r_name r = snd k
    | None => resolve a root (fst k) (snd k) = Ok None
    end.
  Definition finv (s : fs) : Prop :=
    good fname_ok resolve_cap (f_names s) /\ good (attr_ok a) attr_cap (f_attrs s).

  Lemma finv_new : finv fs_new.
  Proof. split; (split; [easy|split; [constructor|cbn [f_names f_attrs fs_new length]; lia]]). Qed.

  Lemma resolve_any p nm v : p <> 0 -> resolve a root p nm = Ok v -> fname_ok (p, nm) v.
  Proof.
    intros H0 Hv. pose proof Hv as Hv'. unfold resolve in Hv. destruct (get_entry_range a root p) as [rg| | |] eqn:Eg; try discriminate Hv.
    cbn [unwrap bind] in Hv. pose proof (range_lists p rg H0 Eg) as Hl. pose proof (range_find_any a rg nm) as Hf.
    destruct (range_find a rg nm) as [o| | |]; try discriminate Hv. cbn [unwrap bind] in Hv.
    split; [exists rg; exact Hl|]. destruct v as [i|]; cbn [fst snd]; [|exact Hv'].
    destruct o as [k|]; cbn [option_map] in Hv; [|discriminate Hv]. assert (i = fst rg + k) by congruence. subst i.
    destruct Hf as (Hk & r & Hr & Hn). exists r. split; auto. exists rg. split; auto. split; auto. lia.
  Qed.

  Lemma cached_any s i s' t : finv s -> cached_attr a s i = (s', t) ->
    finv s' /\ f_open s' = f_open s /\ (t = Panic \/ t = Diverge \/ exists x, t = Ok x /\ index_get build_attr a i = Ok x).
  Proof.
    intros [Hn Ha] H. unfold cached_attr, lru_get in H. destruct (lru_find N.eqb i (f_attrs s)) as [x|] eqn:E.
    - assert (s' = mkFs (f_names s) ((i, x) :: lru_drop N.eqb i (f_attrs s)) (f_open s) /\ t = Ok x) as [-> ->] by (split; congruence).
      pose proof (good_get N.eqb N.eqb_eq _ _ _ _ _ Ha E) as Ha'. apply (lru_find_in _ N.eqb_eq) in E. apply (proj1 Ha) in E.
      split; [split; assumption|]. split; [reflexivity|]. right. right. exists x. split; auto.
    - destruct (index_get build_attr a i) as [x|e| |] eqn:Eb; cbn [unwrap] in H.
      + assert (s' = mkFs (f_names s) (lru_put N.eqb attr_cap i x (f_attrs s)) (f_open s) /\ t = Ok x) as [-> ->] by (split; congruence).
        split; [|split; [reflexivity|right; right; exists x; auto]]. split; auto. cbn [f_attrs]. apply good_put; auto. apply N.eqb_eq.
      + assert (s' = s /\ t = Panic) as [-> ->] by (split; congruence). split; [split; auto|auto].
      + assert (s' = s /\ t = Panic) as [-> ->] by (split; congruence). split; [split; auto|auto].
      + assert (s' = s /\ t = Diverge) as [-> ->] by (split; congruence). split; [split; auto|auto].
  Qed.

  Lemma lookup_any s p nm s' r : finv s -> do_lookup a root s p nm = (s', Ok r) ->
    finv s' /\ f_open s' = f_open s /\ p <> 0 /\
    ((r = RError ENOENT /\ fname_ok (p, nm) None) \/
     exists i rc t, r = REntry t /\ entry_of a root p i rc /\ r_name rc = nm /\ index_get build_attr a i = Ok t).
  Proof.
    intros Hs H. unfold do_lookup, ino_from in H. destruct (N.eqb_spec p 0) as [|H0]; [discriminate H|]. cbn [andthen] in H.
    match type of H with andthen ?y _ = _ => destruct y as [s1 o] eqn:Ex end.
    assert (Hx : finv s1 /\ f_open s1 = f_open s /\ forall v, o = Ok v -> fname_ok (p, nm) v).
    { clear H. destruct Hs as [Hn Ha]. unfold lru_get in Ex. destruct (lru_find rkey_eqb (p, nm) (f_names s)) as [v|] eqn:Ef.
      - assert (s1 = mkFs (((p, nm), v) :: lru_drop rkey_eqb (p, nm) (f_names s)) (f_attrs s) (f_open s) /\ o = Ok v) as [-> ->] by (split; congruence).
        pose proof (good_get rkey_eqb rkey_eqb_ok _ _ _ _ _ Hn Ef) as Hn'. apply (lru_find_in _ rkey_eqb_ok) in Ef. apply (proj1 Hn) in Ef.
        split; [split; assumption|]. split; [reflexivity|]. intros v' Hv'. assert (v = v') by congruence. now subst v'.
      - destruct (resolve a root p nm) as [v|e| |] eqn:Er.
        + assert (s1 = mkFs (lru_put rkey_eqb resolve_cap (p, nm) v (f_names s)) (f_attrs s) (f_open s) /\ o = Ok v) as [-> ->] by (split; congruence).
          pose proof (resolve_any p nm v H0 Er) as Hok.
          split; [|split; [reflexivity|]]; [split; auto; cbn [f_names]; apply good_put; auto; apply rkey_eqb_ok|].
          intros v' Hv'. assert (v = v') by congruence. now subst v'.
        + assert (s1 = s /\ o = Err e) as [-> ->] by (split; congruence). split; [split; auto|]. split; auto. intros v Hv. discriminate Hv.
        + assert (s1 = s /\ o = Panic) as [-> ->] by (split; congruence). split; [split; auto|]. split; auto. intros v Hv. discriminate Hv.
        + assert (s1 = s /\ o = Diverge) as [-> ->] by (split; congruence). split; [split; auto|]. split; auto. intros v Hv. discriminate Hv. }
    clear Ex. destruct Hx as (Hs1 & Ho & Hv). destruct o as [v| | |]; try discriminate H. cbn [andthen] in H. specialize (Hv v eq_refl).
    destruct v as [i|].
    - destruct (cached_attr a s1 i) as [s2 t] eqn:Ec. destruct (cached_any s1 i s2 t Hs1 Ec) as (Hs2 & Ho2 & Ht).
      destruct t as [t| | |]; try discriminate H. cbn [andthen] in H.
      assert (s' = s2 /\ r = REntry t) as [-> ->] by (split; congruence).
      split; auto. split; [congruence|]. split; auto. right. destruct Hv as (_ & rc & Hc & Hn). cbn [fst snd] in *.
      exists i, rc, t. split; auto. split; auto. split; auto. destruct Ht as [Ht|[Ht|(x & Ht & Hb)]]; try discriminate Ht. congruence.
    - assert (s' = s1 /\ r = RError ENOENT) as [-> ->] by (split; congruence).
      split; auto.
  Qed.

  Lemma getattr_any s p s' r : finv s -> do_getattr a s p = (s', Ok r) ->
    finv s' /\ f_open s' = f_open s /\ p <> 0 /\
    ((p = 1 /\ r = RAttr root_attr) \/ exists i t, ino_idx p = Some i /\ r = RAttr t /\ index_get build_attr a i = Ok t).
  Proof.
    intros Hs H. unfold do_getattr, ino_from in H. destruct (N.eqb_spec p 0) as [|H0]; [discriminate H|]. cbn [andthen] in H.
    destruct (ino_idx p) as [i|] eqn:Ei.
    - destruct (cached_attr a s i) as [s2 t] eqn:Ec. destruct (cached_any s i s2 t Hs Ec) as (Hs2 & Ho2 & Ht).
      destruct t as [t| | |]; try discriminate H. cbn [andthen] in H.
      assert (s' = s2 /\ r = RAttr t) as [-> ->] by (split; congruence).
      split; auto. split; auto. split; auto. right. exists i, t. split; auto. split; auto.
      destruct Ht as [Ht|[Ht|(x & Ht & Hb)]]; try discriminate Ht. congruence.
    - assert (s' = s /\ r = RAttr root_attr) as [-> ->] by (split; congruence). apply ino_idx_none in Ei. split; auto.
  Qed.

  (** ** Listings *)
  Lemma parent_any ino p : ino <> 0 -> parent_ino a ino = Ok p ->
    (ino = 1 /\ p = 1) \/ exists i r, at_inode a ino i r /\ p = if r_parent r =? 0 then 1 else r_parent r mod 2^32 + 1.
  Proof.
    intros H0. unfold parent_ino. destruct (ino_idx ino) as [i|] eqn:Ei.
    - destruct (index_get light_parent a i) as [x| | |] eqn:E; cbn [unwrap bind]; try (intros H; discriminate H).
      apply index_zero in E as (r & Hr & E). intros H. right. exists i, r. split; [now apply ino_idx_some|].
      unfold light_parent in E. destruct (r_parent r =? 0); [assert (x = None) by congruence; subst x; congruence|].
      destruct (N.eqb_spec (as_u32 (r_parent r)) 0) as [|Hne]; [discriminate E|].
      assert (x = Some (as_u32 (r_parent r) - 1)) by congruence. subst x. unfold ino_of_idx, as_u32 in *.
      assert (p = r_parent r mod 2 ^ 32 - 1 + 2) by congruence. lia.
    - intros H. left. apply ino_idx_none in Ei. split; congruence.
  Qed.

  Lemma loop_any ino rg full : ino <> 0 -> lists a root ino rg -> forall m off s acc s' l,
    off + N.of_nat m = snd rg + 2 -> finv s -> readdir_loop a ino rg full (iota off m) s acc = (s', Ok l) ->
    finv s' /\ f_open s' = f_open s /\ exists more, l = acc ++ more /\
      (forall k d, nth_error more k = Some d -> is_dirent a ino rg (off + N.of_nat k) d) /\
      ((forall acc d, full acc d = false) -> length more = m).
  Proof.
    intros H0 Hl m. induction m as [|m IH]; intros off s acc s' l Hm Hs H.
    { cbn [iota readdir_loop] in H. assert (s' = s /\ l = acc) as [-> ->] by (split; congruence).
      split; auto. split; auto. exists []. rewrite app_nil_r. split; auto. split; [|auto]. intros [|k] d Hd; discriminate Hd. }
    assert (Hcons : forall s1 d, is_dirent a ino rg off d -> finv s1 -> f_open s1 = f_open s ->
              (if full acc d then (s1, Ok acc) else readdir_loop a ino rg full (iota (off + 1) m) s1 (acc ++ [d])) = (s', Ok l) ->
              finv s' /\ f_open s' = f_open s /\ exists more, l = acc ++ more /\
                (forall k d, nth_error more k = Some d -> is_dirent a ino rg (off + N.of_nat k) d) /\
                ((forall acc d, full acc d = false) -> length more = S m)).
    { intros s1 d Hd Hs1 Ho1 HH. destruct (full acc d) eqn:Ef.
      - assert (s' = s1 /\ l = acc) as [-> ->] by (split; congruence). split; auto. split; auto.
        exists []. rewrite app_nil_r. split; auto. split; [intros [|k] d' Hd'; discriminate Hd'|]. intros Hnf. rewrite Hnf in Ef. discriminate Ef.
      - destruct (IH (off + 1) s1 (acc ++ [d]) s' l ltac:(lia) Hs1 HH) as (K1 & K2 & more & -> & K3 & K4).
        split; auto. split; [congruence|]. exists (d :: more). split; [now rewrite <- app_assoc|]. split.
        + intros [|k] d' Hd'; cbn [nth_error] in Hd'.
          * assert (d' = d) by congruence. subst d'. replace (off + N.of_nat 0) with off by lia. exact Hd.
          * replace (off + N.of_nat (S k)) with (off + 1 + N.of_nat k) by lia. now apply K3.
        + intros Hnf. cbn [length]. f_equal. now apply K4. }
    cbn [iota readdir_loop] in H. cbv zeta in H.
    destruct (N.eqb_spec off 0) as [->|E0].
    { apply (Hcons s (mkDirent ino 0 FtDir (b "."))); auto. split; [reflexivity|]. left. repeat split; reflexivity. }
    destruct (N.eqb_spec off 1) as [->|E1].
    { destruct (parent_ino a ino) as [p| | |] eqn:Ep; try discriminate H.
      apply (Hcons s (mkDirent p 1 FtDir (b ".."))); auto. split; [reflexivity|]. right. left.
      split; [reflexivity|]. split; [reflexivity|]. split; [reflexivity|]. cbn [de_ino]. now apply parent_any. }
    destruct (N.eqb_spec (off - 2) (snd rg)) as [E2|E2]; [lia|].
    unfold rec_at in H. destruct (at_ recs (fst rg + (off - 2))) as [r|] eqn:Er; [|discriminate H]. cbn [bind] in H.
    destruct (ftype_of r) as [k| | |] eqn:Ek; try discriminate H. cbn [bind unwrap] in H.
    eapply (Hcons (mkFs (lru_put rkey_eqb resolve_cap (ino, r_name r) (Some (fst rg + (off - 2))) (f_names s)) (f_attrs s) (f_open s))
             (mkDirent (ino_of_idx (fst rg + (off - 2))) off k (r_name r))); [| | |exact H].
    - split; [reflexivity|]. right. right. split; [lia|]. exists r. cbn [de_ino de_name de_kind]. split; auto. split; [reflexivity|].
      split; [reflexivity|]. now apply ftype_kind_is.
    - destruct Hs as [Hn Ha]. split; auto. cbn [f_names]. apply good_put; auto; [apply rkey_eqb_ok|]. cbn [fst snd].
      split; [exists rg; exact Hl|]. exists r. split; auto. exists rg. split; auto. split; auto. cbn [fst]. lia.
    - reflexivity.
  Qed.

  Lemma readdir_any s ino off full s' r : finv s -> do_readdir a root s ino off full = (s', Ok r) ->
    finv s' /\ f_open s' = f_open s /\ ino <> 0 /\ exists l, r = RDirents l /\ truthful a root [] (Readdir ino off full) r.
  Proof.
    intros Hs H. unfold do_readdir, ino_from in H. destruct (N.eqb_spec ino 0) as [|H0]; [discriminate H|]. cbn [andthen] in H.
    destruct (get_entry_range a root ino) as [rg| | |] eqn:Eg; try discriminate H. cbn [unwrap andthen] in H.
    pose proof (range_lists ino rg H0 Eg) as Hl. destruct (snd rg + 2 <? 2 ^ 32); [|discriminate H]. cbv zeta in H.
    change (if off =? 0 then 0 else off + 1) with (next_off off) in H.
    destruct (readdir_loop a ino rg full (iota (next_off off) (N.to_nat (snd rg + 2 - next_off off))) s []) as [s1 o] eqn:El.
    destruct o as [l| | |]; try discriminate H. cbn [andthen] in H.
    assert (s' = s1 /\ r = RDirents l) as [-> ->] by (split; congruence).
    destruct (N.le_gt_cases (next_off off) (snd rg + 2)) as [Hle|Hgt].
    - assert (Hsum : next_off off + N.of_nat (N.to_nat (snd rg + 2 - next_off off)) = snd rg + 2) by lia.
      destruct (loop_any ino rg full H0 Hl _ _ _ _ _ _ Hsum Hs El) as (K1 & K2 & more & -> & K3 & K4). cbn [app].
      split; auto. split; auto. split; auto. exists more. split; auto. exists rg. split; auto. split; auto.
      intros Hnf. rewrite (K4 Hnf). lia.
    - replace (N.to_nat (snd rg + 2 - next_off off)) with 0%nat in El by lia. cbn [iota readdir_loop] in El.
      assert (s1 = s /\ l = []) as [-> ->] by (split; congruence). split; auto. split; auto. split; auto. exists []. split; auto.
      exists rg. split; auto. split; [intros [|k] d Hd; discriminate Hd|]. intros _. cbn [length]. lia.
  Qed.

  (** ** Every request *)
  Lemma content_any ino data : ino <> 0 -> content_of a ino data -> content a ino data.
  Proof. intros H0 (k & r & addr & size & Ek & Hr & Ep & Ef). exists k, r, addr, size. split; auto. now apply ino_idx_some. Qed.

  Definition oinv (h : list (request * res reply)) (s : fs) : Prop := open_inv a h s.

  Lemma step_any h s q s' r : finv s -> oinv h s -> step a root s q = (s', Ok r) ->
    finv s' /\ oinv (h ++ [(q, Ok r)]) s' /\ truthful a root h q r.
  Proof.
    intros Hs Ho H.
    assert (Hkeep : forall s1, f_open s1 = f_open s -> (forall i, opens i [(q, Ok r)] = 0 /\ releases i [(q, Ok r)] = 0) -> oinv (h ++ [(q, Ok r)]) s1).
    { intros s1 E Hz. now apply open_inv_keep with s. }
    destruct q as [p nm|i|i|i|i o z|i|i|i o g|i]; cbn [step] in H.
    - destruct (lookup_any s p nm s' r Hs H) as (K1 & K2 & K3 & K4). split; auto. split; [apply Hkeep; auto|].
      destruct K4 as [(-> & Hn)|(k & rc & t & -> & He & Hn & Hb)]; cbn [truthful].
      + split; auto. now destruct Hn.
      + exists k, rc. split; auto. split; auto. apply index_zero in Hb as (r' & Hr' & Hb).
        destruct He as (rg & _ & _ & Hr). assert (r' = rc) by congruence. subst r'. now apply build_attr_any.
    - destruct (getattr_any s i s' r Hs H) as (K1 & K2 & K3 & K4). split; auto. split; [apply Hkeep; auto|].
      destruct K4 as [(-> & ->)|(k & t & Ek & -> & Hb)]; cbn [truthful]; [left; repeat split; reflexivity|right].
      apply index_zero in Hb as (r' & Hr' & Hb). exists k, r'. split; [now apply ino_idx_some|now apply build_attr_any].
    - unfold do_readlink, ino_from in H. destruct (N.eqb_spec i 0) as [|H0]; [discriminate H|]. cbn [andthen] in H.
      destruct (ino_idx i) as [k|] eqn:Ek.
      + destruct (index_get light_link a k) as [x| | |] eqn:E; try discriminate H. cbn [unwrap andthen] in H.
        apply index_zero in E as (rc & Hr & E). unfold light_link in E.
        pose proof (ino_idx_some i k rc H0 Ek Hr) as Hat. destruct (ftype_of rc); try discriminate E. cbn [bind] in E.
        destruct (r_payload rc) as [ad sz|f n|t|v] eqn:Ep.
        1,2,4: destruct x as [x|y]; [discriminate E|];
          assert (s' = s /\ r = RError ENOLINK) as [-> ->] by (split; congruence);
          split; auto; split; [apply Hkeep; auto|]; cbn [truthful]; split; auto; right; exists k, rc; split; auto; intros t0; rewrite Ep; intros HH; discriminate HH.
        assert (x = inl t) by congruence. subst x. assert (s' = s /\ r = RData t) as [-> ->] by (split; congruence).
        split; auto. split; [apply Hkeep; auto|]. cbn [truthful]. exists k, rc. auto.
      + apply ino_idx_none in Ek. assert (s' = s /\ r = RError ENOLINK) as [-> ->] by (split; congruence).
        split; auto. split; [apply Hkeep; auto|]. cbn [truthful]. auto.
    - (* Open *)
      unfold do_open, ino_from in H. destruct (N.eqb_spec i 0) as [|H0]; [discriminate H|]. cbn [andthen] in H.
      pose proof (proj2 Ho i) as Hi. destruct (open_find i (f_open s)) as [[data c]|] eqn:Ef.
      + assert (s' = mkFs (f_names s) (f_attrs s) (open_set i (data, c + 1) (f_open s)) /\ r = ROpened) as [-> ->] by (split; congruence).
        destruct Hi as (Hc & Hoc & Hd). split; [exact Hs|]. split.
        * apply open_set_keeps; auto; try lia.
          -- intros k Hk. cbn [opens releases]. destruct (N.eqb_spec i k); [congruence|]. auto.
          -- cbn [opens releases]. rewrite N.eqb_refl. lia.
        * cbn [truthful]. exists data. now apply content_any.
      + destruct (ino_idx i) as [k|] eqn:Ek.
        * destruct (index_get light_file a k) as [x| | |] eqn:Eg; try discriminate H. cbn [unwrap andthen] in H.
          apply index_zero in Eg as (r0 & Hr0 & Eg). pose proof (ino_idx_some i k r0 H0 Ek Hr0) as Hat.
          unfold light_file in Eg. destruct (ftype_of r0) as [ty| | |] eqn:Ety; try discriminate Eg. cbn [bind] in Eg.
          destruct (r_payload r0) as [addr sz|f n|t|v] eqn:Ep.
          -- assert (x = inl addr) by congruence. subst x.
             destruct (a_fetch a addr) as [data| | |] eqn:Efe.
             ++ assert (s' = mkFs (f_names s) (f_attrs s) (open_set i (data, 1) (f_open s)) /\ r = ROpened) as [-> ->] by (split; congruence).
                assert (Hc : content_of a i data) by (exists k, r0, addr, sz; auto).
                split; [exact Hs|]. split.
                ** apply open_set_keeps; auto; try lia.
                   --- intros k' Hk'. cbn [opens releases]. destruct (N.eqb_spec i k'); [congruence|]. auto.
                   --- cbn [opens releases]. rewrite N.eqb_refl. lia.
                ** cbn [truthful]. exists data. now apply content_any.
             ++ assert (s' = s /\ r = RError ENOMEDIUM) as [-> ->] by (split; congruence). split; auto. split; [apply Hkeep; auto|].
                cbn [truthful]. exists k, r0, addr, sz. auto.
             ++ assert (s' = s /\ r = RError EIO) as [-> ->] by (split; congruence). split; auto. split; [apply Hkeep; auto|].
                cbn [truthful]. exists k, r0, addr, sz. auto.
             ++ assert (s' = s /\ r = RError EIO) as [-> ->] by (split; congruence). split; auto. split; [apply Hkeep; auto|].
                cbn [truthful]. exists k, r0, addr, sz. auto.
          -- unfold ftype_of in Ety. rewrite Ep in Ety. assert (ty = FtDir) by congruence. subst ty. assert (x = Datatypes.inr FtDir) by congruence. subst x.
             assert (s' = s /\ r = RError EISDIR) as [-> ->] by (split; congruence). split; auto. split; [apply Hkeep; auto|].
             cbn [truthful]. eexists. right. exists k, r0, f, n. auto.
          -- unfold ftype_of in Ety. rewrite Ep in Ety. assert (ty = FtLink) by congruence. subst ty. assert (x = Datatypes.inr FtLink) by congruence. subst x.
             assert (s' = s /\ r = RError ENOENT) as [-> ->] by (split; congruence). split; auto. split; [apply Hkeep; auto|].
             cbn [truthful]. exists k, r0, t. auto.
          -- unfold ftype_of in Ety. rewrite Ep in Ety. discriminate Ety.
        * apply ino_idx_none in Ek. assert (s' = s /\ r = RError EISDIR) as [-> ->] by (split; congruence). split; auto. split; [apply Hkeep; auto|].
          cbn [truthful]. exists root. left. auto.
    - (* Read *)
      unfold do_read, ino_from in H. destruct (N.eqb_spec i 0) as [|H0]; [discriminate H|]. cbn [andthen] in H.
      pose proof (proj2 Ho i) as Hi. destruct (open_find i (f_open s)) as [[data c]|] eqn:Ef; [|discriminate H]. cbv zeta in H.
      destruct (N.ltb_spec (N.of_nat (length data)) o) as [|Hoff]; [discriminate H|].
      destruct Hi as (Hc & Hoc & Hd).
      assert (s' = s /\ r = RData (get_slice data o (N.min z (N.of_nat (length data) - o)))) as [-> ->] by (split; congruence).
      split; auto. split; [apply Hkeep; auto|]. cbn [truthful]. split; [lia|]. exists data. split; [now apply content_any|]. split; auto.
      unfold get_slice. set (t := skipn (N.to_nat o) data).
      assert (Hlen : length t = (length data - N.to_nat o)%nat) by apply skipn_length.
      destruct (N.le_gt_cases z (N.of_nat (length data) - o)).
      + now rewrite N.min_l.
      + rewrite N.min_r by lia. rewrite !firstn_all2; auto; lia.
    - (* Release *)
      unfold do_release, ino_from in H. destruct (N.eqb_spec i 0) as [|H0]; [discriminate H|]. cbn [andthen] in H.
      pose proof (proj2 Ho i) as Hi. destruct (open_find i (f_open s)) as [[data c]|] eqn:Ef.
      + destruct Hi as (Hc & Hoc & Hcont).
        assert (s' = mkFs (f_names s) (f_attrs s) (if c - 1 =? 0 then lru_drop N.eqb i (f_open s) else open_set i (data, c - 1) (f_open s)) /\ r = ROk) as [-> ->] by (split; congruence).
        split; [exact Hs|]. split; [|cbn [truthful]; lia].
        destruct (N.eqb_spec (c - 1) 0) as [E|E].
        * split.
          -- apply lru_drop_nodup, Ho. apply N.eqb_eq.
          -- intros k. unfold open_find. cbn [f_open]. rewrite (lru_find_drop N.eqb N.eqb_eq), opens_app, releases_app.
             destruct (N.eqb_spec k i) as [->|Hne].
             ++ cbn [opens releases]. rewrite N.eqb_refl. lia.
             ++ pose proof (proj2 Ho k) as Hk. cbn [opens releases]. destruct (N.eqb_spec i k); [congruence|]. rewrite !N.add_0_r. exact Hk.
        * apply open_set_keeps; auto; try lia.
          -- intros k Hk. cbn [opens releases]. destruct (N.eqb_spec i k); [congruence|]. auto.
          -- cbn [opens releases]. rewrite N.eqb_refl. lia.
      + assert (s' = s /\ r = RError ENOENT) as [-> ->] by (split; congruence).
        split; auto. split; [apply Hkeep; auto|]. cbn [truthful]. congruence.
    - (* Opendir *)
      unfold do_opendir, ino_from in H. destruct (N.eqb_spec i 0) as [|H0]; [discriminate H|]. cbn [andthen] in H.
      destruct (ino_idx i) as [k|] eqn:Ek.
      + destruct (index_get light_dir a k) as [x| | |] eqn:E; try discriminate H. cbn [unwrap andthen] in H.
        apply index_zero in E as (rc & Hr & E). unfold light_dir in E.
        pose proof (ino_idx_some i k rc H0 Ek Hr) as Hat. destruct (ftype_of rc); try discriminate E. cbn [bind] in E.
        destruct (r_payload rc) as [ad sz|f n|t|v] eqn:Ep.
        1,3,4: destruct x as [x|y]; [discriminate E|];
          assert (s' = s /\ r = RError ENOTDIR) as [-> ->] by (split; congruence);
          split; auto; split; [apply Hkeep; auto|]; cbn [truthful]; split; auto; exists k, rc; split; auto; intros f0 n0; rewrite Ep; intros HH; discriminate HH.
        assert (x = inl (as_u32 f, as_u32 n)) by congruence. subst x. assert (s' = s /\ r = ROpened) as [-> ->] by (split; congruence).
        split; auto. split; [apply Hkeep; auto|]. cbn [truthful]. eexists. right. exists k, rc, f, n. auto.
      + apply ino_idx_none in Ek. assert (s' = s /\ r = ROpened) as [-> ->] by (split; congruence).
        split; auto. split; [apply Hkeep; auto|]. cbn [truthful]. exists root. left. auto.
    - destruct (readdir_any s i o g s' r Hs H) as (K1 & K2 & K3 & l & -> & K4). split; [exact K1|]. split; [apply Hkeep; auto|]. exact K4.
    - assert (s' = s /\ r = ROk) as [-> ->] by (split; congruence). split; [exact Hs|]. split; [apply Hkeep; auto|exact I].
  Qed.

  Lemma served_any h s : served a root h s -> finv s /\ oinv h s.
  Proof.
    induction 1 as [|h s q s' r Hs [IH1 IH2] Hq].
    - split; [apply finv_new|]. split; [constructor|]. intros i. reflexivity.
    - destruct (step_any h s q s' r IH1 IH2 Hq) as (K1 & K2 & _). auto.
  Qed.
End Any.

Section Healthy.
  Variable a : archive.
  Variable root : range.
  Hypothesis Hh : healthy a root.
  Local Notation recs := (a_recs a).
  Local Notation zero := (proj1 (he_index _ _ Hh)).

  Lemma index_any {A} (f : N -> rec -> res A) i r : at_ recs i = Some r -> index_get f a i = f i r.
  Proof.
    intros Hr. pose proof (ForeignProofs.at_in _ _ _ Hr) as [_ Hlt]. destruct (he_index _ _ Hh) as [Hz Hc]. unfold index_get, entry_index. rewrite Hz, N.add_0_l.
    rewrite (proj2 (N.ltb_lt _ _)) by lia.
    now rewrite (rec_at_ok _ _ _ Hr).
  Qed.

  Lemma ftype_total r : In r recs -> exists k, ftype_of r = Ok k.
  Proof. intros Hr. unfold ftype_of. pose proof (he_kind _ _ Hh r) as Hk. destruct (r_payload r) as [| | |v]; eauto. now destruct (Hk v Hr). Qed.

  Lemma build_total i r : at_ recs i = Some r -> exists t, index_get build_attr a i = Ok t.
  Proof.
    intros Hr. rewrite (index_any _ _ _ Hr). pose proof (proj1 (ForeignProofs.at_in _ _ _ Hr)) as Hin. unfold build_attr, ftype_of.
    pose proof (he_time _ _ Hh r Hin) as Ht. apply N.ltb_lt in Ht.
    destruct (r_payload r) as [ad sz|f n|t|v] eqn:Ep; cbn [bind].
    - rewrite (round_small sz) by (eapply he_file; eauto). cbn [bind]. rewrite Ht. eexists. reflexivity.
    - unfold u64. rewrite (proj2 (N.ltb_lt _ _)) by (eapply he_dir; eauto). cbn [bind]. rewrite Ht. eexists. reflexivity.
    - rewrite (round_small (N.of_nat (length t))) by (eapply he_link; eauto). cbn [bind]. rewrite Ht. eexists. reflexivity.
    - now destruct (he_kind _ _ Hh r v Hin).
  Qed.

  Lemma cached_total s i r : finv a root s -> at_ recs i = Some r -> exists s' t, cached_attr a s i = (s', Ok t).
  Proof.
    intros Hs Hr. unfold cached_attr, lru_get. destruct (lru_find N.eqb i (f_attrs s)); [eauto|].
    destruct (build_total i r Hr) as [t ->]. cbn [unwrap]. eauto.
  Qed.

  Lemma lists_within ino rg : lists a root ino rg -> fst rg + snd rg <= N.of_nat (length recs).
  Proof.
    intros [[_ ->]|(i & r & f & n & (_ & _ & Hr) & Hd & ->)]; [apply (he_root _ _ Hh)|].
    apply ForeignProofs.at_in in Hr as [Hin _]. apply (he_dir _ _ Hh r f n Hin Hd).
  Qed.

  Lemma lists_range ino rg : lists a root ino rg -> ino <> 0 /\ get_entry_range a root ino = Ok rg.
  Proof.
    intros [[-> ->]|(i & r & f & n & Hat & Hd & ->)].
    - split; [easy|]. reflexivity.
    - destruct (at_inode_idx _ _ _ _ Hat) as [Ei H0]. split; auto. unfold get_entry_range. rewrite Ei.
      destruct Hat as (_ & _ & Hr). rewrite (index_any _ _ _ Hr). unfold light_dir, ftype_of. rewrite Hd. reflexivity.
  Qed.

  Lemma resolve_total ino rg nm : lists a root ino rg -> exists v, resolve a root ino nm = Ok v.
  Proof.
    intros Hl. destruct (lists_range _ _ Hl) as [_ Eg]. unfold resolve. rewrite Eg. cbn [unwrap bind].
    pose proof (range_find_any a rg nm) as Hf. destruct (range_find a rg nm) as [o|e| |]; try contradiction; cbn [unwrap bind]; [eauto|].
    destruct Hf as (k & Hk & Hn). pose proof (lists_within _ _ Hl). destruct (ForeignProofs.at_some a (fst rg + k)) as [r Hr]; [lia|congruence].
  Qed.

  Lemma lookup_total s ino rg nm : finv a root s -> lists a root ino rg -> exists s' r, do_lookup a root s ino nm = (s', Ok r).
  Proof.
    intros Hs Hl. unfold do_lookup, ino_from. destruct (lists_range _ _ Hl) as [H0 _]. apply N.eqb_neq in H0 as E0. rewrite E0. cbn [andthen].
    match goal with |- exists s' r, andthen ?y _ = _ => destruct y as [s1 o] eqn:Ex end.
    assert (Hx : finv a root s1 /\ exists v, o = Ok v /\ fname_ok a root (ino, nm) v).
    { pose proof Hs as [Hn Ha]. unfold lru_get in Ex. destruct (lru_find rkey_eqb (ino, nm) (f_names s)) as [v|] eqn:Ef.
      - assert (s1 = mkFs (((ino, nm), v) :: lru_drop rkey_eqb (ino, nm) (f_names s)) (f_attrs s) (f_open s) /\ o = Ok v) as [-> ->] by (split; congruence).
        pose proof (good_get rkey_eqb rkey_eqb_ok _ _ _ _ _ Hn Ef) as Hn'. apply (lru_find_in _ rkey_eqb_ok) in Ef. apply (proj1 Hn) in Ef.
        split; [split; assumption|]. exists v. auto.
      - destruct (resolve_total ino rg nm Hl) as [v Er]. rewrite Er in Ex.
        assert (s1 = mkFs (lru_put rkey_eqb resolve_cap (ino, nm) v (f_names s)) (f_attrs s) (f_open s) /\ o = Ok v) as [-> ->] by (split; congruence).
        pose proof (resolve_any a root zero ino nm v H0 Er) as Hok.
        split; [split; auto; cbn [f_names]; apply good_put; auto; apply rkey_eqb_ok|]. exists v. auto. }
    clear Ex. destruct Hx as (Hs1 & v & -> & Hv). cbn [andthen]. destruct v as [i|]; [|eauto].
    destruct Hv as (_ & r & (rg' & _ & _ & Hr) & _). destruct (cached_total s1 i r Hs1 Hr) as (s2 & t & ->). cbn [andthen]. eauto.
  Qed.

  Lemma parent_total ino rg : lists a root ino rg -> exists p, parent_ino a ino = Ok p.
  Proof.
    intros [[-> _]|(i & r & f & n & Hat & _ & _)]; [exists 1; reflexivity|]. unfold parent_ino.
    destruct (at_inode_idx _ _ _ _ Hat) as [Ei _]. rewrite Ei. destruct Hat as (_ & _ & Hr). rewrite (index_any _ _ _ Hr). unfold light_parent.
    pose proof (he_parent _ _ Hh r (proj1 (ForeignProofs.at_in _ _ _ Hr))) as Hp. destruct (N.eqb_spec (r_parent r) 0) as [E|E]; [cbn [unwrap bind]; eauto|].
    unfold as_u32. rewrite N.mod_small by assumption. destruct (N.eqb_spec (r_parent r) 0); [contradiction|]. cbn [unwrap bind]. eauto.
  Qed.

  Lemma loop_total ino rg full : lists a root ino rg -> forall m off s acc, off + N.of_nat m = snd rg + 2 ->
    exists s' l, readdir_loop a ino rg full (iota off m) s acc = (s', Ok l).
  Proof.
    intros Hl m. induction m as [|m IH]; intros off s acc Hm; cbn [iota readdir_loop]; [eauto|]. cbv zeta.
    destruct (N.eqb_spec off 0) as [E0|E0].
    { destruct (full acc _); [eauto|]. apply IH. lia. }
    destruct (N.eqb_spec off 1) as [E1|E1].
    { destruct (parent_total ino rg Hl) as [p ->]. destruct (full acc _); [eauto|]. apply IH. lia. }
    destruct (N.eqb_spec (off - 2) (snd rg)); [eauto|]. pose proof (lists_within _ _ Hl).
    destruct (ForeignProofs.at_some a (fst rg + (off - 2))) as [r Hr]; [lia|]. rewrite (rec_at_ok _ _ _ Hr). cbn [bind].
    destruct (ftype_total r (proj1 (ForeignProofs.at_in _ _ _ Hr))) as [k ->]. cbn [bind unwrap]. destruct (full acc _); [eauto|]. apply IH. lia.
  Qed.

  Lemma readdir_total s ino rg off full : lists a root ino rg -> exists s' r, do_readdir a root s ino off full = (s', Ok r).
  Proof.
    intros Hl. destruct (lists_range _ _ Hl) as [H0 Eg]. unfold do_readdir, ino_from. apply N.eqb_neq in H0 as E0. rewrite E0. cbn [andthen].
    rewrite Eg. cbn [unwrap andthen]. pose proof (lists_within _ _ Hl). pose proof (he_size _ _ Hh).
    rewrite (proj2 (N.ltb_lt _ _)) by lia. cbv zeta. set (o := if off =? 0 then 0 else off + 1).
    destruct (N.le_gt_cases o (snd rg + 2)) as [Hle|Hgt].
    - destruct (loop_total ino rg full Hl (N.to_nat (snd rg + 2 - o)) o s []) as (s' & l & ->); [lia|]. cbn [andthen]. eauto.
    - replace (N.to_nat (snd rg + 2 - o)) with 0%nat by lia. cbn [iota readdir_loop andthen]. eauto.
  Qed.

  Lemma given_at h s ino t : served a root h s -> given h ino t ->
    exists i r, at_inode a ino i r /\ rec_shows i r t.
  Proof.
    intros Hs [<- (p & nm & Hin)]. induction Hs as [|h s q s' r Hs IH Hq]; [destruct Hin|].
    apply in_app_iff in Hin as [Hin|[Hin|[]]]; [auto|]. assert (q = Lookup p nm /\ r = REntry t) as [-> ->] by (split; congruence).
    destruct (served_any _ _ zero _ _ Hs) as [K1 K2]. destruct (step_any _ _ zero _ _ _ _ _ K1 K2 Hq) as (_ & _ & (i & rc & (rg & _ & _ & Hr) & _ & Ht)).
    exists i, rc. split; auto. destruct Ht as [-> _]. pose proof (proj2 (ForeignProofs.at_in _ _ _ Hr)). pose proof (he_size _ _ Hh).
    split; [lia|]. split; auto. replace (i + 2 - 2) with i by lia. symmetry. apply N.mod_small. lia.
  Qed.

  Lemma known_dir h s ino : served a root h s -> known h ino FtDir -> exists rg, lists a root ino rg.
  Proof.
    intros Hs [[-> _]|(t & Hg & Hk)]; [exists root; left; auto|].
    destruct (given_at h s ino t Hs Hg) as (i & r & Hat & (_ & Hkind & _)). rewrite Hk in Hkind. unfold kind_is in Hkind.
    destruct (r_payload r) as [|f n| |] eqn:Ep; try discriminate Hkind; [|contradiction]. eexists. right. exists i, r, f, n. auto.
  Qed.

  Lemma known_at h s ino k : served a root h s -> known h ino k -> ino = 1 \/ exists i r, at_inode a ino i r /\ In r recs /\ exists k, ftype_of r = Ok k.
  Proof.
    intros Hs [[-> _]|(t & Hg & Hk)]; [auto|]. right. destruct (given_at h s ino t Hs Hg) as (i & r & Hat & _).
    assert (Hin : In r recs) by apply (ForeignProofs.at_in a i r), Hat. exists i, r. split; auto. split; auto. now apply ftype_total.
  Qed.

  Lemma healthy_total h s q : served a root h s -> kernel_like h q -> exists s' r, step a root s q = (s', Ok r).
  Proof.
    intros Hs Hq. destruct (served_any _ _ zero _ _ Hs) as [K1 K2].
    destruct q as [p nm|i|i|i|i o z|i|i|i o g|i]; cbn [kernel_like] in Hq; cbn [step].
    - destruct (known_dir _ _ _ Hs Hq) as [rg Hl]. eapply lookup_total; eauto.
    - destruct Hq as [k Hq]. unfold do_getattr, ino_from. destruct (known_at _ _ _ _ Hs Hq) as [->|(j & r & Hat & Hin & kk & Hk)]; [eexists; eexists; reflexivity|].
      destruct (at_inode_idx _ _ _ _ Hat) as [Ei H0]. apply N.eqb_neq in H0. rewrite H0. cbn [andthen]. rewrite Ei.
      destruct Hat as (_ & _ & Hr). destruct (cached_total s j r K1 Hr) as (s' & t & ->). cbn [andthen]. eauto.
    - destruct Hq as [k Hq]. unfold do_readlink, ino_from. destruct (known_at _ _ _ _ Hs Hq) as [->|(j & r & Hat & Hin & kk & Hk)]; [eexists; eexists; reflexivity|].
      destruct (at_inode_idx _ _ _ _ Hat) as [Ei H0]. apply N.eqb_neq in H0. rewrite H0. cbn [andthen]. rewrite Ei.
      destruct Hat as (_ & _ & Hr). rewrite (index_any _ _ _ Hr). unfold light_link. rewrite Hk. cbn [bind].
      destruct (r_payload r); cbn [unwrap andthen]; eauto.
    - destruct Hq as [k Hq]. unfold do_open, ino_from. destruct (known_at _ _ _ _ Hs Hq) as [->|(j & r & Hat & Hin & kk & Hk)].
      + change (1 =? 0) with false. cbn [andthen]. destruct (open_find 1 (f_open s)) as [[d c]|]; [eauto|]. change (ino_idx 1) with (@None N). eauto.
      + destruct (at_inode_idx _ _ _ _ Hat) as [Ei H0]. apply N.eqb_neq in H0. rewrite H0. cbn [andthen].
        destruct (open_find i (f_open s)) as [[d c]|]; [eauto|]. rewrite Ei.
        destruct Hat as (_ & _ & Hr). rewrite (index_any _ _ _ Hr). unfold light_file. rewrite Hk. cbn [bind].
        unfold ftype_of in Hk. destruct (r_payload r) as [ad sz|f n|t|v]; try discriminate Hk; cbn [unwrap andthen].
        * destruct (a_fetch a ad); eauto.
        * assert (kk = FtDir) by congruence. subst kk. eauto.
        * assert (kk = FtLink) by congruence. subst kk. eauto.
    - destruct Hq as (Hlt & t & Hg & Hoff). destruct (given_at h s i t Hs Hg) as (j & r & Hat & Hsh).
      destruct (at_inode_idx _ _ _ _ Hat) as [Ei H0]. unfold do_read, ino_from. apply N.eqb_neq in H0. rewrite H0. cbn [andthen].
      pose proof (proj2 K2 i) as Hi. destruct (open_find i (f_open s)) as [[data c]|] eqn:Ef; [|lia]. cbv zeta.
      destruct Hi as (_ & _ & (k & r' & addr & size & Ek & Hr' & Ep & Efe)). destruct Hat as (_ & _ & Hr).
      assert (k = j) by congruence. subst k. assert (r' = r) by congruence. subst r'.
      destruct Hsh as (_ & _ & _ & _ & _ & _ & _ & _ & Hz). cbv zeta in Hz. rewrite Ep in Hz. destruct Hz as [Hz _].
      pose proof (he_data _ _ Hh r addr size data (proj1 (ForeignProofs.at_in _ _ _ Hr)) Ep Efe) as Hle.
      destruct (N.ltb_spec (N.of_nat (length data)) o); [lia|]. eauto.
    - destruct Hq as [k Hq]. unfold do_release, ino_from.
      assert (H0 : i <> 0).
      { destruct (known_at _ _ _ _ Hs Hq) as [->|(j & r & Hat & _)]; [easy|]. now apply at_inode_idx in Hat. }
      apply N.eqb_neq in H0. rewrite H0. cbn [andthen]. destruct (open_find i (f_open s)) as [[d c]|]; eauto.
    - destruct Hq as [k Hq]. unfold do_opendir, ino_from. destruct (known_at _ _ _ _ Hs Hq) as [->|(j & r & Hat & Hin & kk & Hk)]; [eexists; eexists; reflexivity|].
      destruct (at_inode_idx _ _ _ _ Hat) as [Ei H0]. apply N.eqb_neq in H0. rewrite H0. cbn [andthen]. rewrite Ei.
      destruct Hat as (_ & _ & Hr). rewrite (index_any _ _ _ Hr). unfold light_dir. rewrite Hk. cbn [bind].
      destruct (r_payload r); cbn [unwrap andthen]; eauto.
    - destruct (known_dir _ _ _ Hs Hq) as [rg Hl]. eapply readdir_total; eauto.
    - eauto.
  Qed.
End Healthy.
