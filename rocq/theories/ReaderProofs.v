(** Lookup: binary search and [get_entry]. *)
From Verif Require Export SpecReader RelPathFacts OrderFacts CreatorProofs.

(** ** Binary search *)
Lemma size_nat_gt n : n < 2 ^ N.of_nat (N.size_nat n).
Proof.
  destruct n as [|p]; [cbn; lia|]. cbn [N.size_nat].
  induction p as [p IH|p IH|]; cbn [Pos.size_nat].
  - rewrite Nat2N.inj_succ, N.pow_succ_r'. lia.
  - rewrite Nat2N.inj_succ, N.pow_succ_r'. lia.
  - vm_compute. reflexivity.
Qed.

Section BSearch.
  Variable cmp : N -> res comparison.
  Variable f : N -> comparison.

  Definition mono (lo hi : N) : Prop := forall j k, lo <= j -> j < k -> k < hi ->
    match f j, f k with
    | Lt, _ => True
    | Eq, Gt | Gt, Gt => True
    | _, _ => False
    end.

  Lemma bsearch_spec fuel : forall left right,
    (forall k, left <= k < right -> cmp k = Ok (f k)) -> mono left right ->
    right - left < 2 ^ N.of_nat fuel ->
    match bsearch cmp fuel left right with
    | Ok (Some k) => left <= k < right /\ f k = Eq
    | Ok None => forall k, left <= k < right -> f k <> Eq
    | _ => False
    end.
  Proof.
    induction fuel as [|n IH]; intros left right Hc Hm Hf; cbn [bsearch].
    - destruct (N.ltb_spec left right) as [H|H].
      + change (2 ^ N.of_nat 0) with 1 in Hf. lia.
      + intros k Hk. lia.
    - destruct (N.ltb_spec left right) as [H|H]; [|intros k Hk; lia].
      rewrite Nat2N.inj_succ, N.pow_succ_r' in Hf.
      set (P := 2 ^ N.of_nat n) in *.
      set (mid := left + (right - left) / 2).
      assert (Hmid : left <= mid < right /\ mid - left < P /\ right - (mid + 1) < P).
      { unfold mid. assert (H2 : (right - left) / 2 * 2 <= right - left < ((right - left) / 2 + 1) * 2).
        { pose proof (N.div_mod (right - left) 2). pose proof (N.mod_lt (right - left) 2). lia. }
        lia. }
      rewrite Hc by lia. cbn [bind].
      destruct (f mid) eqn:E.
      + split; [lia|auto].
      + specialize (IH (mid + 1) right).
        assert (Hm' : mono (mid + 1) right) by (intros j k ? ? ?; apply Hm; lia).
        specialize (IH (fun k Hk => Hc k ltac:(lia)) Hm' ltac:(lia)).
        destruct (bsearch cmp n (mid + 1) right) as [[k|]| | |]; auto.
        * destruct IH. split; [lia|auto].
        * intros k Hk. destruct (N.lt_trichotomy k mid) as [Hlt|[->|Hgt]].
          -- specialize (Hm k mid ltac:(lia) Hlt ltac:(lia)). rewrite E in Hm. destruct (f k); easy.
          -- congruence.
          -- apply IH. lia.
      + specialize (IH left mid).
        assert (Hm' : mono left mid) by (intros j k ? ? ?; apply Hm; lia).
        specialize (IH (fun k Hk => Hc k ltac:(lia)) Hm' ltac:(lia)).
        destruct (bsearch cmp n left mid) as [[k|]| | |]; auto.
        * destruct IH. split; [lia|auto].
        * intros k Hk. destruct (N.lt_trichotomy k mid) as [Hlt|[->|Hgt]].
          -- apply IH. lia.
          -- congruence.
          -- specialize (Hm mid k ltac:(lia) Hgt ltac:(lia)). rewrite E in Hm. destruct (f k); easy.
  Qed.
End BSearch.

(** A range of records with strictly increasing names. *)
Definition sorted_range (a : archive) (lo n : N) : Prop :=
  (forall k, lo <= k < lo + n -> exists r, at_ (a_recs a) k = Some r) /\
  (forall j k rj rk, lo <= j -> j < k -> k < lo + n ->
     at_ (a_recs a) j = Some rj -> at_ (a_recs a) k = Some rk -> bytes_lt (r_name rj) (r_name rk)).

Lemma rec_at_ok a i r : at_ (a_recs a) i = Some r -> rec_at a i = Ok r.
Proof. unfold rec_at. now intros ->. Qed.

Theorem range_find_spec a lo n x : sorted_range a lo n ->
  match range_find a (lo, n) x with
  | Ok (Some k) => k < n /\ exists r, at_ (a_recs a) (lo + k) = Some r /\ r_name r = x
  | Ok None => forall k r, k < n -> at_ (a_recs a) (lo + k) = Some r -> r_name r <> x
  | _ => False
  end.
Proof.
  intros [He Hs]. unfold range_find. cbn [fst snd].
  set (f := fun k => match at_ (a_recs a) (lo + k) with Some r => bytes_cmp (r_name r) x | None => Eq end).
  assert (Hc : forall k, 0 <= k < n -> compare_entry a x (lo + k) = Ok (f k)).
  { intros k Hk. destruct (He (lo + k)) as [r Hr]; [lia|]. unfold compare_entry, f.
    rewrite (rec_at_ok _ _ _ Hr), Hr. reflexivity. }
  assert (Hm : mono f 0 n).
  { intros j k H1 H2 H3. unfold f. destruct (He (lo + j)) as [rj Hj]; [lia|]. destruct (He (lo + k)) as [rk Hk]; [lia|].
    rewrite Hj, Hk. assert (Hlt : bytes_lt (r_name rj) (r_name rk)) by (eapply (Hs (lo + j) (lo + k)); eauto; lia).
    destruct (bytes_cmp (r_name rj) x) eqn:E1; auto.
    - apply bytes_cmp_eq in E1. rewrite E1 in Hlt. apply bytes_gt_lt in Hlt. now rewrite Hlt.
    - apply bytes_gt_lt in E1. assert (H := bytes_lt_trans _ _ _ E1 Hlt). apply bytes_gt_lt in H. now rewrite H. }
  assert (Hf : n - 0 < 2 ^ N.of_nat (S (N.size_nat n))).
  { rewrite Nat2N.inj_succ, N.pow_succ_r'. pose proof (size_nat_gt n). lia. }
  pose proof (bsearch_spec _ f _ 0 n Hc Hm Hf) as H.
  destruct (bsearch _ _ 0 n) as [[k|]| | |]; auto.
  - destruct H as [Hk E]. split; [lia|]. destruct (He (lo + k)) as [r Hr]; [lia|]. exists r. split; auto.
    unfold f in E. rewrite Hr in E. now apply bytes_cmp_eq.
  - intros k r Hk Hr E. apply (H k); [lia|]. unfold f. rewrite Hr. now apply bytes_cmp_eq.
Qed.

(** ** Paths in a well-formed table *)
Section Wf.
  Variable a : archive.
  Hypothesis Hwf : wf a.
  Local Notation recs := (a_recs a).
  Local Notation n := (N.of_nat (length (a_recs a))).

  Definition apdir (j : N) (d : path) : Prop := (j = 0 /\ d = []) \/ (exists i, j = i + 1 /\ apath a i d).

  Lemma apath_inv i p : apath a i p -> exists r d, at_ recs i = Some r /\ apdir (r_parent r) d /\ p = d ++ [r_name r].
  Proof.
    intros H. destruct H as [i r Hr Hp|i r j p Hr Hp Hj].
    - exists r, []. split; auto. split; auto. now left.
    - exists r, p. split; auto. split; auto. right. eauto.
  Qed.

  Lemma apath_intro i r d : at_ recs i = Some r -> apdir (r_parent r) d -> apath a i (d ++ [r_name r]).
  Proof.
    intros Hr [[H1 ->]|(j & H1 & H2)].
    - now apply apath_top.
    - now apply apath_sub with j.
  Qed.

  Lemma apath_at i p : apath a i p -> exists r, at_ recs i = Some r.
  Proof. intros H. destruct H; eauto. Qed.

  Lemma apath_nonempty i p : apath a i p -> p <> [].
  Proof. intros H. destruct H; [easy|]. now destruct p. Qed.

  Lemma apath_det i p q : apath a i p -> apath a i q -> p = q.
  Proof.
    intros H. revert q. induction H as [i r Hr Hp|i r j p Hr Hp Hj IH]; intros q Hq;
      destruct Hq as [i r' Hr' Hp'|i r' j' q Hr' Hp' Hj']; rewrite Hr in Hr'; injection Hr' as <-; auto; try lia.
    assert (j' = j) as -> by lia. now rewrite (IH _ Hj').
  Qed.

  Lemma apath_total i : i < n -> exists p, apath a i p.
  Proof.
    induction i as [i IH] using (well_founded_induction N.lt_wf_0). intros Hi.
    destruct (at_lt_some recs i Hi) as [r Hr].
    destruct (wf_parent _ Hwf _ _ Hr) as [Hp|(j & rj & f & nb & Hp & Hj & Hrj & _)].
    - exists [r_name r]. now apply apath_top.
    - destruct (IH j Hj) as [p Hpj]; [apply at_some_lt in Hrj; auto|]. exists (p ++ [r_name r]).
      now apply apath_sub with j.
  Qed.

  Lemma rec_unique i j ri rj : at_ recs i = Some ri -> at_ recs j = Some rj ->
    r_parent ri = r_parent rj -> r_name ri = r_name rj -> i = j.
  Proof.
    intros Hi Hj Hp Hn. destruct (N.lt_trichotomy i j) as [H|[H|H]]; auto; exfalso.
    - destruct (wf_sorted _ Hwf _ _ _ _ H Hi Hj) as [L|[_ L]]; [lia|].
      rewrite Hn, bytes_cmp_refl in L. discriminate L.
    - destruct (wf_sorted _ Hwf _ _ _ _ H Hj Hi) as [L|[_ L]]; [lia|].
      rewrite Hn, bytes_cmp_refl in L. discriminate L.
  Qed.

  Lemma apath_inj i j p : apath a i p -> apath a j p -> i = j.
  Proof.
    intros H. revert j. induction H as [i r Hr Hp|i r k p Hr Hp Hk IH]; intros j Hj.
    - apply apath_inv in Hj as (r' & d & Hr' & Hd & Heq).
      destruct d; [|destruct d; discriminate Heq]. injection Heq as Heq.
      destruct Hd as [[Hd _]|(x & _ & Hx)]; [|now apply apath_nonempty in Hx].
      eapply rec_unique; eauto. congruence.
    - apply apath_inv in Hj as (r' & d & Hr' & Hd & Heq). apply app_inj_tail in Heq as [-> Hn].
      destruct Hd as [[_ ->]|(x & Hx & Hxp)]; [now apply apath_nonempty in Hk|].
      specialize (IH _ Hxp). subst x. eapply rec_unique; eauto. congruence.
  Qed.

  Lemma apdir_inj j k d : apdir j d -> apdir k d -> j = k.
  Proof.
    intros [[-> ->]|(i & -> & Hi)] [[-> H]|(i' & -> & Hi')]; auto.
    - now apply apath_nonempty in Hi'.
    - subst. now apply apath_nonempty in Hi.
    - f_equal. eapply apath_inj; eauto.
  Qed.

  (** The children of a directory, by paths. *)
  Lemma child_path d j k : apdir j d ->
    (exists m, apath a k (d ++ [m])) <-> (exists r, at_ recs k = Some r /\ r_parent r = j).
  Proof.
    intros Hd. split.
    - intros [m H]. apply apath_inv in H as (r & d' & Hr & Hd' & Heq). apply app_inj_tail in Heq as [<- _].
      exists r. split; auto. eapply apdir_inj; eauto.
    - intros (r & Hr & <-). exists (r_name r). now apply apath_intro.
  Qed.

  Lemma range_sorted lo cnt j : lo + cnt <= n ->
    (forall k, lo <= k < lo + cnt <-> (exists rk, at_ recs k = Some rk /\ r_parent rk = j)) ->
    sorted_range a lo cnt.
  Proof.
    intros Hb H. split.
    - intros k Hk. apply at_lt_some. lia.
    - intros x y rx ry H1 H2 H3 Hx Hy.
      assert (Px : r_parent rx = j).
      { destruct (proj1 (H x)) as (r & Hr & Hp); [lia|]. congruence. }
      assert (Py : r_parent ry = j).
      { destruct (proj1 (H y)) as (r & Hr & Hp); [lia|]. congruence. }
      destruct (wf_sorted _ Hwf _ _ _ _ H2 Hx Hy) as [L|[_ L]]; [lia|]. exact L.
  Qed.

  Lemma wf_dir_u32 i r first nb : at_ recs i = Some r -> r_payload r = RDir first nb ->
    as_u32 first = first /\ as_u32 nb = nb.
  Proof.
    intros Hr Hp. destruct (wf_dir _ Hwf _ _ _ _ Hr Hp) as [Hb _]. pose proof (wf_size _ Hwf).
    unfold as_u32. split; apply N.mod_small; lia.
  Qed.

  (** Building an entry never fails, and shows the record. *)
  Lemma create_common_ok i r : at_ recs i = Some r ->
    exists c, create_common i r = Ok c /\ forall p, apath a i p -> shows_common a c i p (meta_of_rec r).
  Proof.
    intros Hr. unfold create_common.
    destruct (N.eqb_spec (r_parent r) 0) as [E|E].
    - cbn [bind]. eexists. split; [reflexivity|]. intros p Hp. repeat split.
      apply apath_inv in Hp as (r' & d & Hr' & Hd & ->). rewrite Hr in Hr'. injection Hr' as <-.
      exists d, (r_name r). repeat split; auto. cbn [c_parent].
      destruct Hd as [[_ ->]|(x & Hx & _)]; [auto|lia].
    - destruct (wf_parent _ Hwf _ _ Hr) as [E'|(j & rj & f & nb & Hj & Hlt & Hrj & _)]; [lia|].
      assert (Hu : as_u32 (r_parent r) = j + 1).
      { unfold as_u32. rewrite Hj. apply N.mod_small. apply at_some_lt in Hrj. pose proof (wf_size _ Hwf). lia. }
      rewrite Hu. destruct (N.eqb_spec (j + 1) 0); [lia|]. cbn [bind].
      eexists. split; [reflexivity|]. intros p Hp. repeat split.
      apply apath_inv in Hp as (r' & d & Hr' & Hd & ->). rewrite Hr in Hr'. injection Hr' as <-.
      exists d, (r_name r). repeat split; auto. cbn [c_parent].
      destruct Hd as [[H0 _]|(x & Hx & Hxd)]; [lia|]. replace (j + 1 - 1) with x by lia. exact Hxd.
  Qed.

  Lemma create_entry_full i r p nd : at_ recs i = Some r -> apath a i p -> node_of_rec r = Some nd ->
    exists e, create_entry full_builder a i = Ok e /\ shows a e i p nd.
  Proof.
    intros Hr Hp Hn. unfold create_entry. rewrite (rec_at_ok _ _ _ Hr). cbn [bind].
    destruct (create_common_ok i r Hr) as (c & Hc & Hs). specialize (Hs _ Hp).
    unfold node_of_rec in Hn. unfold full_builder. cbn [b_file b_link b_dir].
    destruct (r_payload r) as [addr size|first nb|t|v] eqn:Ep; try discriminate Hn;
      injection Hn as <-; rewrite Hc; cbn [bind]; eexists; (split; [reflexivity|]).
    - cbn. auto.
    - destruct (wf_dir_u32 _ _ _ _ Hr Ep) as [-> ->]. cbn. split; auto. split; auto.
      intros k. destruct (wf_dir _ Hwf _ _ _ _ Hr Ep) as [_ Hd]. rewrite Hd. symmetry.
      apply child_path. right. eauto.
    - cbn. auto.
  Qed.

  (** ** get_entry *)
  Definition is_dir_range (j : N) (r : range) : Prop :=
    fst r + snd r <= n /\
    forall k, fst r <= k < fst r + snd r <-> (exists rk, at_ recs k = Some rk /\ r_parent rk = j).

  (** What the builder must provide: it succeeds on every record of the table. *)
  Definition total_builder {F L D} (B : builder F L D) : Prop :=
    forall i r, at_ recs i = Some r -> exists e, create_entry B a i = Ok e.

  Lemma full_total : total_builder full_builder.
  Proof.
    intros i r Hr. destruct (apath_total i) as [p Hp]; [now apply at_some_lt in Hr|].
    destruct (node_of_rec r) as [nd|] eqn:En.
    - destruct (create_entry_full i r p nd Hr Hp En) as (e & He & _). eauto.
    - unfold node_of_rec in En. destruct (r_payload r) eqn:Ep; try discriminate En.
      now apply (wf_variant _ Hwf _ _ variant) in Hr.
  Qed.

  Lemma create_entry_dir {F L D} (B : builder F L D) i r0 e : at_ recs i = Some r0 ->
    create_entry B a i = Ok e ->
    match e with
    | GDir rg _ => is_dir_range (i + 1) rg /\ exists f nb, r_payload r0 = RDir f nb
    | _ => forall f nb, r_payload r0 <> RDir f nb
    end.
  Proof.
    intros Hr. unfold create_entry. rewrite (rec_at_ok _ _ _ Hr). cbn [bind].
    destruct (r_payload r0) as [addr size|first nb|t|v] eqn:Ep; cbn; intros H.
    - destruct (b_file B i r0); cbn in H; try discriminate H. injection H as <-. easy.
    - destruct (b_dir B i r0); cbn in H; try discriminate H. injection H as <-.
      destruct (wf_dir_u32 _ _ _ _ Hr Ep) as [-> ->]. split; [|eauto].
      unfold is_dir_range. cbn. apply (wf_dir _ Hwf _ _ _ _ Hr Ep).
    - destruct (b_link B i r0); cbn in H; try discriminate H. injection H as <-. easy.
    - discriminate H.
  Qed.

  (** A path below an entry exists only if the entry is a directory. *)
  Lemma apath_prefix_dir i p m j q : apath a i p -> apath a j (p ++ m :: q) ->
    exists r f nb, at_ recs i = Some r /\ r_payload r = RDir f nb.
  Proof.
    intros Hi. revert j. induction q as [|x q IH] using rev_ind; intros j Hj.
    - apply apath_inv in Hj as (r & d & Hr & Hd & Heq). apply app_inj_tail in Heq as [<- _].
      destruct Hd as [[_ ->]|(k & Hk & Hkp)]; [now apply apath_nonempty in Hi|].
      assert (k = i) by (eapply apath_inj; eauto). subst k.
      destruct (wf_parent _ Hwf _ _ Hr) as [H0|(j' & rj & f & nb & Hp' & _ & Hrj & Hpay)]; [lia|].
      assert (j' = i) by lia. subst j'. exists rj, f, nb. auto.
    - apply apath_inv in Hj as (r & d & Hr & Hd & Heq).
      replace (p ++ m :: q ++ [x]) with ((p ++ m :: q) ++ [x]) in Heq by now rewrite <- app_assoc.
      apply app_inj_tail in Heq as [<- _].
      destruct Hd as [[_ Hd]|(k & _ & Hk)]; [now destruct p|]. now apply IH in Hk.
  Qed.

  Lemma get_entry_in_spec {F L D} (B : builder F L D) : total_builder B ->
    forall comps j d rg, apdir j d -> is_dir_range j rg -> comps <> [] ->
    match get_entry_in B a rg comps with
    | Ok e => exists i, apath a i (d ++ comps) /\ create_entry B a i = Ok e
    | Err x => x = ENotFound /\ forall i, ~ apath a i (d ++ comps)
    | Panic | Diverge => False
    end.
  Proof.
    intros HB comps. induction comps as [|c rest IH]; intros j d rg Hd Hr Hne; [easy|].
    cbn [get_entry_in]. destruct rg as [lo cnt]. destruct Hr as [Hb Hr]. cbn [fst snd] in *.
    pose proof (range_find_spec a lo cnt c (range_sorted lo cnt j Hb Hr)) as Hf.
    destruct (range_find a (lo, cnt) c) as [[k|]| | |]; try easy; cbn [bind].
    - destruct Hf as (Hk & r & Hrk & Hn). unfold range_get. cbn [fst snd].
      assert (Hlt : (k <? cnt) = true) by now apply N.ltb_lt. rewrite Hlt.
      destruct (HB _ _ Hrk) as [e He]. rewrite He. cbn [bind].
      assert (Hpath : apath a (lo + k) (d ++ [c])).
      { rewrite <- Hn. apply apath_intro; auto.
        destruct (proj1 (Hr (lo + k))) as (r' & Hr' & Hp'); [lia|]. rewrite Hrk in Hr'. injection Hr' as <-.
        now rewrite Hp'. }
      destruct rest as [|c2 rest].
      + exists (lo + k). auto.
      + pose proof (create_entry_dir B _ _ _ Hrk He) as Hdir.
        assert (Hnotdir : (forall f nb, r_payload r <> RDir f nb) ->
                  @Err (gentry F L D) ENotFound = Err ENotFound /\ forall i, ~ apath a i (d ++ c :: c2 :: rest)).
        { intros Hnd. split; auto. intros i Hi.
          replace (d ++ c :: c2 :: rest) with ((d ++ [c]) ++ c2 :: rest) in Hi by now rewrite <- app_assoc.
          destruct (apath_prefix_dir _ _ _ _ _ Hpath Hi) as (r' & f & nb & Hr' & Hp').
          rewrite Hrk in Hr'. injection Hr' as <-. now apply Hnd in Hp'. }
        destruct e as [f|l|rg' d'].
        * destruct (Hnotdir Hdir) as [_ H]. auto.
        * destruct (Hnotdir Hdir) as [_ H]. auto.
        * destruct Hdir as [Hrg _].
          specialize (IH (lo + k + 1) (d ++ [c]) rg').
          replace (d ++ c :: c2 :: rest) with ((d ++ [c]) ++ c2 :: rest) by now rewrite <- app_assoc.
          apply IH; auto; [|easy]. right. eauto.
    - split; auto. intros i Hi.
      assert (Hex : exists i', apath a i' (d ++ [c])).
      { clear - Hi. revert i Hi. induction rest as [|x rest IH] using rev_ind; intros i Hi; [eauto|].
        replace (d ++ c :: rest ++ [x]) with ((d ++ c :: rest) ++ [x]) in Hi by now rewrite <- app_assoc.
        apply apath_inv in Hi as (r & d' & _ & Hd' & Heq). apply app_inj_tail in Heq as [<- _].
        destruct Hd' as [[_ H]|(y & _ & Hy)]; [now destruct d|eauto]. }
      destruct Hex as [i' Hi']. apply apath_inv in Hi' as (r & d' & Hr' & Hd' & Heq).
      apply app_inj_tail in Heq as [<- ->].
      assert (Hj : r_parent r = j) by (eapply apdir_inj; eauto).
      assert (Hin : lo <= i' < lo + cnt) by (apply Hr; eauto).
      apply (Hf (i' - lo) r); [lia| |auto]. replace (lo + (i' - lo)) with i' by lia. exact Hr'.
  Qed.

  Lemma root_range : is_dir_range 0 (a_root a).
  Proof. apply (wf_root _ Hwf). Qed.

  Theorem get_entry_spec {F L D} (B : builder F L D) s : total_builder B -> pieces s <> [] ->
    match get_entry B a s with
    | Ok e => exists i, apath a i (pieces s) /\ create_entry B a i = Ok e
    | Err x => x = ENotFound /\ forall i, ~ apath a i (pieces s)
    | Panic | Diverge => False
    end.
  Proof.
    intros HB Hs. unfold get_entry. rewrite iter_pieces.
    apply (get_entry_in_spec B HB (pieces s) 0 [] (a_root a)); auto; [now left|apply root_range].
  Qed.
End Wf.

Lemma get_entry_empty {F L D} (B : builder F L D) a s : pieces s = [] -> get_entry B a s = Panic.
Proof. intros H. unfold get_entry. rewrite iter_pieces, H. reflexivity. Qed.
