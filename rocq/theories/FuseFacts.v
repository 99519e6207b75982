(** C19-C28: what a mount answers. *)
From Verif Require Export FuseProofs.

(** ** Attributes *)
Lemma div_ceil_spec v k : k <> 0 -> v <= k * div_ceil v k < v + k.
Proof.
  intros Hk. unfold div_ceil. pose proof (N.div_mod v k Hk). pose proof (N.mod_lt v k Hk).
  destruct (N.eqb_spec (v mod k) 0); nia.
Qed.

Lemma div_ceil_mul m k : k <> 0 -> div_ceil (m * k) k = m.
Proof. intros Hk. unfold div_ceil. rewrite N.mod_mul, N.div_mul by assumption. rewrite N.eqb_refl. lia. Qed.

Lemma blocks_spec size : exists pages, div_ceil (div_ceil size 4096 * 4096) 512 = 8 * pages /\ size <= 4096 * pages < size + 4096.
Proof.
  exists (div_ceil size 4096). split.
  - replace (div_ceil size 4096 * 4096) with ((8 * div_ceil size 4096) * 512) by lia. now apply div_ceil_mul.
  - now apply div_ceil_spec.
Qed.

Lemma round_small size : size + 4095 < 2^64 -> u64 (div_ceil size 4096 * 4096) = Ok (div_ceil size 4096 * 4096).
Proof.
  intros H. pose proof (div_ceil_spec size 4096 ltac:(easy)) as Hd. unfold u64.
  enough (div_ceil size 4096 * 4096 < 2^64) as Hl by (now apply N.ltb_lt in Hl as ->). lia.
Qed.

Lemma perm_bits m k : N.testbit (N.land (as_u16 m) 65389) k =
  N.testbit m k && (k <? 16) && negb ((k =? 1) || (k =? 4) || (k =? 7)).
Proof.
  rewrite N.land_spec. unfold as_u16.
  destruct (N.ltb_spec k 16) as [H|H].
  - rewrite N.mod_pow2_bits_low by assumption. rewrite andb_true_r. f_equal.
    assert (Hk : In k (iota 0 16)) by (apply in_iota; cbn; lia). cbn in Hk.
    repeat (destruct Hk as [<-|Hk]; [reflexivity|]). easy.
  - rewrite N.mod_pow2_bits_high by assumption. now rewrite andb_false_r.
Qed.

Section MountFacts.
  Variable a : archive.
  Variable root : range.
  Variable rd : path.
  Hypothesis Hwf : wf a.
  Hypothesis Hm : mounted a root rd.
  Local Notation recs := (a_recs a).

  Lemma build_attr_shows i p nd : astored a i p nd -> sane nd ->
    exists t, index_get build_attr a i = Ok t /\ attr_shows a i p nd t.
  Proof.
    intros (r & Hr & Hp & Hn) [Ht Hs]. rewrite (index_get_ok a Hwf _ _ _ Hr).
    unfold node_of_rec in Hn. unfold build_attr, ftype_of.
    destruct (r_payload r) as [addr size|f nb|t|v] eqn:Ep; try discriminate Hn; injection Hn as <-; cbn [fst snd] in *;
      cbn [meta_of_rec m_mtime] in Ht; apply N.ltb_lt in Ht.
    - cbn [bind]. rewrite (round_small _ Hs). cbn [bind]. rewrite Ht. eexists. split; [reflexivity|].
      unfold attr_shows. cbn -[N.testbit N.land N.mul as_u16 div_ceil]. repeat split; auto using perm_bits, blocks_spec.
    - cbn [bind].
      destruct (wf_dir _ Hwf _ _ _ _ Hr Ep) as [Hb Hk]. pose proof (wf_size _ Hwf).
      assert (Eu : u64 ((nb + 1) * 10) = Ok ((nb + 1) * 10)).
      { unfold u64. rewrite (proj2 (N.ltb_lt _ _)); auto. lia. }
      rewrite Eu. cbn [bind]. rewrite Ht. eexists. split; [reflexivity|].
      unfold attr_shows. cbn -[N.testbit N.land N.mul as_u16 div_ceil]. repeat split; auto using perm_bits.
      exists (iota f (N.to_nat nb)). split; [apply iota_nodup|]. split.
      + intros k. rewrite in_iota, N2Nat.id, Hk. symmetry. apply (child_path a Hwf). right. eauto.
      + rewrite iota_length. lia.
    - cbn [bind]. rewrite (round_small _ Hs). cbn [bind]. rewrite Ht. eexists. split; [reflexivity|].
      unfold attr_shows. cbn -[N.testbit N.land N.mul as_u16 div_ceil]. repeat split; auto using perm_bits, blocks_spec.
  Qed.

  Lemma served_inv h s : served a root h s -> inv a root s.
  Proof.
    induction 1 as [|h s q s' r Hs IH Hq]; [apply inv_nil|].
    pose proof (step_inv a root rd Hwf Hm s q IH) as H. now rewrite Hq in H.
  Qed.

  Lemma denotes_nonzero ino p : denotes a rd ino p -> (ino =? 0) = false.
  Proof. intros [[-> _]|(i & -> & _)]; apply N.eqb_neq; lia. Qed.

  Lemma denotes_rec i p : apath a i p -> exists r nd, at_ recs i = Some r /\ node_of_rec r = Some nd /\ astored a i p nd.
  Proof.
    intros Hp. destruct (has_node a i p Hwf Hp) as [nd (r & Hr & _ & Hn)]. exists r, nd. split; auto. split; auto. exists r. auto.
  Qed.

  Lemma getattr_answer s i p nd : inv a root s -> astored a i p nd -> sane nd ->
    exists t, snd (step a root s (Getattr (i + 2))) = Ok (RAttr t) /\ index_get build_attr a i = Ok t /\ attr_shows a i p nd t.
  Proof.
    intros Hs Hn Hsane. destruct (build_attr_shows i p nd Hn Hsane) as (t & Et & Ht). exists t. split; auto.
    cbn [step]. destruct (getattr_gives a root s (i + 2) Hs) as (_ & _ & ->). unfold pure_getattr, ino_from.
    destruct (N.eqb_spec (i + 2) 0); [lia|]. cbn [bind]. destruct Hn as (r & Hr & _).
    rewrite (idx_of_ino a Hwf _ _ Hr), Et. reflexivity.
  Qed.

  Lemma lookup_answer s ino p nm : inv a root s -> denotes a rd ino p -> is_dir a p ->
    (exists i nd, astored a i (p ++ [nm]) nd /\
       (sane nd -> exists t, snd (step a root s (Lookup ino nm)) = Ok (REntry t) /\ index_get build_attr a i = Ok t /\ attr_shows a i (p ++ [nm]) nd t)) \/
    ((forall i nd, ~ astored a i (p ++ [nm]) nd) /\ snd (step a root s (Lookup ino nm)) = Ok (RError ENOENT)).
  Proof.
    intros Hs Hd Hdir. cbn [step]. destruct (lookup_gives a root s ino nm Hs) as (_ & _ & ->). unfold pure_lookup, ino_from.
    rewrite (denotes_nonzero _ _ Hd). cbn [bind].
    destruct (resolve_spec a root rd Hwf Hm ino p nm Hd Hdir) as [(i & -> & Hi)|[-> Hno]]; cbn [bind].
    - left. destruct (denotes_rec _ _ Hi) as (r & nd & Hr & Hn & Hst). exists i, nd. split; auto. intros Hsane.
      destruct (build_attr_shows i _ nd Hst Hsane) as (t & Et & Ht). exists t. rewrite Et. auto.
    - right. split; auto. intros i nd (r & _ & Hi & _). now apply Hno in Hi.
  Qed.

  (** ** Directories *)
  Lemma ftype_ok r nd : node_of_rec r = Some nd -> ftype_of r = Ok (ftype_kind (fst nd)).
  Proof. unfold node_of_rec, ftype_of. destruct (r_payload r); intros [= <-]; reflexivity. Qed.

  (** The inode of the parent directory of inode [ino]. *)
  Lemma parent_ok ino p : denotes a rd ino p -> exists q, parent_ino a ino = Ok q /\
    (ino = 1 -> q = 1) /\
    (forall i, ino = i + 2 -> (removelast p = [] /\ q = 1) \/ exists j, apath a j (removelast p) /\ q = j + 2).
  Proof.
    intros [[-> ->]|(i & -> & Hp)].
    - exists 1. split; auto. split; auto. intros i Hi. lia.
    - destruct (apath_at _ _ _ Hp) as [r Hr]. unfold parent_ino. rewrite (idx_of_ino a Hwf _ _ Hr), (index_get_ok a Hwf _ _ _ Hr).
      pose proof (wf_size _ Hwf). pose proof (at_some_lt _ _ _ Hr).
      apply apath_inv in Hp as (r' & d & Hr' & Hd & ->). rewrite Hr in Hr'. injection Hr' as <-.
      rewrite removelast_last. unfold light_parent. destruct Hd as [[E ->]|(j & E & Hj)].
      + rewrite E. cbn [N.eqb unwrap bind]. exists 1. split; [reflexivity|]. split; auto.
      + rewrite E. destruct (N.eqb_spec (j + 1) 0); [lia|].
        destruct (apath_at _ _ _ Hj) as [rj Hrj]. pose proof (at_some_lt _ _ _ Hrj).
        assert (Ej : as_u32 (j + 1) = j + 1) by (unfold as_u32; apply N.mod_small; lia). rewrite Ej.
        destruct (N.eqb_spec (j + 1) 0); [lia|]. cbn [unwrap bind]. exists (j + 2). split; [unfold ino_of_idx; do 2 f_equal; lia|].
        split; [lia|]. intros i0 Hi0. right. eauto.
  Qed.

  (** The entry at position [k] of the listing. *)
  Definition child (rg : range) (k : N) : dirent :=
    match at_ recs (fst rg + k) with
    | Some r => mkDirent (fst rg + k + 2) (k + 2) (match ftype_of r with Ok t => t | _ => FtFile end) (r_name r)
    | None => mkDirent 0 0 FtFile []
    end.
  Definition listing_of (ino q : N) (rg : range) : list dirent :=
    mkDirent ino 0 FtDir (b ".") :: mkDirent q 1 FtDir (b "..") :: map (child rg) (iota 0 (N.to_nat (snd rg))).

  Lemma listing_length ino q rg : length (listing_of ino q rg) = N.to_nat (snd rg + 2).
  Proof. unfold listing_of. cbn [length]. rewrite map_length, iota_length. lia. Qed.

  Lemma at_listing ino q rg k : at_ (listing_of ino q rg) (k + 2) = if k <? snd rg then Some (child rg k) else None.
  Proof.
    rewrite at_nth. replace (N.to_nat (k + 2)) with (S (S (N.to_nat k))) by lia. cbn [listing_of nth_error].
    rewrite nth_error_map. destruct (N.ltb_spec k (snd rg)) as [H|H].
    - replace (nth_error (iota 0 (N.to_nat (snd rg))) (N.to_nat k)) with (Some k); auto. symmetry.
      assert (E : iota 0 (N.to_nat (snd rg)) = iota 0 (N.to_nat k) ++ iota k (N.to_nat (snd rg - k))).
      { replace (N.to_nat (snd rg)) with (N.to_nat k + N.to_nat (snd rg - k))%nat by lia. rewrite iota_app. do 2 f_equal. lia. }
      rewrite E, nth_error_app2; rewrite iota_length; [|lia]. rewrite Nat.sub_diag.
      destruct (N.to_nat (snd rg - k)) eqn:E2; [lia|]. reflexivity.
    - replace (nth_error (iota 0 (N.to_nat (snd rg))) (N.to_nat k)) with (@None N); auto. symmetry.
      apply nth_error_None. rewrite iota_length. lia.
  Qed.

  Lemma child_rec rg j d k : apdir a j d -> is_dir_range a j rg -> k < snd rg -> exists r nd,
    at_ recs (fst rg + k) = Some r /\ node_of_rec r = Some nd /\ apath a (fst rg + k) (d ++ [r_name r]) /\
    child rg k = mkDirent (fst rg + k + 2) (k + 2) (ftype_kind (fst nd)) (r_name r).
  Proof.
    intros Hj [Hb Hk] Hlt. destruct (proj1 (Hk (fst rg + k))) as (r & Hr & Ep); [lia|].
    assert (Hp : apath a (fst rg + k) (d ++ [r_name r])) by (apply apath_intro; auto; now rewrite Ep).
    destruct (denotes_rec _ _ Hp) as (r' & nd & Hr' & Hn & _). rewrite Hr in Hr'. injection Hr' as <-.
    exists r, nd. repeat split; auto. unfold child. rewrite Hr, (ftype_ok _ _ Hn). reflexivity.
  Qed.

  Lemma listing_off ino q rg j d i e : apdir a j d -> is_dir_range a j rg ->
    at_ (listing_of ino q rg) i = Some e -> de_off e = i.
  Proof.
    intros Hj Hr H. destruct (N.lt_ge_cases i 2) as [H2|H2].
    - rewrite at_nth in H. assert (i = 0 \/ i = 1) as [-> | ->] by lia; [change (N.to_nat 0) with 0%nat in H|change (N.to_nat 1) with 1%nat in H];
        cbn [listing_of nth_error] in H; injection H as <-; reflexivity.
    - replace i with (i - 2 + 2) in H by lia. rewrite at_listing in H. destruct (N.ltb_spec (i - 2) (snd rg)) as [Hlt|]; [|discriminate].
      injection H as <-. destruct (child_rec rg j d (i - 2) Hj Hr Hlt) as (r & nd & _ & _ & _ & ->). cbn. lia.
  Qed.

  Lemma read_one_ok ino q rg j d i : apdir a j d -> is_dir_range a j rg -> parent_ino a ino = Ok q -> i < snd rg + 2 ->
    exists e, read_one a ino rg i = Ok e /\ at_ (listing_of ino q rg) i = Some e.
  Proof.
    intros Hj Hr Hq Hi. unfold read_one. destruct (N.eqb_spec i 0) as [->|H0].
    { eexists. split; [reflexivity|]. now rewrite at_nth. }
    destruct (N.eqb_spec i 1) as [->|H1].
    { rewrite Hq. eexists. split; [reflexivity|]. now rewrite at_nth. }
    assert (Hlt : i - 2 < snd rg) by lia.
    destruct (child_rec rg j d (i - 2) Hj Hr Hlt) as (r & nd & Er & En & _ & Ec).
    exists (child rg (i - 2)). split.
    - unfold read_child. rewrite (rec_at_ok _ _ _ Er). cbn [bind]. rewrite (ftype_ok _ _ En). cbn [bind unwrap fst snd]. rewrite Ec.
      unfold ino_of_idx. do 2 f_equal. lia.
    - replace i with (i - 2 + 2) at 1 by lia. rewrite at_listing. now rewrite (proj2 (N.ltb_lt _ _)).
  Qed.

  Lemma skipn_at {A} (l : list A) i e : at_ l i = Some e -> skipn (N.to_nat i) l = e :: skipn (N.to_nat (i + 1)) l.
  Proof.
    rewrite at_nth. replace (N.to_nat (i + 1)) with (S (N.to_nat i)) by lia. generalize (N.to_nat i) as k. clear i. intros k. revert l.
    induction k as [|k IH]; intros [|x l] H; try discriminate H; cbn in *; [now injection H as <-|]. now apply IH.
  Qed.

  Lemma pure_readdir_page ino q rg j d full : apdir a j d -> is_dir_range a j rg -> parent_ino a ino = Ok q ->
    forall m off acc, off + N.of_nat m = snd rg + 2 ->
    pure_readdir a ino rg full (iota off m) acc = Ok (page full acc (skipn (N.to_nat off) (listing_of ino q rg))).
  Proof.
    intros Hj Hr Hq m. induction m as [|m IH]; intros off acc Hm'; cbn [iota pure_readdir].
    - rewrite skipn_all2; [reflexivity|]. rewrite listing_length. lia.
    - destruct (read_one_ok ino q rg j d off Hj Hr Hq) as (e & E & Ea); [lia|]. rewrite E. cbn [unwrap bind].
      rewrite (skipn_at _ _ _ Ea). cbn [page]. destruct (full acc e); auto. rewrite IH by lia. reflexivity.
  Qed.

  Lemma readdir_answer s ino p q off f rg j : inv a root s -> denotes a rd ino p -> narrow a ->
    get_entry_range a root ino = Ok rg -> apdir a j p -> is_dir_range a j rg -> parent_ino a ino = Ok q ->
    snd (step a root s (Readdir ino off f)) =
      Ok (RDirents (page f [] (skipn (N.to_nat (if off =? 0 then 0 else off + 1)) (listing_of ino q rg)))).
  Proof.
    intros Hs Hd Hnar Eg Hj Hr Hq. cbn [step]. destruct (readdir_gives a root rd Hwf Hm s ino off f Hs) as (_ & _ & ->).
    unfold pure_dir, ino_from. rewrite (denotes_nonzero _ _ Hd). cbn [bind]. rewrite Eg. cbn [unwrap bind].
    assert (Hlt : snd rg + 2 <? 2 ^ 32 = true). { apply N.ltb_lt. unfold narrow in Hnar. destruct Hr as [Hb _]. lia. }
    rewrite Hlt. set (o := if off =? 0 then 0 else off + 1). cbv zeta.
    destruct (N.le_gt_cases o (snd rg + 2)) as [Ho|Ho].
    - rewrite (pure_readdir_page ino q rg j p f Hj Hr Hq) by lia. reflexivity.
    - replace (N.to_nat (snd rg + 2 - o)) with 0%nat by lia. cbn [iota pure_readdir bind].
      rewrite skipn_all2; [reflexivity|]. rewrite listing_length. lia.
  Qed.

  Lemma iota_sorted m lo : StronglySorted (fun x y => x < y) (iota lo m).
  Proof.
    revert lo. induction m as [|m IH]; intros lo; cbn; constructor; auto.
    apply Forall_forall. intros x Hx. apply in_iota in Hx. lia.
  Qed.

  Lemma sorted_map {A B} (f : A -> B) (R : B -> B -> Prop) l : StronglySorted (fun x y => R (f x) (f y)) l -> StronglySorted R (map f l).
  Proof.
    induction 1 as [|x l Hl IH Hx]; cbn; constructor; auto. apply Forall_map. auto.
  Qed.

  Lemma sorted_weaken {A} (P : A -> Prop) (R R' : A -> A -> Prop) l : Forall P l -> (forall x y, P x -> P y -> R x y -> R' x y) ->
    StronglySorted R l -> StronglySorted R' l.
  Proof.
    intros HP Himp H. induction H as [|x l Hl IH Hx]; constructor; inversion HP; subst; auto.
    apply Forall_forall. intros y Hy. rewrite Forall_forall in *. auto.
  Qed.

  Lemma listing_complete ino p q rg j : apdir a j p -> is_dir_range a j rg ->
    complete_listing a rd ino p (listing_of ino q rg).
  Proof.
    intros Hj Hr. do 3 eexists. split; [reflexivity|]. do 5 (split; [reflexivity|]). split; [|split].
    - apply sorted_map. eapply (sorted_weaken (fun k => k < snd rg)); [| |apply iota_sorted].
      + apply Forall_forall. intros k Hk. apply in_iota in Hk. cbn beta. lia.
      + intros x y Hx Hy Hxy. cbn beta in *.
        destruct (child_rec rg j p x Hj Hr Hx) as (rx & nx & Erx & _ & _ & ->).
        destruct (child_rec rg j p y Hj Hr Hy) as (ry & ny & Ery & _ & _ & ->). cbn [de_name].
        destruct Hr as [Hb Hk]. destruct (range_sorted a Hwf (fst rg) (snd rg) j Hb Hk) as [_ Hso].
        apply (Hso (fst rg + x) (fst rg + y) rx ry); auto; lia.
    - intros k nd nm (r & Hkr & Hp & Hn). apply apath_inv in Hp as (r' & d' & Hr' & Hd' & E). rewrite Hkr in Hr'. injection Hr' as <-.
      apply app_inj_tail in E as [<- ->]. destruct Hr as [Hb Hk].
      assert (Ej : r_parent r = j) by (eapply apdir_inj; eauto).
      assert (Hin : fst rg <= k < fst rg + snd rg) by (apply Hk; eauto).
      exists (child rg (k - fst rg)). split; [apply in_map, in_iota; lia|].
      destruct (child_rec rg j p (k - fst rg) Hj (conj Hb Hk)) as (r2 & n2 & E2 & En2 & _ & ->); [lia|].
      replace (fst rg + (k - fst rg)) with k in * by lia. rewrite Hkr in E2. injection E2 as <-. rewrite Hn in En2. injection En2 as <-. auto.
    - intros d Hd. apply in_map_iff in Hd as (k & <- & Hk). apply in_iota in Hk.
      destruct (child_rec rg j p k Hj Hr) as (r & nd & Er & En & Hp & ->); [lia|]. cbn [de_name de_ino].
      exists (fst rg + k), nd. split; auto. exists r. auto.
  Qed.

  Lemma page_some f l : fits_one f -> l <> [] -> page f [] l <> [].
  Proof.
    intros Hf Hl. destruct l as [|x l]; [easy|]. cbn [page]. rewrite Hf. cbn.
    destruct (page_prefix f [x] l) as (k & -> & _). easy.
  Qed.

  Lemma page_two f x y l : fits_two f -> exists k, page f [] (x :: y :: l) = x :: y :: firstn k l /\ (k <= length l)%nat.
  Proof.
    intros [H1 H2]. cbn [page]. rewrite H1. cbn [app]. rewrite H2. cbn [app].
    destruct (page_prefix f [x; y] l) as (k & -> & Hk). exists k. auto.
  Qed.

  Lemma step_then s q o : snd (step a root s q) = o -> inv a root s -> exists s', step a root s q = (s', o) /\ inv a root s'.
  Proof.
    intros H Hs. pose proof (step_inv a root rd Hwf Hm s q Hs). destruct (step a root s q) as [s' o']. cbn in *. subst. eauto.
  Qed.

  (** One page advances in the listing. *)
  Lemma pages_step {A} (all : list A) m k : firstn m all ++ firstn k (skipn m all) = firstn (m + k) all.
  Proof.
    revert all. induction m as [|m IH]; intros l; cbn; auto. destruct l as [|x l]; cbn; [now rewrite firstn_nil|].
    f_equal. apply IH.
  Qed.

  Lemma last_off all m k off : (forall i e, at_ all i = Some e -> de_off e = i) -> (m + k <= length all)%nat -> (0 < k)%nat ->
    last (map de_off (firstn k (skipn m all))) off = N.of_nat (m + k) - 1.
  Proof.
    intros Hoff Hle Hk. destruct k as [|k]; [lia|].
    assert (Hn : exists e, nth_error all (m + k) = Some e).
    { destruct (nth_error all (m + k)) eqn:E; eauto. apply nth_error_None in E. lia. }
    destruct Hn as [e He].
    assert (E : firstn (S k) (skipn m all) = firstn k (skipn m all) ++ [e]).
    { clear - He. revert all He. induction m as [|m IH]; intros l He.
      - cbn [skipn]. revert l He. induction k as [|k IHk]; intros [|x l] He; try discriminate He; cbn in *.
        + now injection He as <-.
        + f_equal. now apply IHk.
      - destruct l as [|x l]; [discriminate He|]. cbn in *. now apply IH. }
    rewrite E, map_app. cbn [map]. rewrite last_last. rewrite (Hoff (N.of_nat (m + k)) e); [lia|]. now rewrite at_nth, Nat2N.id.
  Qed.

  Lemma listing_pages ino p q rg j : denotes a rd ino p -> narrow a ->
    get_entry_range a root ino = Ok rg -> apdir a j p -> is_dir_range a j rg -> parent_ino a ino = Ok q ->
    forall l s m, inv a root s -> (2 <= m <= length (listing_of ino q rg))%nat ->
    let all := listing_of ino q rg in
    let res := pages a root s ino (N.of_nat m - 1) l in
    (forall r, In r res -> exists x, r = Ok x) /\ length res = length l /\
    exists m', (m <= m' <= length all)%nat /\ replies res = firstn (m' - m) (skipn m all) /\
      (Forall (fun bf => fits_one (snd bf)) l -> In (Ok []) res -> m' = length all) /\
      (Forall (fun bf => fits_one (snd bf)) l -> (m' = length all \/ m + length l <= m')%nat).
  Proof.
    intros Hd Hnar Eg Hj Hr Hq l. induction l as [|[bt f] l IH]; intros s m Hs Hmm all res.
    - unfold res. cbn [pages length]. fold all in Hmm. split; [easy|]. split; auto. exists m. split; [lia|]. split; [now rewrite Nat.sub_diag|]. split; [easy|]. lia.
    - set (s0 := fst (serve a root s bt)). assert (Hs0 : inv a root s0) by now apply serve_inv with rd.
      pose proof (readdir_answer s0 ino p q (N.of_nat m - 1) f rg j Hs0 Hd Hnar Eg Hj Hr Hq) as Ha.
      destruct (N.eqb_spec (N.of_nat m - 1) 0) as [?|_]; [lia|].
      replace (N.to_nat (N.of_nat m - 1 + 1)) with m in Ha by lia. fold all in Ha.
      destruct (step_then _ _ _ Ha Hs0) as (s' & Es & Hs').
      destruct (page_prefix f [] (skipn m all)) as (k & Ek & Hk). cbn [app] in Ek. rewrite Ek in Es.
      assert (Hlen : (m + k <= length all)%nat) by (rewrite skipn_length in Hk; fold all in Hmm; lia).
      assert (Eoff : last (map de_off (firstn k (skipn m all))) (N.of_nat m - 1) = N.of_nat (m + k) - 1).
      { destruct k as [|k]; [cbn; lia|]. apply last_off; [|lia|lia]. intros i e. now apply listing_off with j p. }
      assert (Eres : res = Ok (firstn k (skipn m all)) :: pages a root s' ino (N.of_nat (m + k) - 1) l).
      { unfold res. cbn [pages]. fold s0. rewrite Es, Eoff. reflexivity. }
      destruct (IH s' (m + k)%nat Hs' ltac:(fold all; lia)) as (H1 & H2 & m' & H3 & H4 & H5 & H6).
      fold all in H3, H4, H5, H6. rewrite Eres. split; [|split].
      + intros r [<-|Hi]; eauto.
      + cbn. now rewrite H2.
      + exists m'. split; [lia|]. split; [|split].
        * change (replies (Ok (firstn k (skipn m all)) :: pages a root s' ino (N.of_nat (m + k) - 1) l))
            with (firstn k (skipn m all) ++ replies (pages a root s' ino (N.of_nat (m + k) - 1) l)).
          rewrite H4. replace (m' - m)%nat with (k + (m' - (m + k)))%nat by lia.
          rewrite <- (pages_step (skipn m all) k (m' - (m + k))).
          do 2 f_equal. clear. generalize all as l0. clear. induction m as [|m IH]; intros l0; cbn; auto.
          destruct l0 as [|x l0]; [now rewrite !skipn_nil|]. apply IH.
        * intros Hfit [E|Hi]; [|inversion Hfit; subst; auto]. inversion Hfit as [|? ? Hf _]; subst. cbn in Hf.
          injection E as E. destruct (skipn m all) as [|x t] eqn:Esk.
          -- assert (length (skipn m all) = 0)%nat by (rewrite Esk; auto). rewrite skipn_length in *. lia.
          -- exfalso. apply (page_some f (x :: t) Hf); [easy|]. now rewrite Ek.
        * intros Hfit. inversion Hfit as [|? ? Hf Hl]; subst. cbn in Hf. specialize (H6 Hl). cbn [length].
          destruct H6 as [H6|H6]; [now left|]. destruct k as [|k]; [|right; lia].
          left. destruct (skipn m all) as [|x t] eqn:Esk.
          -- assert (length (skipn m all) = 0)%nat by (rewrite Esk; auto). rewrite skipn_length in *. lia.
          -- exfalso. apply (page_some f (x :: t) Hf); [easy|]. now rewrite Ek.
  Qed.

  Lemma whole_listing s ino p : inv a root s -> denotes a rd ino p -> is_dir a p -> narrow a -> exists all,
    complete_listing a rd ino p all /\
    forall bt f l, fits_two f -> Forall (fun bf => fits_one (snd bf)) l ->
    let res := pages a root s ino 0 ((bt, f) :: l) in
    (forall r, In r res -> exists x, r = Ok x) /\ length res = S (length l) /\
    (exists rest, all = replies res ++ rest) /\
    (In (Ok []) res \/ (length all <= length l)%nat -> replies res = all).
  Proof.
    intros Hs Hd Hdir Hnar. destruct (dir_range a root rd Hwf Hm _ _ Hd Hdir) as (rg & j & Eg & Hj & Hr).
    destruct (parent_ok _ _ Hd) as (q & Hq & _). exists (listing_of ino q rg). split; [now apply listing_complete with j|].
    intros bt f l Hf Hl res. set (all := listing_of ino q rg) in *.
    set (s0 := fst (serve a root s bt)). assert (Hs0 : inv a root s0) by now apply serve_inv with rd.
    pose proof (readdir_answer s0 ino p q 0 f rg j Hs0 Hd Hnar Eg Hj Hr Hq) as Ha.
    change (skipn (N.to_nat (if 0 =? 0 then 0 else 0 + 1)) (listing_of ino q rg)) with all in Ha.
    destruct (step_then _ _ _ Ha Hs0) as (s' & Es & Hs').
    set (kids := map (child rg) (iota 0 (N.to_nat (snd rg)))).
    destruct (page_two f (mkDirent ino 0 FtDir (b ".")) (mkDirent q 1 FtDir (b "..")) kids Hf) as (k & Ek & Hk).
    assert (Ep : page f [] all = firstn (2 + k) all) by exact Ek. rewrite Ep in Es.
    assert (Hlen : (2 + k <= length all)%nat) by (unfold all, listing_of; cbn [length]; fold kids; lia).
    assert (Eoff : last (map de_off (firstn (2 + k) all)) 0 = N.of_nat (2 + k) - 1).
    { change all with (skipn 0 all). apply (last_off all 0 (2 + k) 0); [|lia|lia]. intros i e. now apply listing_off with j p. }
    assert (Eres : res = Ok (firstn (2 + k) all) :: pages a root s' ino (N.of_nat (2 + k) - 1) l).
    { unfold res. cbn [pages]. fold s0. rewrite Es. change (2 + k)%nat with (S (S k)) in *. rewrite Eoff. reflexivity. }
    destruct (listing_pages ino p q rg j Hd Hnar Eg Hj Hr Hq l s' (2 + k)%nat Hs' ltac:(fold all; lia)) as (H1 & H2 & m' & H3 & H4 & H5 & H6).
    fold all in H3, H4, H5, H6. specialize (H5 Hl). specialize (H6 Hl). rewrite Eres.
    assert (Erep : replies (Ok (firstn (2 + k) all) :: pages a root s' ino (N.of_nat (2 + k) - 1) l) = firstn m' all).
    { change (replies (Ok (firstn (2 + k) all) :: pages a root s' ino (N.of_nat (2 + k) - 1) l))
        with (firstn (2 + k) all ++ replies (pages a root s' ino (N.of_nat (2 + k) - 1) l)).
      rewrite H4, pages_step. f_equal. lia. }
    split; [|split; [|split]].
    - intros r [<-|Hi]; eauto.
    - cbn [length]. now rewrite H2.
    - exists (skipn m' all). rewrite Erep. symmetry. apply firstn_skipn.
    - rewrite Erep. intros Hdone.
      assert (E : m' = length all); [|rewrite E; apply firstn_all].
      destruct Hdone as [[E|Hi]|Hle]; [|auto|lia]. exfalso. discriminate E.
  Qed.

  (** ** Open files *)
  Lemma opens_app i h x : opens i (h ++ [x]) = opens i h + opens i [x].
  Proof.
    induction h as [|[q r] h IH]; [cbn; lia|]. cbn [app opens].
    destruct q; try exact IH. destruct r as [[]| | |]; try exact IH. rewrite IH. cbn [opens]. lia.
  Qed.
  Lemma releases_app i h x : releases i (h ++ [x]) = releases i h + releases i [x].
  Proof.
    induction h as [|[q r] h IH]; [cbn; lia|]. cbn [app releases].
    destruct q; try exact IH. destruct r as [[]| | |]; try exact IH. rewrite IH. cbn [releases]. lia.
  Qed.

  Definition content_of (ino : N) (data : bytes) : Prop :=
    exists k r addr size, ino_idx ino = Some k /\ at_ recs k = Some r /\ r_payload r = RFile addr size /\ a_fetch a addr = Found data.

  Definition open_inv (h : list (request * res reply)) (s : fs) : Prop :=
    NoDup (map fst (f_open s)) /\
    forall i, match open_find i (f_open s) with
              | Some (data, c) => 0 < c /\ opens i h = releases i h + c /\ content_of i data
              | None => opens i h = releases i h
              end.

  Lemma open_inv_keep h s s' x : open_inv h s -> f_open s' = f_open s -> (forall i, opens i [x] = 0 /\ releases i [x] = 0) -> open_inv (h ++ [x]) s'.
  Proof.
    intros [H1 H2] E Hx. split; rewrite E; auto. intros i. specialize (H2 i). destruct (Hx i) as [Ho Hr].
    rewrite opens_app, releases_app, Ho, Hr, !N.add_0_r. exact H2.
  Qed.

  Lemma open_set_keeps h s i data c x :
    open_inv h s -> 0 < c -> content_of i data ->
    (forall k, k <> i -> opens k [x] = 0 /\ releases k [x] = 0) ->
    opens i h + opens i [x] = releases i h + releases i [x] + c ->
    open_inv (h ++ [x]) (mkFs (f_names s) (f_attrs s) (open_set i (data, c) (f_open s))).
  Proof.
    intros [H1 H2] Hc Hd Hx Hi. split.
    - cbn. constructor; [apply lru_drop_notin, N.eqb_eq|apply lru_drop_nodup; auto; apply N.eqb_eq].
    - intros k. unfold open_find, open_set. cbn [f_open]. rewrite (lru_find_set N.eqb N.eqb_eq), opens_app, releases_app.
      destruct (N.eqb_spec k i) as [->|Hne].
      + split; auto.
      + destruct (Hx k Hne) as [Ho Hr]. rewrite Ho, Hr, !N.add_0_r. apply H2.
  Qed.

  Lemma step_open h s q s' r : inv a root s -> open_inv h s -> step a root s q = (s', Ok r) -> open_inv (h ++ [(q, Ok r)]) s'.
  Proof.
    intros Hs Ho Hq.
    assert (Hkeep : uncached q = true -> open_inv (h ++ [(q, Ok r)]) s').
    { intros Hu. destruct (step_cache a root rd Hwf Hm s q [] Hs) as (_ & _ & Hc). destruct (Hc Hu) as [_ E]. rewrite Hq in E.
      apply open_inv_keep with s; auto. intros i. destruct q; try discriminate Hu; split; reflexivity. }
    destruct q as [p nm|i|i|i|i o z|i|i|i o g|i]; try (now apply Hkeep); clear Hkeep; cbn [step] in Hq.
    - unfold do_open, ino_from in Hq. destruct (N.eqb_spec i 0); [discriminate Hq|]. cbn [andthen] in Hq.
      pose proof (proj2 Ho i) as Hi. destruct (open_find i (f_open s)) as [[data c]|] eqn:Ef.
      + injection Hq as <- <-. apply open_set_keeps; auto; try lia; try tauto.
        * intros k Hk. cbn. destruct (N.eqb_spec i k); [congruence|]. auto.
        * cbn. rewrite N.eqb_refl. lia.
      + destruct (ino_idx i) as [k|] eqn:Ek.
        * destruct (index_get light_file a k) as [x| | |] eqn:Eg; try discriminate Hq. cbn [unwrap andthen] in Hq.
          destruct x as [addr|[| |]].
          -- destruct (a_fetch a addr) as [data| | |] eqn:Efe; injection Hq as <- <-;
               try (apply open_inv_keep with s; auto; intros; split; reflexivity).
             apply open_set_keeps; auto; try lia.
             ++ apply (index_get_some a Hwf) in Eg as (r0 & Hr0 & Eg). unfold light_file in Eg. destruct (ftype_of r0); try discriminate Eg. cbn [bind] in Eg.
                destruct (r_payload r0) as [ad sz| | |] eqn:Ep; try discriminate Eg. injection Eg as ->.
                exists k, r0, addr, sz. auto.
             ++ intros k' Hk'. cbn. destruct (N.eqb_spec i k'); [congruence|]. auto.
             ++ cbn. rewrite N.eqb_refl. lia.
          -- discriminate Hq.
          -- injection Hq as <- <-. apply open_inv_keep with s; auto; intros; split; reflexivity.
          -- injection Hq as <- <-. apply open_inv_keep with s; auto; intros; split; reflexivity.
        * injection Hq as <- <-. apply open_inv_keep with s; auto; intros; split; reflexivity.
    - unfold do_read, ino_from in Hq. destruct (N.eqb_spec i 0); [discriminate Hq|]. cbn [andthen] in Hq.
      destruct (open_find i (f_open s)) as [[data c]|]; [|discriminate Hq]. cbv zeta in Hq.
      destruct (_ <? o); [discriminate Hq|]. injection Hq as <- <-. apply open_inv_keep with s; auto; intros; split; reflexivity.
    - unfold do_release, ino_from in Hq. destruct (N.eqb_spec i 0); [discriminate Hq|]. cbn [andthen] in Hq.
      pose proof (proj2 Ho i) as Hi. destruct (open_find i (f_open s)) as [[data c]|] eqn:Ef.
      + injection Hq as <- <-. destruct Hi as (Hc & Ec & Hcont). destruct (N.eqb_spec (c - 1) 0) as [E|E].
        * split.
          -- apply lru_drop_nodup, Ho. apply N.eqb_eq.
          -- intros k. unfold open_find. cbn [f_open]. rewrite (lru_find_drop N.eqb N.eqb_eq), opens_app, releases_app.
             destruct (N.eqb_spec k i) as [->|Hne].
             ++ cbn. rewrite N.eqb_refl. lia.
             ++ pose proof (proj2 Ho k) as Hk. cbn. destruct (N.eqb_spec i k); [congruence|]. rewrite !N.add_0_r. exact Hk.
        * apply open_set_keeps; auto; try lia.
          -- intros k Hk. cbn. destruct (N.eqb_spec i k); [congruence|]. auto.
          -- cbn. rewrite N.eqb_refl. lia.
      + injection Hq as <- <-. apply open_inv_keep with s; auto; intros; split; reflexivity.
  Qed.

  Lemma served_open h s : served a root h s -> open_inv h s.
  Proof.
    induction 1 as [|h s q s' r Hs IH Hq].
    - split; [constructor|]. intros i. reflexivity.
    - eapply step_open; eauto. eapply served_inv; eauto.
  Qed.

  Lemma content_file ino p data : denotes a rd ino p -> content_of ino data -> file_data a ino data.
  Proof.
    intros [[-> _]|(i & -> & Hp)] (k & r & addr & size & Ek & Hr & Ep & Ef); [discriminate Ek|].
    destruct (apath_at _ _ _ Hp) as [r' Hr']. rewrite (idx_of_ino a Hwf _ _ Hr') in Ek. injection Ek as <-.
    rewrite Hr in Hr'. injection Hr' as <-. exists i, p, size, addr, (meta_of_rec r). split; auto. split; auto.
    exists r. split; auto. split; auto. unfold node_of_rec. now rewrite Ep.
  Qed.

  Lemma read_answer h s ino p : served a root h s -> denotes a rd ino p -> releases ino h < opens ino h ->
    exists data, file_data a ino data /\
      forall off size, off <= N.of_nat (length data) ->
        step a root s (Read ino off size) = (s, Ok (RData (firstn (N.to_nat size) (skipn (N.to_nat off) data)))).
  Proof.
    intros Hs Hd Hlt. pose proof (proj2 (served_open _ _ Hs) ino) as Ho. destruct (open_find ino (f_open s)) as [[data c]|] eqn:E; [|lia].
    destruct Ho as (Hc & _ & Hcont). exists data. split; [eapply content_file; eauto|]. intros off size Hoff.
    cbn [step]. unfold do_read, ino_from. rewrite (denotes_nonzero _ _ Hd). cbn [andthen]. rewrite E. cbv zeta.
    destruct (N.ltb_spec (N.of_nat (length data)) off); [lia|]. do 3 f_equal. unfold get_slice.
    set (sz := N.to_nat size). set (t := skipn (N.to_nat off) data).
    assert (Hl : length t = (length data - N.to_nat off)%nat) by apply skipn_length.
    destruct (N.le_gt_cases size (N.of_nat (length data) - off)).
    - now rewrite N.min_l.
    - rewrite N.min_r by lia. rewrite !firstn_all2; auto; lia.
  Qed.

  (** ** The other requests *)
  Lemma open_answer h s i p nd : served a root h s -> astored a i p nd ->
    snd (step a root s (Open (i + 2))) =
    Ok (match fst nd with
        | KDir => RError EISDIR
        | KLink _ => RError ENOENT
        | KFile _ addr => match a_fetch a addr with
                          | Found _ => ROpened
                          | MissingPack => RError ENOMEDIUM
                          | _ => RError EIO
                          end
        end).
  Proof.
    intros Hs (r & Hr & Hp & Hn). cbn [step]. unfold do_open, ino_from. destruct (N.eqb_spec (i + 2) 0); [lia|]. cbn [andthen].
    pose proof (proj2 (served_open _ _ Hs) (i + 2)) as Ho. unfold node_of_rec in Hn.
    destruct (open_find (i + 2) (f_open s)) as [[data c]|] eqn:E.
    - destruct Ho as (_ & _ & (k & r' & addr & size & Ek & Hr' & Ep & Ef)).
      rewrite (idx_of_ino a Hwf _ _ Hr) in Ek. injection Ek as <-. rewrite Hr in Hr'. injection Hr' as <-.
      rewrite Ep in Hn. injection Hn as <-. cbn [fst snd]. now rewrite Ef.
    - rewrite (idx_of_ino a Hwf _ _ Hr), (index_get_ok a Hwf _ _ _ Hr). unfold light_file, ftype_of.
      destruct (r_payload r) as [addr size|f nb|t|v]; try discriminate Hn; injection Hn as <-; cbn; auto.
      destruct (a_fetch a addr); reflexivity.
  Qed.

  Lemma readlink_answer s i p nd : astored a i p nd ->
    step a root s (Readlink (i + 2)) = (s, Ok (match fst nd with KLink t => RData t | _ => RError ENOLINK end)).
  Proof.
    intros (r & Hr & Hp & Hn). cbn [step]. unfold do_readlink, ino_from. destruct (N.eqb_spec (i + 2) 0); [lia|]. cbn [andthen].
    rewrite (idx_of_ino a Hwf _ _ Hr), (index_get_ok a Hwf _ _ _ Hr). unfold light_link, ftype_of. unfold node_of_rec in Hn.
    destruct (r_payload r); try discriminate Hn; injection Hn as <-; reflexivity.
  Qed.

  Lemma opendir_answer s i p nd : astored a i p nd ->
    step a root s (Opendir (i + 2)) = (s, Ok (match fst nd with KDir => ROpened | _ => RError ENOTDIR end)).
  Proof.
    intros (r & Hr & Hp & Hn). cbn [step]. unfold do_opendir, ino_from. destruct (N.eqb_spec (i + 2) 0); [lia|]. cbn [andthen].
    rewrite (idx_of_ino a Hwf _ _ Hr), (index_get_ok a Hwf _ _ _ Hr). unfold light_dir, ftype_of. unfold node_of_rec in Hn.
    destruct (r_payload r); try discriminate Hn; injection Hn as <-; reflexivity.
  Qed.

  Lemma release_answer h s i : served a root h s -> i <> 0 ->
    snd (step a root s (Release i)) = Ok (if releases i h <? opens i h then ROk else RError ENOENT).
  Proof.
    intros Hs Hi. pose proof (proj2 (served_open _ _ Hs) i) as Ho. cbn [step]. unfold do_release, ino_from.
    destruct (N.eqb_spec i 0); [easy|]. cbn [andthen]. destruct (open_find i (f_open s)) as [[data c]|].
    - destruct Ho as (Hc & -> & _). rewrite (proj2 (N.ltb_lt _ _)) by lia. reflexivity.
    - rewrite Ho, N.ltb_irrefl. reflexivity.
  Qed.

  (** ** No abort *)
  Lemma no_abort h s q : all_sane a -> narrow a -> served a root h s -> legit a rd h q -> exists s' r, step a root s q = (s', Ok r).
  Proof.
    intros Hsane Hnar Hs Hl. pose proof (served_inv _ _ Hs) as Hinv.
    assert (Hok : (exists r, snd (step a root s q) = Ok r) -> exists s' r, step a root s q = (s', Ok r)).
    { intros [r Hr]. destruct (step a root s q) as [s' o]. cbn in Hr. subst. eauto. }
    apply Hok. clear Hok.
    destruct q as [p nm|i|i|i|i o z|i|i|i o g|i]; cbn [legit] in Hl.
    - destruct Hl as (q & Hd & Hdir). destruct (lookup_answer s p q nm Hinv Hd Hdir) as [(i & nd & Hst & H)|[_ ->]]; [|eauto].
      destruct H as (t & -> & _); eauto. 
    - destruct Hl as (p & [[-> ->]|(k & -> & Hp)]).
      + exists (RAttr root_attr). reflexivity.
      + destruct (denotes_rec _ _ Hp) as (r & nd & _ & _ & Hst). destruct (getattr_answer s k p nd Hinv Hst) as (t & -> & _); eauto.
    - destruct Hl as (p & [[-> ->]|(k & -> & Hp)]).
      + eexists. reflexivity.
      + destruct (denotes_rec _ _ Hp) as (r & nd & _ & _ & Hst). rewrite (readlink_answer s k p nd Hst). eexists. reflexivity.
    - destruct Hl as (p & [[-> ->]|(k & -> & Hp)]).
      + cbn [step]. unfold do_open. change (ino_from 1) with (Ok 1). cbn [andthen]. destruct (open_find 1 (f_open s)) as [[d c]|]; eexists; reflexivity.
      + destruct (denotes_rec _ _ Hp) as (r & nd & _ & _ & Hst). rewrite (open_answer h s k p nd Hs Hst). eauto.
    - destruct Hl as ((p & Hd) & Hlt & Hoff). destruct (read_answer h s i p Hs Hd Hlt) as (data & Hf & H).
      rewrite (H o z (Hoff _ Hf)). eexists. reflexivity.
    - rewrite (release_answer h s i Hs Hl). eauto.
    - destruct Hl as (p & [[-> ->]|(k & -> & Hp)]).
      + eexists. reflexivity.
      + destruct (denotes_rec _ _ Hp) as (r & nd & _ & _ & Hst). rewrite (opendir_answer s k p nd Hst). eexists. reflexivity.
    - destruct Hl as (p & Hd & Hdir). destruct (dir_range a root rd Hwf Hm _ _ Hd Hdir) as (rg & j & Eg & Hj & Hr).
      destruct (parent_ok _ _ Hd) as (q & Hq & _). rewrite (readdir_answer s i p q o g rg j Hinv Hd Hnar Eg Hj Hr Hq). eauto.
    - eexists. reflexivity.
  Qed.

  (** ** ".." *)
  Lemma dotdot_answer s ino p off f l d : inv a root s -> denotes a rd ino p -> is_dir a p -> narrow a ->
    snd (step a root s (Readdir ino off f)) = Ok (RDirents l) -> In d l -> de_off d = 1 ->
    de_name d = b ".." /\ parent_ino a ino = Ok (de_ino d).
  Proof.
    intros Hs Hd Hdir Hnar Hstep Hin Hoff. destruct (dir_range a root rd Hwf Hm _ _ Hd Hdir) as (rg & j & Eg & Hj & Hr).
    destruct (parent_ok _ _ Hd) as (q & Hq & _). rewrite (readdir_answer s ino p q off f rg j Hs Hd Hnar Eg Hj Hr Hq) in Hstep.
    injection Hstep as <-. destruct (page_prefix f [] (skipn (N.to_nat (if off =? 0 then 0 else off + 1)) (listing_of ino q rg))) as (k & E & _).
    rewrite E in Hin. cbn [app] in Hin. apply firstn_in in Hin.
    assert (Hin' : In d (listing_of ino q rg)).
    { clear - Hin. revert Hin. generalize (listing_of ino q rg) as l0, (N.to_nat (if off =? 0 then 0 else off + 1)) as m.
      intros l0 m. revert l0. induction m; intros [|x l0]; cbn; auto. }
    apply in_at in Hin' as [i Hi]. pose proof (listing_off ino q rg j p i d Hj Hr Hi) as Eo. rewrite Hoff in Eo. subst i.
    rewrite at_nth in Hi. change (N.to_nat 1) with 1%nat in Hi. cbn [listing_of nth_error] in Hi. injection Hi as <-. cbn [de_name de_ino]. auto.
  Qed.
End MountFacts.
