(** Proofs about the FUSE server. *)
From Verif Require Export SpecFuse ReaderProofs WriteFacts.

(** ** The LRU cache *)
Section LruFacts.
  Context {K V : Type}.
  Variable eqb : K -> K -> bool.
  Hypothesis eqb_ok : forall x y, eqb x y = true <-> x = y.
  Implicit Types l : list (K * V).

  Lemma lru_find_in k l v : lru_find eqb k l = Some v -> In (k, v) l.
  Proof.
    induction l as [|[k' v'] l IH]; cbn; [easy|]. destruct (eqb k k') eqn:E; intros H.
    - injection H as <-. apply eqb_ok in E as <-. now left.
    - right. auto.
  Qed.

  Lemma lru_find_none k l : lru_find eqb k l = None -> ~ In k (map fst l).
  Proof.
    induction l as [|[k' v'] l IH]; cbn; [easy|]. destruct (eqb k k') eqn:E; [easy|]. intros H [->|Hi].
    - assert (eqb k k = true) by now apply eqb_ok. congruence.
    - now apply IH.
  Qed.

  Lemma lru_find_nodup k v l : NoDup (map fst l) -> In (k, v) l -> lru_find eqb k l = Some v.
  Proof.
    induction l as [|[k' v'] l IH]; cbn; [easy|]. intros Hd [E|Hi]; inversion Hd; subst.
    - injection E as -> ->. assert (eqb k k = true) as -> by now apply eqb_ok. reflexivity.
    - destruct (eqb k k') eqn:E; [|auto]. apply eqb_ok in E as ->. exfalso. apply H1. now apply (in_map fst) in Hi.
  Qed.

  Lemma lru_drop_in k l x : In x (lru_drop eqb k l) <-> In x l /\ fst x <> k.
  Proof.
    unfold lru_drop. rewrite filter_In. split; intros [H1 H2]; split; auto.
    - intros <-. assert (eqb (fst x) (fst x) = true) as E by now apply eqb_ok. rewrite E in H2. discriminate H2.
    - destruct (eqb k (fst x)) eqn:E; auto. apply eqb_ok in E. congruence.
  Qed.

  Lemma lru_drop_nodup k l : NoDup (map fst l) -> NoDup (map fst (lru_drop eqb k l)).
  Proof.
    induction l as [|[k' v'] l IH]; cbn; auto. intros H; inversion H; subst.
    destruct (eqb k k'); cbn; auto. constructor; auto.
    intros Hi. apply H2. apply in_map_iff in Hi as (x & E & Hx). apply lru_drop_in in Hx as [Hx _].
    rewrite <- E. now apply in_map.
  Qed.

  Lemma lru_drop_length k l : (length (lru_drop eqb k l) <= length l)%nat.
  Proof. unfold lru_drop. induction l; cbn; auto. destruct (negb _); cbn; lia. Qed.

  Lemma lru_drop_notin k l : ~ In k (map fst (lru_drop eqb k l)).
  Proof. intros H. apply in_map_iff in H as (x & E & Hx). apply lru_drop_in in Hx. tauto. Qed.

  (** A promoted or inserted binding keeps the table a set of good bindings. *)
  Definition good (P : K -> V -> Prop) (cap : nat) l :=
    (forall k v, In (k, v) l -> P k v) /\ NoDup (map fst l) /\ (length l <= cap)%nat.

  Lemma firstn_in {A} n (l : list A) x : In x (firstn n l) -> In x l.
  Proof. revert l; induction n; intros [|y l]; cbn; try easy. intros [H|H]; auto. Qed.
  Lemma firstn_nodup {A} n (l : list A) : NoDup l -> NoDup (firstn n l).
  Proof.
    revert l; induction n; intros [|y l] H; cbn; try constructor; inversion H; subst; auto.
    intros Hi. apply firstn_in in Hi. contradiction.
  Qed.

  Lemma good_put P cap k v l : good P cap l -> P k v -> good P cap (lru_put eqb cap k v l).
  Proof.
    intros (H1 & H2 & H3) Hp. unfold lru_put. split; [|split].
    - intros k' v' Hi. apply firstn_in in Hi as [E|Hi]; [now injection E as -> ->|].
      apply lru_drop_in in Hi as [Hi _]. auto.
    - rewrite <- firstn_map. apply firstn_nodup. cbn. constructor; [apply lru_drop_notin|now apply lru_drop_nodup].
    - rewrite firstn_length. lia.
  Qed.

  Lemma good_get P cap k v l : good P cap l -> lru_find eqb k l = Some v -> good P cap ((k, v) :: lru_drop eqb k l).
  Proof.
    intros (H1 & H2 & H3) Hf. pose proof (lru_find_in _ _ _ Hf) as Hi. split; [|split].
    - intros k' v' [E|Hx]; [injection E as <- <-; auto|]. apply lru_drop_in in Hx as [Hx _]. auto.
    - cbn. constructor; [apply lru_drop_notin|now apply lru_drop_nodup].
    - cbn. enough (length (lru_drop eqb k l) < length l)%nat by lia. clear - Hi eqb_ok.
      unfold lru_drop. induction l as [|[k' v'] l IH]; [easy|]. cbn. destruct Hi as [E|Hi].
      + injection E as -> ->. assert (eqb k k = true) as -> by now apply eqb_ok. cbn.
        pose proof (lru_drop_length k l). unfold lru_drop in *. lia.
      + specialize (IH Hi). destruct (negb _); cbn; lia.
  Qed.

  Lemma lru_find_set k k' v l : lru_find eqb k ((k', v) :: lru_drop eqb k' l) =
    if eqb k k' then Some v else lru_find eqb k l.
  Proof.
    cbn. destruct (eqb k k') eqn:E; auto. unfold lru_drop. induction l as [|[k2 v2] l IH]; cbn; auto.
    destruct (eqb k' k2) eqn:E2; cbn.
    - apply eqb_ok in E2 as <-. now rewrite E.
    - destruct (eqb k k2) eqn:E3; auto.
  Qed.

  Lemma lru_find_drop k k' l : lru_find eqb k (lru_drop eqb k' l) = if eqb k k' then None else lru_find eqb k l.
  Proof.
    pose proof (lru_find_set k k') as H. destruct (eqb k k') eqn:E.
    - apply eqb_ok in E as ->. destruct (lru_find eqb k' (lru_drop eqb k' l)) as [v|] eqn:F; auto.
      apply lru_find_in in F. apply lru_drop_in in F as [_ F]. now cbn in F.
    - destruct l as [|[k0 v0] l]; [reflexivity|]. specialize (H v0 ((k0, v0) :: l)). cbn [lru_find] in H. rewrite E in H. exact H.
  Qed.
End LruFacts.

Lemma rkey_eqb_ok x y : rkey_eqb x y = true <-> x = y.
Proof.
  unfold rkey_eqb. rewrite andb_true_iff, N.eqb_eq, bytes_eqb_eq. destruct x, y; cbn. split; [intros [-> ->]|intros [= -> ->]]; auto.
Qed.

#[global] Arguments lru_put : simpl never.

(** One page of a listing: as many of [l] as fit. *)
Fixpoint page (full : list dirent -> dirent -> bool) (acc l : list dirent) : list dirent :=
  match l with
  | [] => acc
  | d :: r => if full acc d then acc else page full (acc ++ [d]) r
  end.

Lemma page_prefix full acc l : exists k, page full acc l = acc ++ firstn k l /\ (k <= length l)%nat.
Proof.
  revert acc. induction l as [|d l IH]; intros acc; cbn.
  - exists 0%nat. now rewrite app_nil_r.
  - destruct (full acc d).
    + exists 0%nat. cbn. rewrite app_nil_r. split; auto. lia.
    + destruct (IH (acc ++ [d])) as (k & -> & Hk). exists (S k). cbn. rewrite <- app_assoc. split; auto. lia.
Qed.

Section Mount.
  Variable a : archive.
  Variable root : range.
  Variable rd : path.
  Hypothesis Hwf : wf a.
  Hypothesis Hm : mounted a root rd.
  Local Notation recs := (a_recs a).
  Local Notation n := (N.of_nat (length (a_recs a))).

  Lemma mounted_range : exists j, apdir a j rd /\ is_dir_range a j root.
  Proof.
    destruct Hm as [[-> ->]|(i & r & f & nb & Hp & Hr & Hd & ->)].
    - exists 0. split; [now left|]. now apply root_range.
    - exists (i + 1). split; [right; eauto|]. apply (wf_dir _ Hwf _ _ _ _ Hr Hd).
  Qed.

  Lemma index_get_ok {A} (f : N -> rec -> res A) i r : at_ recs i = Some r -> index_get f a i = f i r.
  Proof.
    intros Hr. pose proof (at_some_lt _ _ _ Hr). pose proof (wf_size _ Hwf). unfold index_get, entry_index. rewrite (wf_entries _ Hwf). cbn [fst snd].
    rewrite N.add_0_l, (proj2 (N.ltb_lt _ _)) by assumption.
    now rewrite (rec_at_ok _ _ _ Hr).
  Qed.

  Lemma index_get_some {A} (f : N -> rec -> res A) i x : index_get f a i = Ok x -> exists r, at_ recs i = Some r /\ f i r = Ok x.
  Proof.
    unfold index_get, entry_index. rewrite (wf_entries _ Hwf). cbn [fst snd]. rewrite N.add_0_l.
    destruct (i <? _); [|easy]. unfold rec_at. destruct (at_ recs i) as [r|] eqn:E; [|easy]. cbn. eauto.
  Qed.

  Lemma idx_of_ino i r : at_ recs i = Some r -> ino_idx (i + 2) = Some i.
  Proof.
    intros Hr. pose proof (at_some_lt _ _ _ Hr). pose proof (wf_size _ Hwf). unfold ino_idx.
    destruct (N.eqb_spec (i + 2) 1); [lia|]. f_equal. unfold as_u32. rewrite N.mod_small; lia.
  Qed.

  Lemma light_dir_ok i r f nb : at_ recs i = Some r -> r_payload r = RDir f nb -> light_dir i r = Ok (inl (f, nb)).
  Proof.
    intros Hr Hp. unfold light_dir, ftype_of. rewrite Hp. cbn [bind].
    destruct (wf_dir_u32 a Hwf _ _ _ _ Hr Hp) as [-> ->]. reflexivity.
  Qed.

  Lemma entry_range_ok ino rg : get_entry_range a root ino = Ok rg -> exists j d, apdir a j d /\ is_dir_range a j rg.
  Proof.
    unfold get_entry_range. destruct (ino_idx ino) as [idx|].
    - destruct (index_get light_dir a idx) as [[r|k]| | |] eqn:E; try easy. cbn [bind]. intros [= <-].
      apply index_get_some in E as (r0 & Hr & E). unfold light_dir in E.
      destruct (ftype_of r0) as [k| | |]; try easy. cbn [bind] in E.
      destruct (r_payload r0) as [|f nb| |] eqn:Ep; try discriminate E.
      destruct (wf_dir_u32 a Hwf _ _ _ _ Hr Ep) as [E1 E2]. rewrite E1, E2 in E. injection E as <-.
      destruct (apath_total a Hwf idx) as [p Hp]; [now apply at_some_lt in Hr|].
      exists (idx + 1), p. split; [right; eauto|]. apply (wf_dir _ Hwf _ _ _ _ Hr Ep).
    - intros [= <-]. destruct mounted_range as (j & H). eauto.
  Qed.

  Lemma dir_record i p : apath a i p -> is_dir a p -> exists r f nb, at_ recs i = Some r /\ r_payload r = RDir f nb.
  Proof.
    intros Hp [->|(i' & mt & r & Hr & Hp' & Hn)]; [now apply apath_nonempty in Hp|].
    rewrite (apath_inj a Hwf _ _ _ Hp Hp'). exists r. unfold node_of_rec in Hn.
    destruct (r_payload r) as [|f nb| |]; try discriminate Hn. eauto.
  Qed.

  Lemma dir_range ino p : denotes a rd ino p -> is_dir a p ->
    exists rg j, get_entry_range a root ino = Ok rg /\ apdir a j p /\ is_dir_range a j rg.
  Proof.
    intros [[-> ->]|(i & -> & Hp)] Hd.
    - destruct mounted_range as (j & Hj & Hr). exists root, j. split; auto.
    - destruct (dir_record _ _ Hp Hd) as (r & f & nb & Hr & Ep). exists (f, nb), (i + 1).
      split; [|split; [right; eauto|apply (wf_dir _ Hwf _ _ _ _ Hr Ep)]].
      unfold get_entry_range. rewrite (idx_of_ino _ _ Hr), (index_get_ok _ _ _ Hr), (light_dir_ok _ _ _ _ Hr Ep). reflexivity.
  Qed.

  Lemma range_find_child rg j d nm : apdir a j d -> is_dir_range a j rg ->
    match range_find a rg nm with
    | Ok (Some k) => k < snd rg /\ apath a (fst rg + k) (d ++ [nm])
    | Ok None => forall i, ~ apath a i (d ++ [nm])
    | _ => False
    end.
  Proof.
    intros Hd Hr. destruct rg as [lo cnt]. pose proof Hr as [Hb Hk]. cbn [fst snd] in *.
    pose proof (range_find_spec a lo cnt nm (range_sorted a Hwf lo cnt j Hb Hk)) as Hf.
    destruct (range_find a (lo, cnt) nm) as [[k|]| | |]; try easy.
    - destruct Hf as (H1 & r & H2 & <-). split; auto. apply apath_intro; auto.
      destruct (proj1 (Hk (lo + k))) as (r' & Hr' & <-); [lia|]. congruence.
    - intros i Hi. apply apath_inv in Hi as (r & d' & Hri & Hd' & E). apply app_inj_tail in E as [<- ->].
      assert (Ej : r_parent r = j) by (eapply apdir_inj; eauto).
      assert (Hin : lo <= i < lo + cnt) by (apply Hk; eauto).
      apply (Hf (i - lo) r); [lia| |auto]. now replace (lo + (i - lo)) with i by lia.
  Qed.

  Lemma resolve_spec ino p nm : denotes a rd ino p -> is_dir a p ->
    (exists i, resolve a root ino nm = Ok (Some i) /\ apath a i (p ++ [nm])) \/
    (resolve a root ino nm = Ok None /\ forall i, ~ apath a i (p ++ [nm])).
  Proof.
    intros Hd Hdir. destruct (dir_range _ _ Hd Hdir) as (rg & j & E & Hj & Hr). unfold resolve. rewrite E. cbn [unwrap bind].
    pose proof (range_find_child rg j p nm Hj Hr) as Hf. destruct (range_find a rg nm) as [[k|]| | |]; try easy; cbn.
    - left. exists (fst rg + k). split; auto. apply Hf.
    - right. auto.
  Qed.

  (** ** The cache invariant *)
  Definition name_ok (k : N * bytes) (v : option N) : Prop := fst k <> 0 /\ resolve a root (fst k) (snd k) = Ok v.
  Definition attr_ok (i : N) (t : attr) : Prop := index_get build_attr a i = Ok t.

  Definition inv (s : fs) : Prop :=
    good name_ok resolve_cap (f_names s) /\ good attr_ok attr_cap (f_attrs s).

  (** Answer [o], unchanged open files, invariant kept. *)
  Definition gives {A} (s : fs) (x : fs * res A) (o : res A) : Prop :=
    inv (fst x) /\ f_open (fst x) = f_open s /\ snd x = o.

  Lemma inv_nil f : inv (mkFs [] [] f).
  Proof. split; (split; [easy|split; [constructor|cbn [f_names f_attrs length]; lia]]). Qed.

  Lemma inv_open s f : inv s -> inv (mkFs (f_names s) (f_attrs s) f).
  Proof. auto. Qed.

  Lemma gives_ret {A} s (o : res A) : inv s -> gives s (s, o) o.
  Proof. split; auto. Qed.

  Lemma gives_bind {A B} s (x : fs * res A) o (k : fs -> A -> fs * res B) (k' : A -> res B) : gives s x o ->
    (forall s' v, inv s' -> f_open s' = f_open s -> o = Ok v -> gives s' (k s' v) (k' v)) ->
    gives s (andthen x k) (bind o k').
  Proof.
    destruct x as [s1 o1]. intros (H1 & H2 & H3) Hk. cbn [fst snd] in *. subst o1.
    destruct o as [v| | |]; cbn; try (split; [assumption|split; auto]). destruct (Hk s1 v) as (K1 & K2 & K3); auto.
    split; auto. split; auto. congruence.
  Qed.

  Lemma cached_attr_ok s i : inv s -> gives s (cached_attr a s i) (unwrap (index_get build_attr a i)).
  Proof.
    intros [Hn Ha]. unfold cached_attr, lru_get. destruct (lru_find N.eqb i (f_attrs s)) as [t|] eqn:E.
    - pose proof (good_get N.eqb N.eqb_eq _ _ _ _ _ Ha E) as Ha'.
      apply (lru_find_in _ N.eqb_eq) in E. apply (proj1 Ha) in E. unfold attr_ok in E. rewrite E.
      split; [split; assumption|auto].
    - destruct (index_get build_attr a i) as [t|e| |] eqn:Eb; cbn [unwrap]; try (split; [split; assumption|auto]).
      split; [|auto]. split; auto. cbn [f_attrs fst]. apply good_put; auto. apply N.eqb_eq.
  Qed.

  Definition pure_lookup (p : N) (nm : bytes) : res reply :=
    let? p := ino_from p in
    let? v := resolve a root p nm in
    match v with
    | None => Ok (RError ENOENT)
    | Some i => let? t := unwrap (index_get build_attr a i) in Ok (REntry t)
    end.
  Definition pure_getattr (p : N) : res reply :=
    let? p := ino_from p in
    match ino_idx p with
    | None => Ok (RAttr root_attr)
    | Some i => let? t := unwrap (index_get build_attr a i) in Ok (RAttr t)
    end.

  Lemma lookup_gives s p nm : inv s -> gives s (do_lookup a root s p nm) (pure_lookup p nm).
  Proof.
    intros Hs. unfold do_lookup, pure_lookup. apply gives_bind; [now apply gives_ret|]. intros s1 p1 Hs1 _ Ep.
    assert (H0 : p1 <> 0). { unfold ino_from in Ep. destruct (N.eqb_spec p 0); congruence. }
    apply gives_bind.
    - destruct Hs1 as [Hn Ha]. unfold lru_get. destruct (lru_find rkey_eqb (p1, nm) (f_names s1)) as [v|] eqn:Ef.
      + pose proof (good_get rkey_eqb rkey_eqb_ok _ _ _ _ _ Hn Ef) as Hn'.
        apply (lru_find_in _ rkey_eqb_ok) in Ef. apply (proj1 Hn) in Ef as [_ Ef]. cbn [fst snd] in Ef. rewrite Ef.
        split; [split; assumption|auto].
      + destruct (resolve a root p1 nm) as [v|e| |] eqn:Er; try (split; [split; assumption|auto]).
        split; [|auto]. split; auto. cbn [f_names fst]. apply good_put; auto; [apply rkey_eqb_ok|]. split; auto.
    - intros s2 [i|] Hs2 _ _; [|now apply gives_ret]. apply gives_bind; [now apply cached_attr_ok|].
      intros s3 t Hs3 _ _. now apply gives_ret.
  Qed.

  Lemma getattr_gives s p : inv s -> gives s (do_getattr a s p) (pure_getattr p).
  Proof.
    intros Hs. unfold do_getattr, pure_getattr. apply gives_bind; [now apply gives_ret|]. intros s1 p1 Hs1 _ _.
    destruct (ino_idx p1); [|now apply gives_ret]. apply gives_bind; [now apply cached_attr_ok|].
    intros s3 t Hs3 _ _. now apply gives_ret.
  Qed.

  (** ** readdir *)
  Definition read_child (idx i : N) : res dirent :=
    let? x := unwrap (let? r := rec_at a idx in let? k := ftype_of r in Ok (r_name r, k)) in
    Ok (mkDirent (ino_of_idx idx) i (snd x) (fst x)).
  Definition read_one (ino : N) (rg : range) (i : N) : res dirent :=
    if i =? 0 then Ok (mkDirent ino 0 FtDir (b "."))
    else if i =? 1 then let? p := parent_ino a ino in Ok (mkDirent p 1 FtDir (b ".."))
    else read_child (fst rg + (i - 2)) i.

  Fixpoint pure_readdir (ino : N) (rg : range) (full : list dirent -> dirent -> bool) (is : list N) (acc : list dirent) : res (list dirent) :=
    match is with
    | [] => Ok acc
    | i :: rest => let? d := unwrap (read_one ino rg i) in
                   if full acc d then Ok acc else pure_readdir ino rg full rest (acc ++ [d])
    end.

  Lemma child_resolves ino rg idx r : get_entry_range a root ino = Ok rg -> fst rg <= idx < fst rg + snd rg ->
    at_ recs idx = Some r -> resolve a root ino (r_name r) = Ok (Some idx).
  Proof.
    intros Hg Hi Hr. destruct (entry_range_ok _ _ Hg) as (j & d & Hj & Hrg). unfold resolve. rewrite Hg. cbn [unwrap bind].
    pose proof (range_find_child rg j d (r_name r) Hj Hrg) as Hf.
    assert (Hp : apath a idx (d ++ [r_name r])).
    { apply apath_intro; auto. destruct Hrg as [_ Hk]. destruct (proj1 (Hk idx) Hi) as (r' & Hr' & <-). congruence. }
    destruct (range_find a rg (r_name r)) as [[k|]| | |]; try easy; cbn [bind unwrap option_map].
    - do 2 f_equal. destruct Hf as [_ Hf]. eapply apath_inj; eauto.
    - now apply Hf in Hp.
  Qed.

  Lemma readdir_loop_gives ino rg full : ino <> 0 -> get_entry_range a root ino = Ok rg -> forall is s acc,
    (forall i, In i is -> i < snd rg + 2) -> inv s ->
    gives s (readdir_loop a ino rg full is s acc) (pure_readdir ino rg full is acc).
  Proof.
    intros H0 Hg is. induction is as [|i is IH]; intros s acc Hb Hs; [now apply gives_ret|].
    cbn [readdir_loop pure_readdir]. unfold read_one. destruct (i =? 0) eqn:E0.
    - cbn [bind unwrap]. destruct (full acc _); [now apply gives_ret|]. apply IH; auto. intros; apply Hb; now right.
    - destruct (i =? 1) eqn:E1.
      + destruct (parent_ino a ino) as [p|e| |]; cbn [bind unwrap]; try now apply gives_ret.
        destruct (full acc _); [now apply gives_ret|]. apply IH; auto. intros; apply Hb; now right.
      + assert (Hi : i < snd rg + 2) by (apply Hb; now left).
        destruct (N.eqb_spec (i - 2) (snd rg)); [lia|]. unfold read_child.
        destruct (unwrap (let? r := rec_at a (fst rg + (i - 2)) in let? k := ftype_of r in Ok (r_name r, k))) as [[nm k]|e| |] eqn:E;
          cbn [bind unwrap fst snd]; try now apply gives_ret.
        set (s' := mkFs _ _ _). assert (Hs' : inv s').
        { destruct Hs as [Hn Ha]. split; auto. cbn [s' f_names]. apply good_put; auto; [apply rkey_eqb_ok|].
          split; auto. cbn [fst snd]. unfold rec_at in E. destruct (at_ recs (fst rg + (i - 2))) as [r|] eqn:Er; [|discriminate E].
          cbn [bind] in E. destruct (ftype_of r) as [k'| | |]; try discriminate E. cbn in E. injection E as <- <-.
          apply child_resolves with rg; auto. lia. }
        destruct (full acc _); [now split|].
        destruct (IH s' (acc ++ [mkDirent (ino_of_idx (fst rg + (i - 2))) i k nm])) as (K1 & K2 & K3); auto.
        { intros; apply Hb; now right. }
        split; auto.
  Qed.

  Definition pure_dir (ino off : N) (full : list dirent -> dirent -> bool) : res reply :=
    let? ino := ino_from ino in
    let? rg := unwrap (get_entry_range a root ino) in
    if snd rg + 2 <? 2^32 then
      let off := if off =? 0 then 0 else off + 1 in
      let? l := pure_readdir ino rg full (iota off (N.to_nat (snd rg + 2 - off))) [] in Ok (RDirents l)
    else Panic.

  Lemma readdir_gives s ino off full : inv s -> gives s (do_readdir a root s ino off full) (pure_dir ino off full).
  Proof.
    intros Hs. unfold do_readdir, pure_dir. apply gives_bind; [now apply gives_ret|]. intros s1 i Hs1 _ Ep.
    assert (H0 : i <> 0). { unfold ino_from in Ep. destruct (N.eqb_spec ino 0); congruence. }
    apply gives_bind; [now apply gives_ret|]. intros s2 rg Hs2 _ Eg.
    destruct (snd rg + 2 <? 2 ^ 32); [|now apply gives_ret]. cbv zeta.
    apply gives_bind.
    - apply readdir_loop_gives; auto.
      + destruct (get_entry_range a root i); cbn in Eg; congruence.
      + intros x Hx. apply in_iota in Hx. lia.
    - intros s3 l Hs3 _ _. now apply gives_ret.
  Qed.

  (** ** Every request *)
  Definition uncached (q : request) : bool :=
    match q with Open _ | Read _ _ _ | Release _ => false | _ => true end.

  Lemma step_inv s q : inv s -> inv (fst (step a root s q)).
  Proof.
    intros Hs. destruct q as [p nm|i|i|i|i o z|i|i|i o f|i]; cbn [step].
    - now apply lookup_gives.
    - now apply getattr_gives.
    - unfold do_readlink, ino_from. destruct (i =? 0); cbn; auto. destruct (ino_idx i); cbn; auto.
      destruct (unwrap _) as [[|]| | |]; cbn; auto.
    - unfold do_open, ino_from. destruct (i =? 0); cbn; auto. destruct (open_find i (f_open s)) as [[d c]|]; cbn; auto.
      destruct (ino_idx i); cbn; auto. destruct (unwrap _) as [[x|[| |]]| | |]; cbn; auto.
      destruct (a_fetch a x); cbn; auto.
    - unfold do_read, ino_from. destruct (i =? 0); cbn; auto. destruct (open_find i (f_open s)) as [[d c]|]; cbn; auto.
      destruct (_ <? o); cbn; auto.
    - unfold do_release, ino_from. destruct (i =? 0); cbn; auto. destruct (open_find i (f_open s)) as [[d c]|]; cbn; auto.
    - unfold do_opendir, ino_from. destruct (i =? 0); cbn; auto. destruct (ino_idx i); cbn; auto.
      destruct (unwrap _) as [[|]| | |]; cbn; auto.
    - now apply readdir_gives.
    - auto.
  Qed.

  (** The answer depends on the open files only, and not even on them for most requests. *)
  Lemma step_cache s q f : inv s ->
    snd (step a root s q) = snd (step a root (mkFs [] [] (f_open s)) q) /\
    f_open (fst (step a root s q)) = f_open (fst (step a root (mkFs [] [] (f_open s)) q)) /\
    (uncached q = true -> snd (step a root s q) = snd (step a root (mkFs [] [] f) q) /\ f_open (fst (step a root s q)) = f_open s).
  Proof.
    intros Hs. pose proof (inv_nil (f_open s)) as Hs0. pose proof (inv_nil f) as Hs1.
    destruct q as [p nm|i|i|i|i o z|i|i|i o g|i]; cbn [step uncached].
    - destruct (lookup_gives s p nm Hs) as (_ & -> & ->), (lookup_gives _ p nm Hs0) as (_ & -> & ->), (lookup_gives _ p nm Hs1) as (_ & _ & ->). auto.
    - destruct (getattr_gives s i Hs) as (_ & -> & ->), (getattr_gives _ i Hs0) as (_ & -> & ->), (getattr_gives _ i Hs1) as (_ & _ & ->). auto.
    - unfold do_readlink, ino_from. destruct (i =? 0); cbn; auto. destruct (ino_idx i); cbn; auto.
      destruct (unwrap _) as [[|]| | |]; cbn; auto.
    - unfold do_open, ino_from. cbn [f_open]. split; [|split; [|easy]];
        (destruct (i =? 0); cbn [andthen fst snd f_open]; auto; destruct (open_find i (f_open s)) as [[d c]|]; cbn [andthen fst snd f_open]; auto;
         destruct (ino_idx i) as [k|]; cbn [andthen fst snd f_open]; auto; destruct (unwrap (index_get light_file a k)) as [[x|[| |]]| | |]; cbn [andthen fst snd f_open]; auto; destruct (a_fetch a x); cbn; auto).
    - unfold do_read, ino_from. cbn [f_open]. split; [|split; [|easy]];
        (destruct (i =? 0); cbn [andthen fst snd f_open]; auto; destruct (open_find i (f_open s)) as [[d c]|]; cbn [andthen fst snd f_open]; auto; destruct (_ <? o); cbn; auto).
    - unfold do_release, ino_from. cbn [f_open]. split; [|split; [|easy]];
        (destruct (i =? 0); cbn [andthen fst snd f_open]; auto; destruct (open_find i (f_open s)) as [[d c]|]; cbn [andthen fst snd f_open]; auto).
    - unfold do_opendir, ino_from. destruct (i =? 0); cbn; auto. destruct (ino_idx i); cbn; auto.
      destruct (unwrap _) as [[|]| | |]; cbn; auto.
    - destruct (readdir_gives s i o g Hs) as (_ & -> & ->), (readdir_gives _ i o g Hs0) as (_ & -> & ->), (readdir_gives _ i o g Hs1) as (_ & _ & ->). auto.
    - auto.
  Qed.

  Lemma serve_inv l : forall s, inv s -> inv (fst (serve a root s l)).
  Proof.
    induction l as [|q l IH]; intros s Hs; cbn [serve]; auto.
    pose proof (step_inv s q Hs) as H. destruct (step a root s q) as [s' [x| | |]]; cbn in H |- *; auto.
    specialize (IH s' H). destruct (serve a root s' l). exact IH.
  Qed.
End Mount.
