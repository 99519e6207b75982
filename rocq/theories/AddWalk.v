(** The walk of a tree: every node once, parents first. *)
From Verif Require Export AddPaths.

Lemma nodup_append {A} (x y : list A) : NoDup x -> NoDup y -> (forall a, In a x -> In a y -> False) -> NoDup (x ++ y).
Proof.
  induction 1 as [|a x Ha Hx IH]; intros Hy Hd; auto. cbn [app]. constructor.
  - rewrite in_app_iff. intros [H|H]; auto. apply (Hd a); cbn; auto.
  - apply IH; auto. intros c H1 H2. apply (Hd c); cbn; auto.
Qed.

(** ** Path resolution *)
Lemma namei_app k : forall f fl root q, q <> [] -> forall c cur, namei k f true cur c = At root HDir ->
  exists k', namei k f fl cur (c ++ q) = namei k' f fl root q.
Proof.
  induction k as [|k IH]; intros f fl root q Hq;
    (induction c as [|x c IHc]; intros cur H; [rewrite namei_eq in H; injection H as <-; eexists; reflexivity|]);
    rewrite namei_eq in H; cbn [app]; setoid_rewrite (namei_eq _ f fl cur (x :: c ++ q));
    (destruct (bytes_eqb x (b ".")); [now apply IHc|]); (destruct (bytes_eqb x (b "..")); [now apply IHc|]);
    (destruct (h_names f (cur ++ [x])) as [[|i|t m]|] eqn:E; [now apply IHc|destruct c; discriminate H| |destruct c; discriminate H]).
  - destruct c; discriminate H.
  - assert (H' : namei k f true (if is_abs t then [] else cur) (pieces t ++ c) = At root HDir) by (destruct c; exact H).
    assert ((match c ++ q with [] => negb fl | _ => false end) = false) as -> by (destruct c; [destruct q; easy|reflexivity]).
    apply (IH f fl root q Hq) in H' as [k' H']. exists k'. now rewrite app_assoc.
Qed.

Lemma namei_dot k : forall f root c cur, namei k f true cur (c ++ [b "."]) = At root HDir -> namei k f true cur c = At root HDir.
Proof.
  induction k as [|k IH]; intros f root;
    (induction c as [|x c IHc]; intros cur H; [exact H|]); cbn [app] in H; rewrite namei_eq in H; rewrite namei_eq;
    (destruct (bytes_eqb x (b ".")); [now apply IHc|]); (destruct (bytes_eqb x (b "..")); [now apply IHc|]);
    (destruct (h_names f (cur ++ [x])) as [[|i|t m]|] eqn:E; [now apply IHc|destruct c; discriminate H| |destruct c; discriminate H]).
  - destruct c; discriminate H.
  - assert (H' : namei k f true (if is_abs t then [] else cur) ((pieces t ++ c) ++ [b "."]) = At root HDir).
    { rewrite <- app_assoc. destruct c; exact H. }
    apply IH in H'. destruct c; exact H'.
Qed.

(** Without following, either the same or a link. *)
Lemma namei_unfollowed k : forall f q n c cur, namei k f true cur c = At q n ->
  namei k f false cur c = At q n \/ exists q' t m, namei k f false cur c = At q' (HLink t m).
Proof.
  induction k as [|k IH]; intros f q n;
    (induction c as [|x c IHc]; intros cur H; [rewrite namei_eq in *; auto|]);
    rewrite namei_eq in H; setoid_rewrite (namei_eq _ f false cur (x :: c));
    (destruct (bytes_eqb x (b ".")); [now apply IHc|]); (destruct (bytes_eqb x (b "..")); [now apply IHc|]);
    (destruct (h_names f (cur ++ [x])) as [[|i|t m]|] eqn:E; [now apply IHc|now destruct c; [left|discriminate H]| |destruct c; discriminate H]).
  - destruct c; discriminate H.
  - destruct c; [right; cbn; eauto|]. cbn iota in *. now apply IH.
Qed.

Section Tree.
  Variables (w : world) (s : bytes) (root : path) (depth : nat).
  Hypothesis Hrel : is_abs s = false.
  Hypothesis Hroot : look_str w true s = At root HDir.
  Hypothesis HT : source_tree w root depth.
  Local Notation names q := (h_names (w_fs w) (root ++ q)).

  Lemma s_nonempty : s <> [].
  Proof. intros ->. discriminate Hroot. Qed.

  Lemma tree_ordinary q : names q <> None -> Forall ordinary q.
  Proof. intros H. apply Forall_forall. intros n Hn. now apply (sr_names _ _ _ HT q n H Hn). Qed.

  Lemma tree_utf8 q : names q <> None -> forallb utf8 q = true.
  Proof. intros H. apply forallb_forall. intros n Hn. now apply (sr_names _ _ _ HT q n H Hn). Qed.

  (** everything above a node of the tree is a directory *)
  Lemma tree_up t : forall q, t <> [] -> names (q ++ t) <> None -> q = [] \/ names q = Some HDir.
  Proof.
    induction t as [|x t IH] using rev_ind; intros q Ht H; [easy|].
    rewrite (app_assoc q) in H. destruct t as [|y t].
    - rewrite app_nil_r in H. now apply (sr_parent _ _ _ HT) in H.
    - assert (names (q ++ y :: t) = Some HDir) as E.
      { destruct (sr_parent _ _ _ HT _ _ H) as [E|E]; [|exact E]. destruct q; discriminate E. }
      apply IH; [easy|]. congruence.
  Qed.

  Lemma look_tree fl q n : q <> [] -> names q = Some n -> (fl = true -> n = HDir) -> look_str w fl (str s q) = At (root ++ q) n.
  Proof.
    intros Hq Hn Hfl. assert (Hne : names q <> None) by congruence. pose proof (tree_ordinary q Hne) as Ho.
    unfold look_str. destruct (str s q) as [|c0 s0] eqn:E; [now apply (str_nonempty s q s_nonempty Ho) in E|]. rewrite <- E. clear E c0 s0.
    unfold look, opath_of. cbn [fst snd]. rewrite (str_abs s q s_nonempty Ho), (str_pieces s q Ho), (str_end s q Ho Hq), Hrel, app_nil_r.
    assert (H1 : namei max_links (w_fs w) true (w_cwd w) (pieces s) = At root HDir).
    { pose proof Hroot as H. unfold look_str in H. destruct s as [|c0 s0] eqn:Es; [discriminate H|]. rewrite <- Es in *.
      unfold look, opath_of in H. cbn [fst snd] in H. rewrite Hrel in H. destruct (ends_with_sep s).
      - now apply namei_dot in H.
      - now rewrite app_nil_r in H. }
    apply (namei_app _ _ fl root q Hq) in H1 as [k' ->].
    destruct q as [|x q _] using rev_ind; [easy|]. apply Forall_app in Ho as [Ho Hx]. inversion Hx; subst.
    rewrite namei_down.
    - rewrite (filter_ordinary q Ho). rewrite namei_last by auto. rewrite <- app_assoc, Hn.
      destruct n as [| |t m]; auto. destruct fl; auto. now discriminate Hfl.
    - eapply Forall_impl; [|exact Ho]. auto.
    - rewrite (filter_ordinary q Ho). intros q1 y t E. rewrite E in Hne. rewrite <- app_assoc in Hne. cbn [app] in Hne.
      assert (E' : q1 ++ y :: t ++ [x] = (q1 ++ [y]) ++ (t ++ [x])) by now rewrite <- app_assoc.
      rewrite E' in Hne. destruct (tree_up (t ++ [x]) (q1 ++ [y])) as [G|G]; auto; [now destruct t|now destruct q1].
  Qed.

  Lemma look_dir q : q = [] \/ names q = Some HDir -> look_str w true (str s q) = At (root ++ q) HDir.
  Proof.
    intros [->|H]; [rewrite app_nil_r; exact Hroot|]. destruct q as [|x q]; [rewrite app_nil_r; exact Hroot|]. now apply look_tree.
  Qed.

  Lemma root_unfollowed : look_str w false s = At root HDir \/ exists q t m, look_str w false s = At q (HLink t m).
  Proof.
    pose proof Hroot as H. unfold look_str in *. destruct s as [|c0 s0]; [discriminate H|]. now apply namei_unfollowed in H.
  Qed.

  (** ** The walk *)
  (** [qs] lists the strict descendants of [p] once, parents first. *)
  Definition parents_first (p : path) (qs : list path) : Prop :=
    forall l1 q l2, qs = l1 ++ q :: l2 -> exists q' n, q = q' ++ [n] /\ (q' = p \/ In q' l1).

  Lemma parents_first_app p a c : parents_first p a -> parents_first p c -> parents_first p (a ++ c).
  Proof.
    intros Ha Hc l1 q l2 E. revert l1 E. induction a as [|x a IH] using rev_ind; intros l1 E.
    - destruct (Hc l1 q l2 E) as (q' & n & H1 & H2). exists q', n. auto.
    - clear IH. assert (G : (exists u, a ++ [x] = l1 ++ q :: u) \/ exists u, l1 = (a ++ [x]) ++ u /\ c = u ++ q :: l2).
      { revert E. generalize (a ++ [x]). clear. intros a. revert l1. induction a as [|y a IH]; intros l1 E.
        - right. exists l1. auto.
        - destruct l1 as [|z l1]; cbn in E; injection E as -> E.
          + left. exists a. reflexivity.
          + destruct (IH l1 E) as [[u Hu]|(u & Hu & Hc)].
            * left. exists u. now rewrite Hu.
            * right. exists u. now rewrite Hu. }
      destruct G as [[u Hu]|(u & -> & Hu)].
      + apply (Ha l1 q u Hu).
      + destruct (Hc u q l2 Hu) as (q' & n & H1 & H2). exists q', n. split; auto. rewrite in_app_iff. intuition.
  Qed.

  Lemma parents_first_cons p n l : parents_first (p ++ [n]) l -> parents_first p ((p ++ [n]) :: l).
  Proof.
    intros H l1 q l2 E. destruct l1 as [|y l1]; cbn in E; injection E as <- E.
    - exists p, n. auto.
    - destruct (H l1 q l2 E) as (q' & m & H1 & [->|H2]); exists q' || exists (p ++ [n]); exists m; split; auto; right; cbn; auto.
  Qed.

  Lemma walk_in_tree fuel : forall p, p = [] \/ names p = Some HDir -> (depth < fuel + length p)%nat ->
    exists qs, walk_in fuel w (str s p) = Some (map (fun q => WEntry (str s q)) qs) /\ NoDup qs /\ parents_first p qs /\
      forall q, In q qs <-> (exists x t, q = p ++ x :: t) /\ names q <> None.
  Proof.
    induction fuel as [|fuel IH]; intros p Hp Hd.
    - exfalso. destruct Hp as [->|Hp]; [cbn in Hd; lia|]. assert (H : names p <> None) by congruence.
      apply (sr_depth _ _ _ HT) in H. cbn in Hd. lia.
    - cbn [walk_in]. unfold read_dir. rewrite (look_dir p Hp).
      destruct (sr_list _ _ _ HT p Hp) as (ns & -> & Hnd & Hns).
      assert (Hall : forall ns', incl ns' ns -> NoDup ns' -> exists qs,
        opt_concat (fun n => match h_names (w_fs w) ((root ++ p) ++ [n]) with
                             | Some HDir => match walk_in fuel w (path_join (str s p) n) with Some l => Some (WEntry (path_join (str s p) n) :: l) | None => None end
                             | _ => Some [WEntry (path_join (str s p) n)]
                             end) ns' = Some (map (fun q => WEntry (str s q)) qs) /\ NoDup qs /\ parents_first p qs /\
        forall q, In q qs <-> (exists n t, q = p ++ n :: t /\ In n ns') /\ names q <> None).
      { induction ns' as [|n ns' IHn]; intros Hi Hd'.
        - exists []. split; auto. split; [constructor|]. split; [intros l1 q l2 E; now destruct l1|]. intros q. split; [intros []|intros ((n & t & _ & []) & _)].
        - inversion Hd' as [|? ? Hnin Hd'']; subst. destruct IHn as (qs & E2 & N2 & P2 & M2); auto.
          { intros y Hy. apply Hi. now right. }
          assert (Hex : names (p ++ [n]) <> None) by (apply Hns, Hi; now left).
          assert (Hone : exists q1, match h_names (w_fs w) ((root ++ p) ++ [n]) with
                             | Some HDir => match walk_in fuel w (path_join (str s p) n) with Some l => Some (WEntry (path_join (str s p) n) :: l) | None => None end
                             | _ => Some [WEntry (path_join (str s p) n)]
                             end = Some (map (fun q => WEntry (str s q)) q1) /\ NoDup q1 /\ parents_first p q1 /\
                             forall q, In q q1 <-> (exists t, q = p ++ n :: t) /\ names q <> None).
          { rewrite <- app_assoc, <- str_snoc. assert (Hmain : names (p ++ [n]) <> Some HDir -> exists q1, Some [WEntry (str s (p ++ [n]))] = Some (map (fun q => WEntry (str s q)) q1) /\ NoDup q1 /\ parents_first p q1 /\
                             forall q, In q q1 <-> (exists t, q = p ++ n :: t) /\ names q <> None).
            { intros Hno. exists [p ++ [n]]. split; auto. split; [repeat constructor; auto|]. split.
              - intros l1 q l2 E. destruct l1 as [|y [|z l1]]; try discriminate E. injection E as <- _. exists p, n. auto.
              - intros q. split.
                + intros [<-|[]]. split; eauto.
                + intros [[t ->] Hq]. left. destruct t as [|y t]; auto. exfalso.
                  assert (E : p ++ n :: y :: t = (p ++ [n]) ++ y :: t) by now rewrite <- app_assoc. rewrite E in Hq.
                  destruct (tree_up (y :: t) (p ++ [n])) as [G|G]; auto; [easy|now destruct p]. }
            destruct (names (p ++ [n])) as [[|i|t m]|] eqn:En; [|now apply Hmain|now apply Hmain|easy]. clear Hmain.
            destruct (IH (p ++ [n])) as (qs1 & E1 & N1 & P1 & M1); auto.
            { rewrite app_length. cbn. lia. }
            rewrite E1. exists ((p ++ [n]) :: qs1). split; auto. split; [constructor; auto|].
            { rewrite M1. intros [(x & t & E) _]. apply (f_equal (@length _)) in E. rewrite !app_length in E. cbn in E. lia. }
            split; [now apply parents_first_cons|]. intros q. cbn [In]. rewrite M1. split.
            - intros [<-|[(x & t & ->) H]]; [split; eauto; congruence|]. split; auto. exists (x :: t). now rewrite <- app_assoc.
            - intros [[t ->] H]. destruct t as [|x t]; auto. right. split; auto. exists x, t. now rewrite <- app_assoc. }
          destruct Hone as (q1 & E1 & N1 & P1 & M1). cbn [opt_concat]. rewrite E1.
          change ((fix go (l : list bytes) : option (list witem) := _) ns') with (opt_concat (fun n => match h_names (w_fs w) ((root ++ p) ++ [n]) with
                             | Some HDir => match walk_in fuel w (path_join (str s p) n) with Some l => Some (WEntry (path_join (str s p) n) :: l) | None => None end
                             | _ => Some [WEntry (path_join (str s p) n)]
                             end) ns').
          rewrite E2. exists (q1 ++ qs). split; [now rewrite map_app|]. split; [|split; [now apply parents_first_app|]].
          + apply nodup_append; auto. intros q H1 H2. apply M1 in H1 as [[t ->] _]. apply M2 in H2 as [(n' & t' & E & Hn') _].
            apply app_inv_head in E. injection E as <- _. contradiction.
          + intros q. rewrite in_app_iff, M1, M2. split.
            * intros [[[t ->] H]|[(n' & t & -> & H') H]]; split; auto; [exists n, t|exists n', t]; cbn; auto.
            * intros [(n' & t & -> & [<-|H']) H]; [left|right]; split; eauto. }
      destruct (Hall ns (fun _ H => H) Hnd) as (qs & E & N & P & M). exists qs. split; [exact E|]. split; auto. split; auto.
      intros q. rewrite M. split.
      + intros [(n & t & -> & Hn) H]. split; eauto.
      + intros [(n & t & ->) H]. split; auto. exists n, t. split; auto. apply Hns.
        destruct t as [|y t]; [exact H|].
        assert (E' : p ++ n :: y :: t = (p ++ [n]) ++ y :: t) by now rewrite <- app_assoc. rewrite E' in H.
        destruct (tree_up (y :: t) (p ++ [n])) as [G|G]; auto; [easy|now destruct p|congruence].
  Qed.

  Lemma walk_tree fuel : (depth < fuel)%nat -> exists qs,
    walk fuel w s true = Some (map (fun q => WEntry (str s q)) ([] :: qs)) /\ NoDup qs /\ parents_first [] qs /\
    forall q, In q qs <-> q <> [] /\ names q <> None.
  Proof.
    intros Hf. destruct (walk_in_tree fuel []) as (qs & E & N & P & M); auto; [cbn; lia|].
    exists qs. split; [|split; auto; split; auto].
    - unfold walk. change (str s []) with s in E. rewrite E. destruct root_unfollowed as [->|(q & t & m & ->)]; auto. now rewrite Hroot.
    - intros q. rewrite M. split; intros [H1 H2]; split; auto.
      + destruct H1 as (x & t & ->). easy.
      + destruct q as [|x t]; [easy|]. exists x, t. reflexivity.
  Qed.

  Lemma detect_root : detect_kind w s true = Ok (DDir, root).
  Proof.
    unfold detect_kind. destruct root_unfollowed as [->|(q & t & m & ->)]; [reflexivity|].
    cbn [looked_up bind]. rewrite Hroot. reflexivity.
  Qed.

  Lemma detect_node q n : q <> [] -> names q = Some n -> detect_kind w (str s q) false = Ok (kind_at w (root ++ q) n, root ++ q).
  Proof. intros Hq Hn. unfold detect_kind. rewrite (look_tree false q n) by easy. destruct n; reflexivity. Qed.
End Tree.
