(** Adding a whole tree. *)
From Verif Require Export AddWalk.

(** ** Contents *)
Lemma find_content_at l data : forall k i, find_content l data k = Some i -> k <= i /\ at_ l (i - k) = Some data.
Proof.
  induction l as [|x l IH]; intros k i; cbn [find_content]; [easy|]. destruct (bytes_eqb_spec x data) as [->|Hx].
  - intros E. injection E as <-. split; [lia|]. replace (k - k) with 0 by lia. reflexivity.
  - intros E. apply IH in E as [H1 H2]. split; [lia|]. unfold at_ in *.
    replace (i - k) with (i - (k + 1) + 1) by lia. cbn [length].
    destruct (i - (k + 1) <? N.of_nat (length l)) eqn:El; [|discriminate H2].
    assert ((i - (k + 1) + 1 <? N.of_nat (S (length l))) = true) as -> by lia.
    replace (N.to_nat (i - (k + 1) + 1)) with (S (N.to_nat (i - (k + 1)))) by lia. exact H2.
Qed.

Lemma at_app {A} (l m : list A) i x : at_ l i = Some x -> at_ (l ++ m) i = Some x.
Proof.
  unfold at_. rewrite app_length. destruct (i <? N.of_nat (length l)) eqn:E; [|easy].
  assert ((i <? N.of_nat (length l + length m)) = true) as -> by lia. intros H. rewrite nth_error_app1; auto. lia.
Qed.

Lemma fetch_mono l m a d : fetch_of l a = Found d -> fetch_of (l ++ m) a = Found d.
Proof.
  unfold fetch_of. destruct (ca_pack a =? 1); [|easy]. destruct (at_ l (ca_content a)) as [x|] eqn:E; [|easy].
  now rewrite (at_app _ m _ _ E).
Qed.

Lemma add_content_ok l data : exists ext, fst (add_content l data) = l ++ ext /\ fetch_of (l ++ ext) (snd (add_content l data)) = Found data.
Proof.
  unfold add_content. destruct (find_content l data 0) as [k|] eqn:E; cbn [fst snd].
  - exists []. rewrite app_nil_r. split; auto. apply find_content_at in E as [_ E]. rewrite N.sub_0_r in E.
    unfold fetch_of. cbn [ca_pack ca_content]. change (1 =? 1) with true. cbn iota. now rewrite E.
  - exists [data]. split; auto. unfold fetch_of. cbn [ca_pack ca_content]. change (1 =? 1) with true. cbn iota.
    assert (H : at_ (l ++ [data]) (N.of_nat (length l)) = Some data).
    { unfold at_. rewrite app_length. cbn [length]. assert ((N.of_nat (length l) <? N.of_nat (length l + 1)) = true) as -> by lia.
      rewrite Nat2N.id. rewrite nth_error_app2 by lia. now rewrite Nat.sub_diag. }
    now rewrite H.
Qed.

Lemma mirrors_as_mono w q n l m nd : mirrors_as w q n l nd -> mirrors_as w q n (l ++ m) nd.
Proof.
  unfold mirrors_as. intros (H1 & H2 & H3 & H4 & H5). repeat split; auto.
  destruct n; auto. destruct H5 as (a & H5 & H6). exists a. split; auto. now apply fetch_mono.
Qed.
Lemma mirrors_mono w q l m nd : mirrors w q l nd -> mirrors w q (l ++ m) nd.
Proof. intros (n & H1 & H2). exists n. split; auto. now apply mirrors_as_mono. Qed.

Lemma ordinary_last s d n : Forall ordinary (d ++ [n]) -> pieces s = d ++ [n] -> dir_of s = d /\ last_of s = Some n.
Proof.
  intros Ho E. unfold dir_of, last_of. rewrite E, (drop_dots_ordinary _ Ho). split; [apply removelast_last|].
  rewrite rev_app_distr. cbn [rev app]. apply Forall_app in Ho as [_ Ho]. inversion Ho as [|? ? (_ & _ & _ & H) _]; subst.
  now destruct (bytes_eqb_spec n (b "..")).
Qed.

Section Tree.
  Variables (w : world) (s pre : bytes) (root r0 : path) (depth : nat).
  Hypothesis Hrel : is_abs s = false.
  Hypothesis Hroot : look_str w true s = At root HDir.
  Hypothesis HT : source_tree w root depth.
  Hypothesis Hpre : filter not_dot (pieces s) = pieces pre ++ r0.
  Hypothesis Hutf : forallb utf8 (pieces s) = true.
  Hypothesis Hr0 : Forall ordinary r0.
  Local Notation names q := (h_names (w_fs w) (root ++ q)).
  Local Notation inside q := (q%list = @nil bytes \/ h_names (w_fs w) (root ++ q%list) <> None).

  Definition goodnode (q : path) (contents : list bytes) (nd : node) : Prop :=
    match q with [] => mirrors_as w root HDir contents nd | _ => mirrors w (root ++ q) contents nd end.

  Lemma goodnode_mono q l m nd : goodnode q l nd -> goodnode q (l ++ m) nd.
  Proof. destruct q; [apply mirrors_as_mono|apply mirrors_mono]. Qed.

  Lemma inside_ordinary q : inside q -> Forall ordinary q.
  Proof. intros [->|H]; [constructor|]. eapply tree_ordinary; eauto. Qed.

  Lemma arx_path_of q : inside q -> exists p a, from_path (str s q) = Ok p /\ strip_prefix p pre = Some a /\ pieces a = r0 ++ q /\ (r0 ++ q = [] -> a = []).
  Proof.
    intros Hq. pose proof (inside_ordinary q Hq) as Ho. pose proof (s_nonempty _ _ _ Hrel Hroot) as Hs.
    assert (Hp : filter not_dot (pieces (str s q)) = pieces pre ++ r0 ++ q).
    { rewrite (str_pieces s q Ho), filter_app, Hpre, (filter_ordinary q Ho). now rewrite app_assoc. }
    assert (Hu : forallb utf8 (filter not_dot (pieces (str s q))) = true).
    { rewrite (str_pieces s q Ho). apply forallb_forall. intros n Hn. apply filter_In in Hn as [Hn _]. apply in_app_iff in Hn as [Hn|Hn].
      - rewrite forallb_forall in Hutf. auto.
      - destruct Hq as [->|Hq]; [destruct Hn|]. now apply (sr_names _ _ _ HT q n). }
    destruct (from_path_ok (str s q)) as [H1 H2]; auto.
    { now apply str_nonempty. } { now rewrite str_abs. }
    rewrite Hp in H1, H2. exists (join (pieces pre ++ r0 ++ q)).
    destruct (strip_join (pieces pre ++ r0 ++ q) pre (r0 ++ q)) as (a & A1 & A2 & A3); auto.
    { rewrite <- H2. apply Forall_forall. intros n Hn. now apply in_pieces in Hn. }
    exists a. auto.
  Qed.

  Lemma node_entry q : inside q -> r0 ++ q <> [] -> forall c, exists e k ext,
    add_entry_from_path w pre (str s q) (std_path_eqb (str s q) s) c =
      (let (st, r) := add_entry (cr_entries c) e in (mkCreator st (cr_contents c ++ ext), r)) /\
    pieces (e_path e) = r0 ++ q /\ e_kind e = Ok (Some k) /\ goodnode q (cr_contents c ++ ext) (k, e_meta e).
  Proof.
    intros Hq Hne c. destruct (arx_path_of q Hq) as (p & a & Hf & Hs & Ha & _).
    assert (Hna : nonempty a = true).
    { destruct a; auto. }
    unfold add_entry_from_path. rewrite Hf, Hs, Hna. unfold new_from_path.
    destruct q as [|x q].
    - change (str s []) with s. rewrite is_root_self. erewrite detect_root by eauto. cbn [bind].
      exists (mkEntry a (Ok (Some KDir)) (meta_at w root)), KDir, []. rewrite app_nil_r. split; auto. split; auto. split; auto.
      repeat split.
    - destruct Hq as [Hq|Hq]; [discriminate Hq|].
      rewrite (is_root s (x :: q) (s_nonempty _ _ _ Hrel Hroot) Hrel (tree_ordinary _ _ _ HT _ Hq)) by easy.
      destruct (names (x :: q)) as [n|] eqn:En; [|easy].
      rewrite (detect_node _ _ _ _ Hrel Hroot HT (x :: q) n) by easy. cbn [bind].
      assert (Hmeta : forall l k, match n with
                                  | HFile i => exists addr, k = KFile (N.of_nat (length (h_data (w_fs w) i))) addr /\ fetch_of l addr = Found (h_data (w_fs w) i)
                                  | HLink t _ => k = KLink t
                                  | HDir => k = KDir
                                  end -> goodnode (x :: q) l (k, meta_at w (root ++ x :: q))).
      { intros l k H. exists n. split; auto. unfold mirrors_as. cbn [fst snd meta_at m_uid m_gid m_mode m_mtime]. auto. }
      destruct n as [|i|t m]; cbn [kind_at].
      + exists (mkEntry a (Ok (Some KDir)) (meta_at w (root ++ x :: q))), KDir, []. rewrite app_nil_r. auto.
      + destruct (sr_files _ _ _ HT (x :: q) i) as [-> ->]; [easy|exact En|]. cbn iota.
        pose proof (add_content_ok (cr_contents c) (h_data (w_fs w) i)) as (ext & E1 & E2).
        destruct (add_content (cr_contents c) (h_data (w_fs w) i)) as [l' addr]. cbn [fst snd] in E1, E2. subst l'.
        exists (mkEntry a (Ok (Some (KFile (N.of_nat (length (h_data (w_fs w) i))) addr))) (meta_at w (root ++ x :: q))), (KFile (N.of_nat (length (h_data (w_fs w) i))) addr), ext.
        split; auto. split; auto. split; auto. apply Hmeta. eauto.
      + exists (mkEntry a (Ok (Some (KLink t))) (meta_at w (root ++ x :: q))), (KLink t), []. rewrite app_nil_r. auto.
  Qed.

  Lemma root_entry : r0 = [] -> forall c, add_entry_from_path w pre s (std_path_eqb s s) c = (c, Ok tt).
  Proof.
    intros Hn c. destruct (arx_path_of []) as (p & a & Hf & Hs & _ & Ha); auto. change (str s []) with s in Hf.
    unfold add_entry_from_path. rewrite Hf, Hs. rewrite app_nil_r in Ha. now rewrite (Ha Hn).
  Qed.

  (** ** The whole list *)
  Variables (l0 : list entry) (contents0 : list bytes).
  Hypothesis Hfree : forall q nd, ~ has l0 (r0 ++ q) nd.
  Hypothesis Hdirs : forall p x t nd, r0 = p ++ x :: t -> has l0 p nd -> is_dir_node nd = true.

  Definition inv (done : list path) (c : creator) : Prop := exists es ext,
    cr_entries c = after (l0 ++ es) /\ all_ok (l0 ++ es) /\ cr_contents c = contents0 ++ ext /\
    (forall p nd, has l0 p nd -> has (l0 ++ es) p nd) /\
    (forall q, In q done -> r0 ++ q <> [] -> exists nd, has (l0 ++ es) (r0 ++ q) nd) /\
    (forall p nd, has (l0 ++ es) p nd -> has l0 p nd \/ (exists q, In q done /\ p = r0 ++ q /\ goodnode q (cr_contents c) nd) \/
       (nd = implicit_dir /\ p <> [] /\ exists x t, r0 = p ++ x :: t)).

  Lemma prefix_cases (p u q : path) : r0 ++ q = p ++ u -> (exists x t, r0 = p ++ x :: t) \/ exists v, p = r0 ++ v /\ q = v ++ u.
  Proof.
    clear. revert p. induction r0 as [|y r IH]; intros p E; cbn in E.
    - right. exists p. auto.
    - destruct p as [|z p].
      + left. exists y, r. reflexivity.
      + cbn in E. injection E as <- E. destruct (IH p E) as [(x & t & ->)|(v & -> & Hq)].
        * left. exists x, t. reflexivity.
        * right. exists v. auto.
  Qed.

  Lemma inv_step done q c : inv done c -> inside q -> ~ In q done ->
    (q = [] \/ exists q' n, q = q' ++ [n] /\ In q' done) ->
    exists c', add_entry_from_path w pre (str s q) (std_path_eqb (str s q) s) c = (c', Ok tt) /\ inv (done ++ [q]) c'.
  Proof.
    intros (es & ext & I1 & I2 & I3 & I4 & I5 & I6) Hq Hnew Hpar.
    destruct (list_eq_dec (list_eq_dec N.eq_dec) (r0 ++ q) []) as [E0|E0].
    - apply app_eq_nil in E0 as [E1 ->]. change (str s []) with s. rewrite (root_entry E1). exists c. split; auto.
      exists es, ext. repeat (split; [assumption|]). split.
      + intros q Hi Hn. apply in_app_iff in Hi as [Hi|[<-|[]]]; auto. now rewrite E1 in Hn.
      + intros p nd Hp. destruct (I6 p nd Hp) as [H|[(q & H1 & H2)|H]]; auto. right. left. exists q. rewrite in_app_iff. auto.
    - destruct (node_entry q Hq E0 c) as (e & k & ext' & Ee & Ep & Ek & Eg). rewrite Ee, I1.
      assert (Ho : Forall ordinary (r0 ++ q)) by (apply Forall_app; split; auto; now apply inside_ordinary).
      destruct (r0 ++ q) as [|n d _] eqn:Ed using rev_ind; [easy|].
      destruct (ordinary_last (e_path e) d n Ho Ep) as [Hd Hl].
      destruct (add_fresh (l0 ++ es) e k n I2 Ek Hl) as (A1 & A2 & A3).
      + rewrite Hd. intros q1 u nd E1 H1. assert (E2 : r0 ++ q = q1 ++ (u ++ [n])) by (rewrite Ed, E1; now rewrite <- app_assoc).
        destruct (I6 q1 nd H1) as [H|[(q2 & G1 & -> & G2)|(-> & _)]]; [| |reflexivity].
        * destruct (prefix_cases q1 (u ++ [n]) q E2) as [(x & t & Er)|(v & -> & _)]; [now apply (Hdirs q1 x t nd)|now apply Hfree in H].
        * rewrite <- app_assoc in E2. apply app_inv_head in E2. destruct q2 as [|x q2].
          -- destruct G2 as (_ & _ & _ & _ & G2). unfold is_dir_node. now rewrite G2.
          -- destruct G2 as (n0 & G0 & _ & _ & _ & _ & G2). unfold is_dir_node.
             destruct Hq as [->|Hq]; [discriminate E2|]. rewrite E2 in Hq.
             destruct (tree_up w root depth HT (u ++ [n]) (x :: q2)) as [G|G]; auto; [now destruct u|easy|]. rewrite G in G0. injection G0 as <-. now rewrite G2.
      + rewrite Hd. intros nd H. destruct (I6 _ nd H) as [H'|[(q2 & G1 & G2 & _)|(_ & _ & x & t & Er)]].
        * rewrite <- Ed in H'. now apply Hfree in H'.
        * rewrite <- Ed in G2. apply app_inv_head in G2. now subst q2.
        * rewrite <- Ed in Er. apply (f_equal (@length _)) in Er. rewrite !app_length in Er. cbn in Er. lia.
      + rewrite A1. rewrite Hd in A3. eexists. split; [reflexivity|].
        assert (Hkeep : forall q nd, has (l0 ++ es) q nd -> has (l0 ++ es ++ [e]) q nd).
        { intros q1 nd H. rewrite app_assoc. apply A3. auto. }
        exists (es ++ [e]), (ext ++ ext'). cbn [cr_entries cr_contents]. rewrite !app_assoc, I3 in *.
        split; auto. split; auto. split; [now rewrite <- app_assoc|]. rewrite <- !app_assoc in *.
        split; [auto|]. split.
        * intros q1 Hi Hne. apply in_app_iff in Hi as [Hi|[<-|[]]].
          -- destruct (I5 q1 Hi Hne) as [nd H]. eauto.
          -- exists (k, e_meta e). apply A3. right. left. split; auto.
        * intros p nd H. apply A3 in H as [H|[[-> ->]|(Hp & [u Hu] & -> & Hno)]].
          -- destruct (I6 p nd H) as [H'|[(q1 & G1 & G2 & G3)|H']]; auto. right. left. exists q1. split; [apply in_app_iff; auto|]. split; auto.
             apply (goodnode_mono q1 _ ext') in G3. rewrite <- app_assoc in G3. exact G3.
          -- right. left. exists q. split; [apply in_app_iff; cbn; auto|]. split; auto.
          -- right. right. split; auto. split; auto.
             destruct Hpar as [->|(q' & m & -> & Hin)].
             { rewrite app_nil_r in Ed. exists (match u ++ [n] with x :: _ => x | [] => n end), (tl (u ++ [n])).
               rewrite Ed, Hu, <- app_assoc. destruct u; reflexivity. }
             exfalso. rewrite app_assoc in Ed. apply app_inj_tail in Ed as [Ed ->].
             destruct (I5 q' Hin) as [nd Hnd]; [intros E; rewrite E in Ed; rewrite <- Ed in Hu; now destruct p|].
             rewrite Ed, Hu in Hnd. destruct u as [|y u _] using rev_ind; [rewrite app_nil_r in Hnd; now apply Hno in Hnd|].
             destruct (has_closed _ _ _ _ _ Hnd Hp) as [mt Hmt]. now apply Hno in Hmt.
  Qed.

  Lemma add_tree_loop todo : forall done c, inv done c -> NoDup (done ++ todo) -> (forall q, In q todo -> inside q) ->
    (forall l1 q l2, todo = l1 ++ q :: l2 -> q = [] \/ exists q' n, q = q' ++ [n] /\ In q' (done ++ l1)) ->
    exists c', add_each w pre (map (fun p => (p, std_path_eqb p s)) (map (str s) todo)) c = (c', Ok tt) /\ inv (done ++ todo) c'.
  Proof.
    induction todo as [|q todo IH]; intros done c Hi Hnd Hin Hpar; cbn [map add_each].
    - exists c. rewrite app_nil_r. auto.
    - destruct (inv_step done q c Hi) as (c1 & -> & Hi1); [apply Hin; now left| | |].
      + intros H. apply NoDup_remove_2 in Hnd. apply Hnd, in_app_iff. auto.
      + destruct (Hpar [] q todo eq_refl) as [H|H]; auto. rewrite app_nil_r in H. auto.
      + destruct (IH (done ++ [q]) c1 Hi1) as (c' & E & Hi').
        * now rewrite <- app_assoc.
        * intros q' H. apply Hin. now right.
        * intros l1 q' l2 E. rewrite <- app_assoc. apply (Hpar (q :: l1) q' l2). now rewrite E.
        * exists c'. split; auto. now rewrite <- app_assoc in Hi'.
  Qed.

  Lemma before_fail_map qs : before_fail (map (fun q => WEntry (str s q)) qs) = map (str s) qs.
  Proof. induction qs; cbn; auto. now rewrite IHqs. Qed.

  Hypothesis Hok0 : all_ok l0.

  Theorem add_tree fuel : (depth < fuel)%nat -> exists c es ext,
    add_from_path fuel w pre s true (mkCreator (after l0) contents0) = (c, Ok tt) /\
    cr_entries c = after (l0 ++ es) /\ all_ok (l0 ++ es) /\ cr_contents c = contents0 ++ ext /\
    (forall p nd, has l0 p nd -> has (l0 ++ es) p nd) /\
    (forall q, inside q -> r0 ++ q <> [] -> exists nd, has (l0 ++ es) (r0 ++ q) nd) /\
    (forall p nd, has (l0 ++ es) p nd -> has l0 p nd \/ (exists q, inside q /\ p = r0 ++ q /\ goodnode q (cr_contents c) nd) \/
       (nd = implicit_dir /\ p <> [] /\ exists x t, r0 = p ++ x :: t)).
  Proof.
    intros Hf. unfold add_from_path. destruct (walk_tree w s root depth Hrel Hroot HT fuel Hf) as (qs & -> & N & P & M).
    rewrite before_fail_map.
    destruct (add_tree_loop ([] :: qs) [] (mkCreator (after l0) contents0)) as (c & E & es & ext & I1 & I2 & I3 & I4 & I5 & I6).
    - exists [], []. rewrite !app_nil_r. cbn [cr_entries cr_contents]. repeat split; auto. intros q [].
    - cbn [app]. constructor; auto. rewrite M. tauto.
    - intros q [<-|H]; auto. apply M in H. tauto.
    - intros l1 q l2 El. destruct l1 as [|y l1]; cbn in El; injection El as <- El; auto.
      destruct (P l1 q l2 El) as (q' & n & -> & [->|H]); right; eexists _, n; (split; [reflexivity|]); cbn; auto.
    - exists c, es, ext. split; auto. split; auto. split; auto. split; auto. split; auto.
      assert (Hall : forall q, In q ([] ++ [] :: qs) <-> inside q).
      { intros q. cbn. rewrite M. destruct (list_eq_dec (list_eq_dec N.eq_dec) q []); intuition. }
      split.
      + intros q Hq. apply I5. now apply Hall.
      + intros p nd H. destruct (I6 p nd H) as [H'|[(q & G1 & G2)|H']]; auto. right. left. exists q. split; auto. now apply Hall.
  Qed.
End Tree.
