(** [arx list] on the archive of a session. *)
From Verif Require Export ListFacts.

Section Session.
  Variables (l : list entry) (fetch : caddr -> fetched) (a : archive).
  Hypothesis (Hs : small l) (Ha : archive_of l fetch a).

  Lemma session_record i r : at_ (a_recs a) i = Some r ->
    exists p nd, astored a i (p ++ [r_name r]) nd /\ has l (p ++ [r_name r]) nd /\ node_of_rec r = Some nd.
  Proof.
    intros Hr. destruct (archive_ok l fetch a Hs Ha) as (m & _ & _ & _ & Hw & (_ & Hall & _) & _).
    destruct (Hall i) as [p Hp]; [now apply at_some_lt in Hr|].
    destruct (apath_inv _ _ _ Hp) as (r' & d & Hr' & _ & ->). rewrite Hr in Hr'. injection Hr' as <-.
    destruct (node_of_rec r) as [nd|] eqn:En.
    - assert (Hst : astored a i (d ++ [r_name r]) nd) by (exists r; auto).
      exists d, nd. split; auto. split; auto. apply (archive_has l fetch a); eauto.
    - unfold node_of_rec in En. destruct (r_payload r) eqn:Ep; try discriminate En. now apply (wf_variant _ Hw _ _ variant) in Hr.
  Qed.

  Lemma session_list : exists f ps,
    forest_of a (fst (a_root a)) (fst (a_root a) + snd (a_root a)) f /\ wf a /\
    ps = map (fun ip => (snd ip, node_at a (fst ip))) (flat [] f) /\ lists l ps /\
    forall C F L D (B : builder F L D) (op : operator C F L D) c,
        run B a op c = andthen (on_start op c) (fun c _ => andthen (walk_forest B a op f c) (fun c _ => on_stop op c)).
  Proof.
    destruct (archive_ok l fetch a Hs Ha) as (m & _ & _ & _ & Hw & _).
    destruct (run_forest a Hw) as (f & Hf & E). exists f. eexists. split; [exact Hf|]. split; [exact Hw|]. split; [reflexivity|].
    split; [|exact E]. destruct (root_flat a Hw f Hf) as [H1 H2]. split.
    - rewrite map_map. exact H2.
    - intros p nd. rewrite in_map_iff. split.
      + intros ((i & p') & E2 & Hin). injection E2 as <- <-. cbn [fst snd] in *. apply H1 in Hin.
        destruct (apath_inv _ _ _ Hin) as (r & d & Hr & _ & ->).
        destruct (session_record i r Hr) as (p & nd & (r' & Hr' & Hp & Hn) & Hh & _). rewrite Hr in Hr'. injection Hr' as <-.
        assert (p ++ [r_name r] = d ++ [r_name r]) as <- by (eapply apath_det; eauto).
        assert (node_at a i = nd) as -> by (unfold node_at; now rewrite Hr, Hn). exact Hh.
      + intros Hh. apply (archive_has l fetch a) in Hh as (i & r & Hr & Hp & Hn); auto. exists (i, p). cbn [fst snd]. split; [|now apply H1].
        f_equal. unfold node_at. now rewrite Hr, Hn.
  Qed.

  Theorem plain_listing : exists ps, lists l ps /\ list_cmd a None = (text (map (fun x => join (fst x)) ps), Ok tt).
  Proof.
    destruct session_list as (f & ps & Hf & Hw & Eps & Hl & Hrun). exists ps. split; auto.
    unfold list_cmd. rewrite Hrun. cbn [lister on_start on_stop andthen].
    change (mkOp _ _ _ _ _ _) with lister. rewrite (plain_walk a Hw _ _ f Hf).
    - cbn [andthen on_stop lister fst snd app]. f_equal. f_equal. subst ps. rewrite map_map. reflexivity.
    - intros r i Hr. destruct (session_record i r Hr) as (p & nd & _ & Hh & _). apply stored_names in Hh as [_ Hh].
      apply Forall_app in Hh as [_ Hh]. now apply Forall_cons_iff in Hh as [[Hh _] _].
  Qed.

  Theorem stable_listing_any :
    (forall p nd n, has l p nd -> In n p -> n <> b "." /\ utf8 n = true) ->
    exists ps, lists l ps /\ list_cmd a (Some 1) = (text (map (fun x => stable_line (fst x) (as_text (snd x))) ps), Ok tt).
  Proof.
    intros Hnames.
    destruct session_list as (f & ps & Hf & Hw & Eps & Hl & Hrun). exists ps. split; auto.
    unfold list_cmd. change (1 =? 1) with true. cbv iota. rewrite Hrun. cbn [stable_lister on_start on_stop andthen].
    change (mkOp _ _ _ _ _ _) with stable_lister. change (@nil N) with (join []) at 1. rewrite (stable_walk a Hw _ _ f Hf).
    - cbn [andthen on_stop stable_lister fst snd app]. f_equal. f_equal. subst ps. rewrite map_map. reflexivity.
    - intros i r Hr. destruct (session_record i r Hr) as (p & nd & _ & Hh & _). pose proof (stored_names _ _ _ Hh) as [_ H].
      apply Forall_app in H as [_ H]. apply Forall_cons_iff in H as [[H1 H2] _].
      destruct (Hnames _ _ (r_name r) Hh) as [H3 H4]; [rewrite in_app_iff; right; now left|]. now repeat split.
    - intros i r Hr. unfold create_common.
      assert (H32 : as_u32 (r_parent r) = r_parent r).
      { apply N.mod_small. destruct (wf_parent _ Hw _ _ Hr) as [->|(j & rj & f0 & nb & -> & Hj & _)]; [reflexivity|].
        pose proof (wf_size _ Hw) as Hsz. apply at_some_lt in Hr. lia. }
      rewrite H32. destruct (r_parent r =? 0); cbn [bind]; eexists; split; try reflexivity; auto.
    - constructor.
  Qed.

  Theorem stable_listing :
    (forall p nd n, has l p nd -> In n p -> n <> b "." /\ utf8 n = true) ->
    (forall p t m, has l p (KLink t, m) -> utf8 t = true) ->
    exists ps, lists l ps /\ list_cmd a (Some 1) = (text (map (fun x => stable_line (fst x) (snd x)) ps), Ok tt).
  Proof.
    intros Hnames Htargets. destruct (stable_listing_any Hnames) as (ps & Hl & E). exists ps. split; [exact Hl|]. rewrite E. f_equal. f_equal.
    apply map_ext_in. intros [p [k m]] Hin. apply (proj2 Hl) in Hin. unfold as_text. cbn [fst snd]. destruct k as [|size ad|t]; auto.
    now rewrite (lossy_utf8 t (Htargets p t m Hin)).
  Qed.
End Session.
