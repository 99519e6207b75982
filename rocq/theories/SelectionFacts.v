(** Extractions with two selections that agree on what they come across are the same. *)
From Verif Require Export SpecSelection ExtractSession.

Section Walk.
  Variables (a : archive) (files files2 : list bytes) (rc rc2 : bool) (base : opath) (pol : overwrite) (sched : nat -> turns) (d0 : path).
  Hypothesis Hwf : wf a.
  Notation cfg := (mkConfig files base rc pol).
  Notation cfg2 := (mkConfig files2 base rc2 pol).

  Lemma open_same cur mt f : open_target cfg2 cur mt f = open_target cfg cur mt f.
  Proof. exact eq_refl. Qed.
  Lemma link_same cur t mt f : make_link cfg2 cur t mt f = make_link cfg cur t mt f.
  Proof. exact eq_refl. Qed.
  Lemma abs_same cur : abs_path cfg2 cur = abs_path cfg cur.
  Proof. exact eq_refl. Qed.

  Lemma file_same c nm addr mt : should_extract cfg2 (push (x_cur c) nm) false = should_extract cfg (push (x_cur c) nm) false ->
    x_on_file a cfg2 sched c (nm, addr, mt) = x_on_file a cfg sched c (nm, addr, mt).
  Proof. intros H. unfold x_on_file. cbv zeta. rewrite tick_cur, H. destruct (should_extract cfg _ false); [|exact eq_refl]. now rewrite open_same. Qed.
  Lemma file_cur c e : x_cur (fst (x_on_file a cfg sched c e)) = x_cur c.
  Proof.
    destruct e as [[nm addr] mt]. unfold x_on_file. cbv zeta. pose proof (tick_cur sched c) as H.
    destruct (should_extract _ _ _); [|exact H]. destruct (a_fetch a addr); try exact H.
    destruct (open_target _ _ _ _) as [f1 [[j|]|e| |]]; exact H.
  Qed.
  Lemma onlink_same c nm t mt : should_extract cfg2 (push (x_cur c) nm) false = should_extract cfg (push (x_cur c) nm) false ->
    x_on_link cfg2 sched c (nm, t, mt) = x_on_link cfg sched c (nm, t, mt).
  Proof. intros H. unfold x_on_link. cbv zeta. rewrite tick_cur, H. destruct (should_extract cfg _ false); [|exact eq_refl]. now rewrite link_same. Qed.
  Lemma link_cur c e : x_cur (fst (x_on_link cfg sched c e)) = x_cur c.
  Proof.
    destruct e as [[nm t] mt]. unfold x_on_link. cbv zeta. pose proof (tick_cur sched c) as H.
    destruct (should_extract _ _ _); [|exact H]. destruct (make_link _ _ _ _ _) as [f1 r]. exact H.
  Qed.
  Lemma enter_same c nm : should_extract cfg2 (push (x_cur c) nm) true = should_extract cfg (push (x_cur c) nm) true ->
    on_enter (extractor a cfg2 sched) c nm = on_enter (extractor a cfg sched) c nm.
  Proof. intros H. cbn [extractor on_enter]. cbv zeta. rewrite tick_cur, H, abs_same. exact eq_refl. Qed.
  Lemma enter_cur c nm : x_cur (fst (on_enter (extractor a cfg sched) c nm)) = push (x_cur c) nm.
  Proof.
    cbn [extractor on_enter]. cbv zeta. rewrite tick_cur. destruct (should_extract _ _ _); [|exact eq_refl].
    unfold io. destruct (create_dir_all _ _) as [f1 [e|]]; exact eq_refl.
  Qed.

  Lemma walk_same lo hi fo : forest_of a lo hi fo -> forall d c, handled d -> fnames fo -> x_cur c = join d ->
    (forall i p r, In (i, d0 ++ p) (flat (d0 ++ d) fo) -> at_ (a_recs a) i = Some r ->
       should_extract cfg2 (join p) (is_dir_node (node_of r)) = should_extract cfg (join p) (is_dir_node (node_of r))) ->
    walk_forest x_builder a (extractor a cfg2 sched) fo c = walk_forest x_builder a (extractor a cfg sched) fo c /\
    (snd (walk_forest x_builder a (extractor a cfg sched) fo c) = Ok tt ->
     x_cur (fst (walk_forest x_builder a (extractor a cfg sched) fo c)) = join d).
  Proof.
    induction 1 as [lo|lo hi r rest Hlt Hr Hnd Hrest IH|lo hi r first nb kids rest Hlt Hr Hp Hkids IHk Hrest IHr];
      intros d c Hd Hfn Hc Hsame; cbn [walk_forest]; [split; [exact eq_refl|intros _; exact Hc]| |].
    - destruct Hfn as (Hn & _ & Hfr). assert (Hun : utf8 (r_name r) = true) by (apply Forall_inv in Hn; tauto).
      rewrite (x_create_file a lo r (r_name r) (r_mtime r)) by auto.
      assert (Hpush : push (x_cur c) (r_name r) = join (d ++ [r_name r])).
      { rewrite Hc. apply push_join; [now apply handled_good|]. now apply Forall_inv in Hn. }
      assert (Hs : is_dir_node (node_of r) = false -> should_extract cfg2 (push (x_cur c) (r_name r)) false = should_extract cfg (push (x_cur c) (r_name r)) false).
      { intros E. rewrite Hpush. rewrite <- E. apply (Hsame lo (d ++ [r_name r]) r); [|exact Hr]. rewrite app_assoc. cbn [flat]. now left. }
      assert (Hrec : forall i p r0, In (i, d0 ++ p) (flat (d0 ++ d) rest) -> at_ (a_recs a) i = Some r0 ->
        should_extract cfg2 (join p) (is_dir_node (node_of r0)) = should_extract cfg (join p) (is_dir_node (node_of r0))).
      { intros i p r0 Hi. apply Hsame. cbn [flat]. right. now apply in_app_iff; right. }
      unfold node_of, node_of_rec in Hs.
      destruct (r_payload r) as [addr size|first nb|t|v] eqn:Ep.
      2: { now destruct (Hnd first nb). } 3: { now apply (wf_variant _ Hwf _ _ v) in Hr. }
      + cbn [andthen extractor on_file]. rewrite (file_same c (r_name r) addr (r_mtime r)) by (now apply Hs).
        pose proof (file_cur c (r_name r, addr, r_mtime r)) as Hcur.
        destruct (x_on_file a cfg sched c (r_name r, addr, r_mtime r)) as [c1 [[]|e| |]]; cbn [fst andthen] in *; try (split; [exact eq_refl|intros HH; discriminate HH]).
        apply IH; auto. now rewrite Hcur.
      + destruct (utf8 t); [|cbn [andthen]; split; [exact eq_refl|intros HH; discriminate HH]].
        cbn [andthen extractor on_link]. rewrite (onlink_same c (r_name r) t (r_mtime r)) by (now apply Hs).
        pose proof (link_cur c (r_name r, t, r_mtime r)) as Hcur.
        destruct (x_on_link cfg sched c (r_name r, t, r_mtime r)) as [c1 [[]|e| |]]; cbn [fst andthen] in *; try (split; [exact eq_refl|intros HH; discriminate HH]).
        apply IH; auto. now rewrite Hcur.
    - destruct Hfn as (Hn & Hfk & Hfr). assert (Hun : utf8 (r_name r) = true) by (apply Forall_inv in Hn; tauto).
      rewrite (x_create_file a lo r (r_name r) (r_mtime r)) by auto.
      assert (Hpush : push (x_cur c) (r_name r) = join (d ++ [r_name r])).
      { rewrite Hc. apply push_join; [now apply handled_good|]. now apply Forall_inv in Hn. }
      assert (Hs : should_extract cfg2 (push (x_cur c) (r_name r)) true = should_extract cfg (push (x_cur c) (r_name r)) true).
      { rewrite Hpush. assert (E : is_dir_node (node_of r) = true) by (unfold node_of, node_of_rec; now rewrite Hp). rewrite <- E.
        apply (Hsame lo (d ++ [r_name r]) r); [|exact Hr]. rewrite app_assoc. cbn [flat]. now left. }
      rewrite Hp. cbn [andthen]. rewrite (enter_same c (r_name r) Hs).
      pose proof (enter_cur c (r_name r)) as Hcur.
      destruct (on_enter (extractor a cfg sched) c (r_name r)) as [c1 [en|e| |]]; cbn [fst andthen] in *; try (split; [exact eq_refl|intros HH; discriminate HH]).
      assert (Hd1 : handled (d ++ [r_name r])) by now apply handled_app.
      assert (Hpop : pop (join (d ++ [r_name r])) = join d).
      { apply Forall_inv in Hn. apply pop_push; try tauto. now apply handled_good. }
      assert (Hk : (if en then walk_forest x_builder a (extractor a cfg2 sched) kids c1 else (c1, Ok tt)) =
                   (if en then walk_forest x_builder a (extractor a cfg sched) kids c1 else (c1, Ok tt)) /\
                   (snd (if en then walk_forest x_builder a (extractor a cfg sched) kids c1 else (c1, Ok tt)) = Ok tt ->
                    x_cur (fst (if en then walk_forest x_builder a (extractor a cfg sched) kids c1 else (c1, Ok tt))) = join (d ++ [r_name r]))).
      { destruct en; [|split; [exact eq_refl|intros _; cbn [fst]; now rewrite Hcur, Hpush]].
        apply IHk; auto; [now rewrite Hcur, Hpush|]. intros i p r0 Hi. apply Hsame. cbn [flat]. right. apply in_app_iff. left. now rewrite <- app_assoc. }
      destruct Hk as [K1 K2]. rewrite K1. clear K1.
      destruct (if en then walk_forest x_builder a (extractor a cfg sched) kids c1 else (c1, Ok tt)) as [c2 [[]|e| |]]; cbn [fst snd andthen] in *;
        try (split; [exact eq_refl|intros HH; discriminate HH]).
      cbn [extractor on_exit andthen]. apply IHr; auto.
      + cbn [with_cur x_cur]. now rewrite (K2 eq_refl).
      + intros i p r0 Hi. apply Hsame. cbn [flat]. right. now apply in_app_iff; right.
  Qed.
End Walk.

Lemma extract_same a files files2 rc rc2 base pol sched last rg d f : wf a -> dir_range a rg d -> handled_below a d ->
  (forall i p nd, p <> [] -> astored a i (d ++ p) nd ->
     should_extract (mkConfig files2 base rc2 pol) (join p) (is_dir_node nd) = should_extract (mkConfig files base rc pol) (join p) (is_dir_node nd)) ->
  extract_range a rg (mkConfig files2 base rc2 pol) sched last f = extract_range a rg (mkConfig files base rc pol) sched last f.
Proof.
  intros Hwf Hrg Hhn Hsame. unfold extract_range.
  destruct (range_forest a Hwf rg d Hrg) as (fo & j & Hf & _ & _ & Hin & _ & Erun).
  assert (Hfn : fnames fo).
  { apply (fnames_flat fo d). intros i p Hi. apply Hin in Hi as [Hi (x & t & ->)]. apply Hhn in Hi.
    destruct (exists_last (l := x :: t) ltac:(intros HH; discriminate HH)) as (y & z & E). rewrite E in *. rewrite app_assoc, last_last. now apply handled_app in Hi. }
  assert (E : forall c, x_cur c = join [] -> walk_forest x_builder a (extractor a (mkConfig files2 base rc2 pol) sched) fo c = walk_forest x_builder a (extractor a (mkConfig files base rc pol) sched) fo c).
  { intros c Hc. eapply (walk_same a files files2 rc rc2 base pol sched d Hwf _ _ _ Hf []); auto; [constructor|].
    intros i p r Hi Hr. rewrite app_nil_r in Hi. apply Hin in Hi as [Hi (x & t & Hx)]. apply app_inv_head in Hx. subst p.
    apply (Hsame i); [intros HH; discriminate HH|]. exists r. split; [exact Hr|]. split; [exact Hi|].
    unfold node_of. unfold node_of_rec. destruct (r_payload r) as [| | |v] eqn:Ev; auto. now apply (wf_variant _ Hwf _ _ v) in Hr. }
  rewrite !Erun.
  change (on_start (extractor a (mkConfig files2 base rc2 pol) sched)) with (on_start (extractor a (mkConfig files base rc pol) sched)).
  change (on_stop (extractor a (mkConfig files2 base rc2 pol) sched)) with (on_stop (extractor a (mkConfig files base rc pol) sched)).
  assert (Hc0 : x_cur (fst (on_start (extractor a (mkConfig files base rc pol) sched) (mkCtx [] f [] false 0))) = []).
  { cbn [extractor on_start]. cbv zeta. unfold io. cbn [fst with_fs x_cur]. exact (tick_cur sched (mkCtx [] f [] false 0)). }
  destruct (on_start (extractor a (mkConfig files base rc pol) sched) (mkCtx [] f [] false 0)) as [c0 [[]|e| |]]; cbn [fst] in Hc0; cbn [andthen]; try exact eq_refl.
  rewrite (E c0 Hc0). exact eq_refl.
Qed.
