(** A killed extraction is a sequential extraction of the first visited entries, and possibly a part of
    the next one. *)
From Verif Require Export SpecKilled ExtractSession.

Lemma half_link_data cfg cur t m f d : half_link cfg cur t m (with_data f d) = with_data (half_link cfg cur t m f) d.
Proof.
  unfold half_link. rewrite symlink_data, remove_file_data, modified_data.
  destruct (symlink f t (abs_path cfg cur)) as [f1 [e|]]; cbn [fst snd]; [|reflexivity].
  destruct e; try reflexivity. destruct (x_policy cfg); try reflexivity.
  destruct (modified f false (abs_path cfg cur)) as [t1|e1| |]; try reflexivity.
  destruct (entry_time m) as [t'|e1| |]; try reflexivity. destruct (t1 <=? t')%Z; reflexivity.
Qed.
Lemma half_link_keeps cfg cur t m f : h_data (half_link cfg cur t m f) = h_data f.
Proof.
  pose proof (half_link_data cfg cur t m f (h_data f)) as H. assert (Ef : with_data f (h_data f) = f) by now destruct f.
  rewrite Ef in H. rewrite H. reflexivity.
Qed.

Section Cut.
  Variables (a : archive) (cfg : config) (sched : nat -> turns) (n j : nat).
  Hypothesis Hwf : wf a.

  (** A part of the entry [(p, nd)]. *)
  Definition cut (p : path) (nd : node) (f g : hostfs) : Prop :=
    g = f \/
    (fst nd = KDir /\ g = fst (create_dir_all f (part j (abs_path cfg (join p))))) \/
    (exists t, fst nd = KLink t /\ g = half_link cfg (join p) t (m_mtime (snd nd)) f).

  Definition stopped (items : list (path * node)) (f : hostfs) (log : list (N * bytes)) (c : ctx) : Prop :=
    exists l1 l2 f1 log1 r1 f2, items = l1 ++ l2 /\ xseq a cfg l1 f log = (f1, log1, r1) /\ rel f2 log1 c /\
      (f2 = f1 \/ (r1 = Ok tt /\ exists p nd l3, l2 = (p, nd) :: l3 /\ cut p nd f1 f2)).

  Definition cutsim (items : list (path * node)) (f : hostfs) (log : list (N * bytes)) (cur : bytes) (y : ctx * res unit) : Prop :=
    (snd y = Ok tt /\ exists f1 log1, xseq a cfg items f log = (f1, log1, Ok tt) /\ rel f1 log1 (fst y) /\ x_cur (fst y) = cur) \/
    (snd y <> Ok tt /\ stopped items f log (fst y)).

  Lemma stopped_more items more f log c : stopped items f log c -> stopped (items ++ more) f log c.
  Proof.
    intros (l1 & l2 & f1 & log1 & r1 & f2 & E & Ex & Hr & H). exists l1, (l2 ++ more), f1, log1, r1, f2.
    split; [now rewrite E, app_assoc|]. split; auto. split; auto. destruct H as [H|(H1 & p & nd & l3 & -> & H2)]; auto.
    right. split; auto. exists p, nd, (l3 ++ more). auto.
  Qed.
  Lemma stopped_after pre items f log f0 log0 c : xseq a cfg pre f log = (f0, log0, Ok tt) -> stopped items f0 log0 c ->
    stopped (pre ++ items) f log c.
  Proof.
    intros E0 (l1 & l2 & f1 & log1 & r1 & f2 & E & Ex & Hr & H). exists (pre ++ l1), l2, f1, log1, r1, f2.
    split; [now rewrite E, app_assoc|]. split; [rewrite ExtractSeq.seq_app, E0; exact Ex|]. auto.
  Qed.
  Lemma stopped_now items f log c : rel f log c -> stopped items f log c.
  Proof. intros H. exists [], items, f, log, (Ok tt), f. cbn [xseq app]. auto. Qed.

  Lemma sim_cut p nd f log y f1 o r1 :
    xone a cfg f p nd = (f1, o, r1) -> (r1 <> Ok tt -> o = None) ->
    rel f1 (match o with Some x => log ++ [x] | None => log end) (fst y) -> snd y = r1 -> r1 <> Ok tt ->
    stopped [(p, nd)] f log (fst y).
  Proof.
    intros E Ho Hr Hy Hn. exists [(p, nd)], [], f1, log, r1, f1. split; [reflexivity|].
    rewrite (Ho Hn) in Hr. cbn [xseq]. rewrite E. split; [destruct r1 as [[]|e| |]; [easy|..]; reflexivity|]. auto.
  Qed.

  Lemma xone_none p nd f f1 o r1 : xone a cfg f p nd = (f1, o, r1) -> r1 <> Ok tt -> o = None.
  Proof.
    unfold xone. destruct nd as [[|size addr|t] mt]; cbn [fst snd].
    - destruct (should_extract _ _ _); [|congruence]. destruct (create_dir_all _ _) as [f2 [e|]]; congruence.
    - destruct (should_extract _ _ _); [|congruence]. destruct (a_fetch a addr); try congruence.
      destruct (open_target _ _ _ _) as [f2 [[i|]|e| |]]; congruence.
    - destruct (utf8 t); [|congruence]. destruct (should_extract _ _ _); [|congruence]. destruct (make_link _ _ _ _ _). congruence.
  Qed.

  Lemma nodup_step p nd items f log f1 o r1 : xone a cfg f p nd = (f1, o, r1) ->
    NoDup (map fst (snd (fst (xseq a cfg ((p, nd) :: items) f log)))) ->
    NoDup (map fst log) /\
    (r1 = Ok tt -> NoDup (map fst (snd (fst (xseq a cfg items f1 (match o with Some x => log ++ [x] | None => log end))))) /\
       forall i dt, o = Some (i, dt) -> ~ In i (map fst log)).
  Proof.
    intros E H. cbn [xseq] in H. rewrite E in H.
    assert (Ho := xone_none p nd f f1 o r1 E).
    destruct r1 as [[]|e| |]; try (cbn in H; split; [exact H|easy]).
    destruct (xseq a cfg items f1 _) as [[f2 l2] r2] eqn:E2. cbn [fst snd] in *.
    assert (Hl := seq_nodup a cfg _ _ _ _ _ _ E2 H). destruct o as [[i dt]|].
    - rewrite map_app in Hl. cbn [map fst] in Hl. split; [now apply nodup_left in Hl|]. intros _. split; auto.
      intros i' dt' E'. injection E' as <- <-. apply NoDup_remove_2 in Hl. now rewrite app_nil_r in Hl.
    - split; auto. intros _. split; auto. easy.
  Qed.

  Lemma nodup_pre pre items f log f0 log0 r : xseq a cfg pre f log = (f0, log0, r) ->
    NoDup (map fst (snd (fst (xseq a cfg (pre ++ items) f log)))) ->
    NoDup (map fst log0) /\ (r = Ok tt -> NoDup (map fst (snd (fst (xseq a cfg items f0 log0))))).
  Proof.
    intros E. rewrite ExtractSeq.seq_app, E. destruct r as [[]|e| |]; cbn [fst snd]; auto; try easy.
    intros H. split; auto. destruct (xseq a cfg items f0 log0) as [[f2 l2] r2] eqn:E2. eapply seq_nodup; eauto.
  Qed.

  Notation kop := (killed_extractor a cfg sched n j).

  (** A file. *)
  Lemma file_cut f log d nm addr mt size c : handled d -> handled [nm] -> NoDup (map fst log) -> rel f log c -> x_cur c = join d ->
    (forall i dt, snd (fst (xone a cfg f (d ++ [nm]) (KFile size addr, mt))) = Some (i, dt) -> ~ In i (map fst log)) ->
    cutsim [(d ++ [nm], (KFile size addr, mt))] f log (join d) (on_file kop c (nm, addr, m_mtime mt)).
  Proof.
    intros Hd Hn Hnd Hrel Hc Hfresh. cbn [killed_extractor on_file]. destruct (Nat.eqb_spec (x_tick c) n) as [En|En].
    { right. split; [easy|]. apply stopped_now. cbn [fst]. now apply tick_rel. }
    cbn [extractor on_file].
    pose proof (file_sim a cfg sched f log d nm addr mt size c Hd Hn Hnd Hrel Hc Hfresh) as (S1 & S2 & S3).
    destruct (xone a cfg f (d ++ [nm]) (KFile size addr, mt)) as [[f1 o] r1] eqn:E1. cbn [fst snd] in *.
    destruct (x_on_file a cfg sched c (nm, addr, m_mtime mt)) as [c1 r2]. cbn [fst snd] in *. subst r2.
    destruct r1 as [[]|e| |].
    - left. split; auto. exists f1, (match o with Some x => log ++ [x] | None => log end). cbn [xseq]. rewrite E1. auto.
    - right. split; [easy|]. eapply (sim_cut _ _ _ _ (c1, Err e)); eauto; [now apply xone_none with (1 := E1)|easy].
    - right. split; [easy|]. eapply (sim_cut _ _ _ _ (c1, Panic)); eauto; [now apply xone_none with (1 := E1)|easy].
    - right. split; [easy|]. eapply (sim_cut _ _ _ _ (c1, Diverge)); eauto; [now apply xone_none with (1 := E1)|easy].
  Qed.

  (** A link. *)
  Lemma link_cut f log d nm t mt c : handled d -> handled [nm] -> NoDup (map fst log) -> rel f log c -> x_cur c = join d -> utf8 t = true ->
    cutsim [(d ++ [nm], (KLink t, mt))] f log (join d) (on_link kop c (nm, t, m_mtime mt)).
  Proof.
    intros Hd Hn Hnd Hrel Hc Hu. cbn [killed_extractor on_link]. destruct (Nat.eqb_spec (x_tick c) n) as [En|En].
    { right. split; [easy|]. cbn [fst].
      pose proof (tick_rel _ _ sched _ Hnd Hrel) as Ht. pose proof (tick_cur sched c) as Hcur. rewrite Hc in Hcur.
      set (c1 := tick sched c) in *. clearbody c1. rewrite Hcur.
      assert (Gd := handled_good _ Hd). assert (Gn := handled_good _ Hn). apply Forall_inv in Gn.
      rewrite push_join by auto.
      destruct (should_extract cfg (join (d ++ [nm])) false); [|now apply stopped_now].
      destruct j as [|k] eqn:Ej; [now apply stopped_now|].
      exists [], [(d ++ [nm], (KLink t, mt))], f, log, (Ok tt), (half_link cfg (join (d ++ [nm])) t (m_mtime mt) f).
      split; [reflexivity|]. split; [reflexivity|]. split.
      - rewrite (rl_fs _ _ _ Ht), half_link_data. apply (with_fs_rel f); auto. apply half_link_keeps.
      - right. split; auto. exists (d ++ [nm]), (KLink t, mt), []. split; auto. right. right. exists t. auto. }
    cbn [extractor on_link].
    pose proof (link_sim a cfg sched f log d nm t mt c Hd Hn Hnd Hrel Hc Hu) as (Ho & S1 & S2 & S3).
    destruct (xone a cfg f (d ++ [nm]) (KLink t, mt)) as [[f1 o] r1] eqn:E1. cbn [fst snd] in *. subst o.
    destruct (x_on_link cfg sched c (nm, t, m_mtime mt)) as [c1 r2]. cbn [fst snd] in *. subst r2.
    destruct r1 as [[]|e| |].
    - left. split; auto. exists f1, log. cbn [xseq]. rewrite E1. auto.
    - right. split; [easy|]. eapply (sim_cut _ _ _ _ (c1, Err e)); eauto; easy.
    - right. split; [easy|]. eapply (sim_cut _ _ _ _ (c1, Panic)); eauto; easy.
    - right. split; [easy|]. eapply (sim_cut _ _ _ _ (c1, Diverge)); eauto; easy.
  Qed.

  (** A directory. *)
  Lemma enter_cut f log d nm mt c : handled d -> handled [nm] -> NoDup (map fst log) -> rel f log c -> x_cur c = join d ->
    let y := on_enter kop c nm in
    (snd y = Ok (should_extract cfg (join (d ++ [nm])) true) /\
       exists f1, xone a cfg f (d ++ [nm]) (KDir, mt) = (f1, None, Ok tt) /\ rel f1 log (fst y) /\ x_cur (fst y) = join (d ++ [nm])) \/
    ((forall v, snd y <> Ok v) /\ stopped [(d ++ [nm], (KDir, mt))] f log (fst y)).
  Proof.
    intros Hd Hn Hnd Hrel Hc. cbn [killed_extractor on_enter]. destruct (Nat.eqb_spec (x_tick c) n) as [En|En].
    { right. split; [easy|]. cbn [fst].
      pose proof (tick_rel _ _ sched _ Hnd Hrel) as Ht. pose proof (tick_cur sched c) as Hcur. rewrite Hc in Hcur.
      set (c1 := tick sched c) in *. clearbody c1. rewrite Hcur.
      assert (Gd := handled_good _ Hd). assert (Gn := handled_good _ Hn). apply Forall_inv in Gn.
      rewrite push_join by auto.
      destruct (should_extract cfg (join (d ++ [nm])) true); [|now apply stopped_now].
      exists [], [(d ++ [nm], (KDir, mt))], f, log, (Ok tt), (fst (create_dir_all f (part j (abs_path cfg (join (d ++ [nm])))))).
      split; [reflexivity|]. split; [reflexivity|]. split.
      - rewrite (rl_fs _ _ _ Ht), create_dir_all_data. cbn [fst]. apply (with_fs_rel f); auto. apply create_dir_all_keeps.
      - right. split; auto. exists (d ++ [nm]), (KDir, mt), []. split; auto. right. left. auto. }
    cbv zeta.
    pose proof (enter_sim a cfg sched f log d nm mt c Hd Hn Hnd Hrel Hc) as (Ho & S1 & S2 & S3).
    destruct (xone a cfg f (d ++ [nm]) (KDir, mt)) as [[f1 o] r1] eqn:E1. cbn [fst snd] in *. subst o.
    destruct (on_enter (extractor a cfg sched) c nm) as [c1 r2]. cbn [fst snd] in *.
    destruct r1 as [[]|e| |]; subst r2.
    - left. split; auto. exists f1. auto.
    - right. split; [easy|]. eapply (sim_cut _ _ _ _ (c1, Err e)); eauto; easy.
    - right. split; [easy|]. eapply (sim_cut _ _ _ _ (c1, Panic)); eauto; easy.
    - right. split; [easy|]. eapply (sim_cut _ _ _ _ (c1, Diverge)); eauto; easy.
  Qed.

  (** Then the rest. *)
  Lemma cut_then pre items f log cur y k f0 :
    cutsim pre f log cur y ->
    (snd y = Ok tt -> forall f1 log1, xseq a cfg pre f log = (f1, log1, Ok tt) -> rel f1 log1 (fst y) -> x_cur (fst y) = cur ->
       cutsim items f1 log1 f0 (k (fst y) tt)) ->
    cutsim (pre ++ items) f log f0 (andthen y k).
  Proof.
    intros [[H1 (f1 & log1 & E & Hr & Hc)]|[H1 H2]] Hk.
    - specialize (Hk H1 f1 log1 E Hr Hc). destruct y as [c [[]|e| |]]; try discriminate H1. cbn [andthen fst snd] in *.
      destruct Hk as [[K1 (f2 & log2 & K2 & K3 & K4)]|[K1 K2]].
      + left. split; auto. exists f2, log2. rewrite ExtractSeq.seq_app, E. auto.
      + right. split; auto. eapply stopped_after; eauto.
    - right. destruct y as [c [[]|e| |]]; cbn [andthen fst snd] in *; try easy; (split; [easy|]); now apply stopped_more.
  Qed.

  Lemma walk_cut lo hi fo : forest_of a lo hi fo -> forall d f log c, handled d -> fnames fo -> rel f log c -> x_cur c = join d ->
    NoDup (map fst (snd (fst (xseq a cfg (vis cfg d fo) f log)))) ->
    cutsim (vis cfg d fo) f log (join d) (walk_forest x_builder a kop fo c).
  Proof.
    induction 1 as [lo|lo hi r rest Hlt Hr Hnd Hrest IH|lo hi r first nb kids rest Hlt Hr Hp Hkids IHk Hrest IHr];
      intros d f log c Hd Hfn Hrel Hc Hlog; cbn [walk_forest vis] in *.
    - left. split; auto. exists f, log. auto.
    - destruct Hfn as (Hn & _ & Hfr). assert (Hun : utf8 (r_name r) = true) by (apply Forall_inv in Hn; tauto).
      rewrite (x_create_file a lo r (r_name r) (r_mtime r)) by auto. unfold node_of, node_of_rec in *.
      destruct (r_payload r) as [addr size|first nb|t|v] eqn:Ep.
      2: { now destruct (Hnd first nb). } 3: { now apply (wf_variant _ Hwf _ _ v) in Hr. }
      + cbn [is_dir_node is_dir_kind fst andb app andthen] in *.
        destruct (xone a cfg f (d ++ [r_name r]) (KFile size addr, meta_of_rec r)) as [[f1 o] res1] eqn:E1.
        destruct (nodup_step _ _ _ _ _ _ _ _ E1 Hlog) as [Hl0 Hl1].
        change (r_mtime r) with (m_mtime (meta_of_rec r)).
        apply (cut_then [(d ++ [r_name r], (KFile size addr, meta_of_rec r))] _ f log (join d)).
        * apply file_cut; auto. intros i dt. rewrite E1. cbn [fst snd]. intros ->. destruct res1 as [[]|e| |].
          -- now apply (proj2 (Hl1 eq_refl) i dt).
          -- discriminate (xone_none _ _ _ _ _ _ E1 ltac:(easy)).
          -- discriminate (xone_none _ _ _ _ _ _ E1 ltac:(easy)).
          -- discriminate (xone_none _ _ _ _ _ _ E1 ltac:(easy)).
        * intros _ f1' log1' E Hr1 Hc1. cbn [xseq] in E. rewrite E1 in E. destruct res1 as [[]|e| |]; try discriminate E. injection E as <- <-.
          apply IH; auto. now apply Hl1.
      + cbn [is_dir_node is_dir_kind fst andb app] in *.
        destruct (xone a cfg f (d ++ [r_name r]) (KLink t, meta_of_rec r)) as [[f1 o] res1] eqn:E1.
        destruct (nodup_step _ _ _ _ _ _ _ _ E1 Hlog) as [Hl0 Hl1].
        destruct (utf8 t) eqn:Hu.
        2: { cbn [andthen]. right. split; [easy|]. now apply stopped_now. }
        cbn [andthen]. change (r_mtime r) with (m_mtime (meta_of_rec r)).
        apply (cut_then [(d ++ [r_name r], (KLink t, meta_of_rec r))] _ f log (join d)).
        * now apply link_cut.
        * intros _ f1' log1' E Hr1 Hc1. cbn [xseq] in E. rewrite E1 in E. destruct res1 as [[]|e| |]; try discriminate E. injection E as <- <-.
          apply IH; auto. now apply Hl1.
    - destruct Hfn as (Hn & Hfk & Hfr). assert (Hun : utf8 (r_name r) = true) by (apply Forall_inv in Hn; tauto).
      rewrite (x_create_file a lo r (r_name r) (r_mtime r)) by auto. unfold node_of, node_of_rec in *. rewrite Hp in *.
      cbn [is_dir_node is_dir_kind fst andb andthen] in *.
      destruct (xone a cfg f (d ++ [r_name r]) (KDir, meta_of_rec r)) as [[f1 o] res1] eqn:E1.
      destruct (nodup_step _ _ _ _ _ _ _ _ E1 Hlog) as [Hl0 Hl1].
      destruct (enter_cut f log d (r_name r) (meta_of_rec r) c Hd Hn Hl0 Hrel Hc) as [(S1 & f1' & S2 & S3 & S4)|(S1 & S2)].
      2: { right. destruct (on_enter kop c (r_name r)) as [c1 [v|e| |]]; cbn [andthen fst snd] in *; [now destruct (S1 v)|..]; (split; [easy|]);
           apply (stopped_more [(d ++ [r_name r], (KDir, meta_of_rec r))]); exact S2. }
      rewrite E1 in S2. injection S2 as <- -> ->.
      destruct (Hl1 eq_refl) as [Hl2 _].
      destruct (on_enter kop c (r_name r)) as [c1 r1]. cbn [fst snd] in S1, S3, S4. subst r1. cbn [andthen].
      assert (Hd1 : handled (d ++ [r_name r])) by now apply handled_app.
      assert (Hpop : pop (join (d ++ [r_name r])) = join d).
      { apply Forall_inv in Hn. apply pop_push; try tauto. now apply handled_good. }
      assert (Hpre : xseq a cfg [(d ++ [r_name r], (KDir, meta_of_rec r))] f log = (f1, log, Ok tt)) by (cbn [xseq]; now rewrite E1).
      assert (Hwhole : cutsim ((if should_extract cfg (join (d ++ [r_name r])) true then vis cfg (d ++ [r_name r]) kids else []) ++ vis cfg d rest) f1 log (join d)
        (andthen (if should_extract cfg (join (d ++ [r_name r])) true then walk_forest x_builder a kop kids c1 else (c1, Ok tt))
          (fun c2 _ => andthen (on_exit kop c2 (r_name r)) (fun c3 _ => walk_forest x_builder a kop rest c3)))).
      { apply (cut_then _ _ f1 log (join (d ++ [r_name r]))).
        - destruct (xseq a cfg (if should_extract cfg (join (d ++ [r_name r])) true then vis cfg (d ++ [r_name r]) kids else []) f1 log) as [[f2 log2] r2] eqn:E2.
          destruct (nodup_pre _ _ _ _ _ _ _ E2 Hl2) as [Hl3 _].
          destruct (should_extract cfg (join (d ++ [r_name r])) true).
          + apply IHk; auto. now rewrite E2.
          + left. split; auto. exists f1, log. auto.
        - intros _ f2 log2 E2 R2 C2. destruct (nodup_pre _ _ _ _ _ _ _ E2 Hl2) as [Hl3 Hl4].
          cbn [killed_extractor extractor on_exit andthen]. apply IHr; auto.
          + destruct R2. now constructor.
          + cbn [with_cur x_cur]. now rewrite C2. }
      destruct Hwhole as [[K1 (f2 & log2 & K2 & K3 & K4)]|[K1 K2]].
      + left. split; auto. exists f2, log2. split; auto. cbn [xseq]. now rewrite E1.
      + right. split; auto. exact (stopped_after _ _ _ _ _ _ _ Hpre K2).
  Qed.
End Cut.
