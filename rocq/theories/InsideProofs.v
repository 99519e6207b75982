(** Extraction of an archive without links, whose paths never go above where they start, stays below
    the output directory, also with ".." components. *)
From Verif Require Import AnyKeep SpecConverted SpecHostile HostProofs HostSteps HostFold HostileProofs ExtractSeq ExtractRun.

Definition comp_ok (c : bytes) : Prop := c <> [] /\ no_sep c /\ c <> b ".".
Definition okp (p : path) : Prop := Forall comp_ok p /\ inside p.

Lemma okp_prefix p q : okp (p ++ q) -> okp p.
Proof.
  intros [H1 H2]. apply Forall_app in H1 as [H1 _]. split; auto.
  intros l1 l2 E. apply (H2 l1 (l2 ++ q)). now rewrite E, <- app_assoc.
Qed.

Section Inside.
Variables (a : archive) (cfg : config) (out : path) (f0 : hostfs).
Hypothesis Hout : outdir f0 (x_base cfg) out.
Hypothesis Hno : forall x, ~ link_name a x.
Local Notation inv := (inv a out f0).
Local Notation ours := (ours out).

(** Resolution below [out], one ".." cancelling one name. *)
Lemma namei_inside k f fl comps : inv f -> forall cur, Forall comp_ok comps ->
  (forall l1 l2, comps = l1 ++ l2 -> (0 <= Z.of_nat (length cur) + ups l1)%Z) ->
  match namei k f fl (out ++ cur) comps with
  | At q n => (forall t m, n <> HLink t m) /\ (n <> HDir -> h_names f q = Some n /\ exists p x, q = out ++ p ++ [x])
  | Missing q => h_names f q = None /\ exists p x, q = out ++ p ++ [x]
  | Bad _ => True
  end.
Proof.
  intros HI. induction comps as [|c comps IH]; intros cur Hw Hb.
  - destruct k; cbn; (split; [discriminate|easy]).
  - inversion Hw as [|? ? (Hc1 & Hc2 & Hc3) Hw']; subst. rewrite namei_eq.
    destruct (bytes_eqb_spec c (b ".")) as [->|_]; [easy|].
    destruct (bytes_eqb_spec c (b "..")) as [->|Hdd].
    + pose proof (Hb [b ".."] comps eq_refl) as H0. cbn [ups] in H0.
      destruct (list_eq_dec N.eq_dec (b "..") (b "..")) as [_|]; [|easy].
      destruct (@exists_last _ cur) as (cur' & z & ->); [intros ->; cbn in H0; lia|].
      rewrite app_assoc, removelast_last. apply IH; auto.
      intros l1 l2 E. specialize (Hb (b ".." :: l1) l2 ltac:(now rewrite E)). cbn [ups] in Hb.
      destruct (list_eq_dec N.eq_dec (b "..") (b "..")) as [_|]; [|easy]. rewrite app_length in Hb. cbn [length] in Hb. lia.
    + rewrite <- app_assoc. destruct (h_names f (out ++ cur ++ [c])) as [[|i|t m]|] eqn:Eh.
      * apply IH; auto. intros l1 l2 E. specialize (Hb (c :: l1) l2 ltac:(now rewrite E)). cbn [ups] in Hb.
        destruct (list_eq_dec N.eq_dec c (b "..")) as [|_]; [easy|]. destruct (list_eq_dec N.eq_dec c (b ".")) as [|_]; [easy|].
        rewrite app_length. cbn [length]. lia.
      * destruct comps; [|easy]. split; [discriminate|]. intros _. split; eauto.
      * exfalso. apply (Hno c). rewrite app_assoc in Eh. eapply (ca_links _ _ _ (iv_calm _ _ _ f HI) (out ++ cur) c t m); eauto.
      * destruct comps; [|easy]. split; eauto.
Qed.

Lemma look_inside f fl p : inv f -> okp p ->
  match look f fl (fst (x_base cfg), snd (x_base cfg) ++ p) with
  | At q n => (forall t m, n <> HLink t m) /\ (n <> HDir -> h_names f q = Some n /\ exists p x, q = out ++ p ++ [x])
  | Missing q => h_names f q = None /\ exists p x, q = out ++ p ++ [x]
  | Bad _ => True
  end.
Proof.
  intros HI [H1 H2]. rewrite (look_base a cfg out f0 Hout f fl p HI).
  pose proof (namei_inside max_links f fl p HI [] H1) as H. rewrite app_nil_r in H. apply H.
  intros l1 l2 E. cbn [length Z.of_nat]. apply (H2 l1 l2 E).
Qed.

Definition okc (comps : list bytes) : Prop :=
  exists s p, comps = s ++ p /\ okp p /\ (s = snd (x_base cfg) \/ (p = [] /\ exists t, snd (x_base cfg) = s ++ t)).
Lemma okc_full p : okp p -> okc (snd (x_base cfg) ++ p).
Proof. intros H. exists (snd (x_base cfg)), p. auto. Qed.
Lemma okp_nil : okp [].
Proof. split; [constructor|]. intros [|? ?] l2 E; [cbn; lia|discriminate E]. Qed.
Lemma okc_init l c : okc (l ++ [c]) -> okc l.
Proof.
  intros (s & p & E & Hp & Hs). destruct p as [|y p].
  - rewrite app_nil_r in E. exists l, []. rewrite app_nil_r. split; [reflexivity|]. split; [exact okp_nil|]. right.
    split; [reflexivity|]. destruct Hs as [->|[_ [t Et]]].
    + rewrite <- E. now exists [c].
    + rewrite <- E in Et. rewrite <- app_assoc in Et. eauto.
  - destruct (split_last (y :: p) ltac:(easy)) as (p' & z & Ep). rewrite Ep in *.
    rewrite app_assoc in E. apply app_inj_tail in E as [-> ->].
    exists s, p'. apply okp_prefix in Hp. split; [reflexivity|]. split; [exact Hp|].
    destruct Hs as [Hs|[Hs _]]; [now left|]. destruct p'; discriminate.
Qed.

Lemma mkdir_inside f comps : inv f -> okc comps ->
  inv (fst (mkdir f (fst (x_base cfg), comps))) /\ (forall i, ours f i -> ours (fst (mkdir f (fst (x_base cfg), comps))) i).
Proof.
  intros HI (s & p & -> & Hp & Hs). destruct Hs as [->|[-> Hs]].
  - unfold mkdir. pose proof (look_inside f false p HI Hp) as H.
    destruct (look f false (fst (x_base cfg), snd (x_base cfg) ++ p)) as [|q|]; cbn [fst]; auto.
    destruct H as (Hnone & p' & x & ->). split.
    + apply inv_set; auto; discriminate.
    + intros i Hi. apply ours_set; [exact Hi|discriminate].
  - apply (mkdir_inv a cfg out f0 Hout f (s ++ [])); auto. exists s, []. split; [reflexivity|]. split; [constructor|]. auto.
Qed.

Lemma create_dir_all_inside comps : forall f, inv f -> okc comps ->
  inv (fst (create_dir_all f (fst (x_base cfg), comps))) /\
  (forall i, ours f i -> ours (fst (create_dir_all f (fst (x_base cfg), comps))) i).
Proof.
  unfold create_dir_all. cbn [fst snd].
  induction comps as [|c comps IH] using rev_ind; intros f HI Hok; [cbn; auto|].
  rewrite rev_app_distr. cbn [rev app create_dir_all_rev]. rewrite rev_involutive.
  destruct (mkdir_inside f _ HI Hok) as [M1 M2].
  assert (K : forall (h : hostfs) (o : option ioerr) (bb : bool), fst (if bb then (h, None) else (h, o)) = h) by (intros ? ? []; reflexivity).
  destruct (mkdir f (fst (x_base cfg), comps ++ [c])) as [f1 o1]; cbn [fst] in *.
  destruct (IH f1 M1 (okc_init _ _ Hok)) as [N1 N2].
  destruct (create_dir_all_rev f1 (fst (x_base cfg)) (rev comps)) as [f2 o2]; cbn [fst] in *.
  destruct (mkdir_inside f2 _ N1 Hok) as [O1 O2].
  destruct (mkdir f2 (fst (x_base cfg), comps ++ [c])) as [f3 o3]; cbn [fst] in *.
  destruct o1 as [[]|]; rewrite ?K; cbn [fst]; auto.
  destruct o2 as [e2|]; [cbn [fst]; auto|]. destruct o3 as [e3|]; rewrite ?K; cbn [fst]; auto.
Qed.

Lemma open_new_inside f p : inv f -> okp p -> let x := open_new f (fst (x_base cfg), snd (x_base cfg) ++ p) in
  inv (fst x) /\ (forall i, ours f i -> ours (fst x) i) /\ (forall i, snd x = inl i -> ours (fst x) i).
Proof.
  intros HI Hw. cbn zeta. pose proof (look_inside f false p HI Hw) as H. unfold open_new.
  destruct (look f false _) as [|q|]; cbn [fst snd]; try (split; [|split]; auto; discriminate).
  destruct H as (Hnone & p' & x & ->).
  destruct (new_file_inv a out f0 f p' x HI Hnone) as (B1 & B2 & B3).
  split; [exact B1|]. split; [exact B3|]. intros i [= <-]. exact B2.
Qed.

Lemma open_trunc_inside f p : inv f -> okp p -> let x := open_trunc f (fst (x_base cfg), snd (x_base cfg) ++ p) in
  inv (fst x) /\ (forall i, ours f i -> ours (fst x) i) /\ (forall i, snd x = inl i -> ours (fst x) i).
Proof.
  intros HI Hw. cbn zeta. pose proof (look_inside f true p HI Hw) as H. unfold open_trunc.
  destruct (look f true _) as [q [|i|t m]|q|]; cbn [fst snd]; try (split; [|split]; auto; discriminate).
  destruct H as (_ & Hi). specialize (Hi ltac:(discriminate)) as (Hi & p' & x & ->).
  destruct (iv_calm _ _ _ f HI) as [A1 A2 A3].
  assert (Ho : ours f i) by (split; [eauto|intros q Hq; exact (A2 _ q i Hi Hq (below_app out p' x))]).
  assert (Hk : forall j, ours f j -> ours (touch (set_data f i []) i) j) by (intros j Hj; exact Hj).
  split; [|split; [exact Hk|intros j [= <-]; now apply Hk]].
  apply (inv_data a out f0 f i); auto.
  intros j Hj. cbn. destruct (j =? i) eqn:Ej; [apply N.eqb_eq in Ej; easy|easy].
Qed.

Lemma open_target_inside f p cur mtime : inv f -> okp p -> pieces cur = p ->
  let g := fst (open_target cfg cur mtime f) in
  inv g /\ (forall i, ours f i -> ours g i) /\ (forall i, snd (open_target cfg cur mtime f) = Ok (Some i) -> ours g i).
Proof.
  intros HI Hw Ec. cbn zeta.
  assert (Ea : abs_path cfg cur = (fst (x_base cfg), snd (x_base cfg) ++ p)) by (unfold abs_path; now rewrite iter_pieces, Ec).
  destruct (open_new_inside f p HI Hw) as (A1 & A2 & A3).
  destruct (open_trunc_inside f p HI Hw) as (B1 & B2 & B3). rewrite <- Ea in *.
  unfold open_target. destruct (open_new f (abs_path cfg cur)) as [f1 [i|e]]; cbn [fst snd] in *.
  - split; [exact A1|]. split; [exact A2|]. intros j [= <-]. auto.
  - assert (T : let x := match open_trunc f (abs_path cfg cur) with
               | (f', inl i) => (f', Ok (Some i)) | (f', Datatypes.inr e) => (f', Err (EIo e)) end in
       inv (fst x) /\ (forall i, ours f i -> ours (fst x) i) /\ (forall i, snd x = Ok (Some i) -> ours (fst x) i)).
    { destruct (open_trunc f (abs_path cfg cur)) as [f2 [i|e2]]; cbn [fst snd] in *.
      - split; [exact B1|]. split; [exact B2|]. intros j [= <-]. auto.
      - split; [exact B1|]. split; [exact B2|]. discriminate. }
    cbn zeta in T.
    destruct e; try (cbn [fst snd]; split; [exact A1|]; split; [exact A2|discriminate]).
    destruct (x_policy cfg); try exact T; try (cbn [fst snd]; split; [exact HI|]; split; [auto|discriminate]).
    destruct (modified f true (abs_path cfg cur)) as [t| | |];
      try (cbn [fst snd]; split; [exact HI|]; split; [auto|discriminate]).
    destruct (entry_time mtime) as [t'| | |]; try (cbn [fst snd]; split; [exact HI|]; split; [auto|discriminate]).
    destruct (t <=? t')%Z; [exact T|]. cbn [fst snd]. split; [exact HI|]. split; [auto|discriminate].
Qed.

(** The walk's context: like [HostileProofs.cinv], without the condition on the current path. *)
Record cinv2 (c : ctx) : Prop := {
  c2_fs : inv (x_fs c);
  c2_tasks : Forall (fun t => ours (x_fs c) (t_ino t)) (x_tasks c) }.
Lemma one_turn_inside c x : cinv2 c -> cinv2 (one_turn c x).
Proof.
  intros [H1 H3]. unfold one_turn. destruct (nth_error (x_tasks c) (fst x)) as [t|] eqn:En; [|now constructor].
  assert (Ht : ours (x_fs c) (t_ino t)) by (rewrite Forall_forall in H3; apply H3; now apply nth_error_In in En).
  unfold write_turn. destruct (t_done t).
  { constructor; cbn; auto. apply replace_nth_forall; auto. }
  destruct (snd x) as [k|]; cbn.
  - constructor; cbn [x_fs x_cur x_tasks]; auto.
    + apply (inv_data a out f0 (x_fs c) (t_ino t)); auto. intros j Hj. cbn. destruct (j =? t_ino t) eqn:E; [apply N.eqb_eq in E; easy|easy].
    + apply replace_nth_forall; [exact Ht|]. revert H3. apply Forall_impl. intros t' Ht'. exact Ht'.
  - constructor; cbn; auto. apply replace_nth_forall; auto.
Qed.
Lemma run_turns_inside l : forall c, cinv2 c -> cinv2 (run_turns l c).
Proof. induction l as [|x l IH]; intros c Hc; cbn; auto. apply IH. now apply one_turn_inside. Qed.
Lemma tick_inside sched c : cinv2 c -> cinv2 (tick sched c).
Proof. intros H. pose proof (run_turns_inside (sched (x_tick c)) c H) as [H1 H3]. unfold tick. constructor; cbn; auto. Qed.
Lemma with_fs_inside c g : cinv2 c -> inv g -> (forall i, ours (x_fs c) i -> ours g i) -> cinv2 (with_fs c g).
Proof. intros [H1 H3] Hg Hi. constructor; cbn; auto. revert H3. apply Forall_impl. intros t. apply Hi. Qed.

Lemma pieces_pop_last cur d n : pieces cur = d ++ [n] -> n <> b "." -> pieces (pop cur) = d.
Proof.
  intros E Hn. unfold pop. destruct (parent cur) as [p|] eqn:Ep.
  - rewrite (parent_pieces _ _ Ep), E, drop_dots_snoc. destruct (bytes_eqb_spec n (b ".")) as [|_]; [easy|]. apply removelast_last.
  - unfold parent in Ep. destruct cur; [|discriminate Ep]. rewrite pieces_nil in E. now destruct d.
Qed.
(** The walk over a forest whose paths are all inside. *)
Lemma walk_inside sched d0 lo hi fo : forest_of a lo hi fo -> forall d c, cinv2 c -> pieces (x_cur c) = d ->
  (forall i p, In (i, d0 ++ p) (flat (d0 ++ d) fo) -> okp p) ->
  let x := walk_forest x_builder a (extractor a cfg sched) fo c in
  cinv2 (fst x) /\ (snd x = Ok tt -> pieces (x_cur (fst x)) = d).
Proof.
  assert (Hpush : forall cur d n, pieces cur = d -> comp_ok n -> pieces (push cur n) = d ++ [n]).
  { intros cur d n <- (H1 & H2 & _). rewrite pieces_push. f_equal. rewrite pieces_no_sep by exact H2. now destruct n. }
  induction 1 as [lo|lo hi r rest Hlt Hr Hnd Hrest IH|lo hi r first nb kids rest Hlt Hr Hpay Hkids IHk Hrest IHr];
    intros d c Hc Hcur Hp; cbn zeta; [cbn; auto| |]; cbn [walk_forest flat] in *.
  - assert (Hok : okp (d ++ [r_name r])) by (apply (Hp lo); left; now rewrite app_assoc).
    assert (Hn : comp_ok (r_name r)) by (destruct Hok as [Hok _]; apply Forall_app in Hok as [_ Hok]; now apply Forall_inv in Hok).
    assert (Hrest' : forall i p, In (i, d0 ++ p) (flat (d0 ++ d) rest) -> okp p) by (intros i p Hi; apply (Hp i); right; exact Hi).
    unfold create_entry, rec_at. rewrite Hr. cbn [bind].
    destruct (r_payload r) as [ad sz|fi n|tg|v] eqn:Ep; cbn [b_file b_link b_dir x_builder].
    + destruct (of_utf8 (r_name r)) as [nm| | |] eqn:Eu; cbn [bind andthen fst snd]; try (split; [exact Hc|discriminate]).
      assert (nm = r_name r) as -> by (unfold of_utf8 in Eu; destruct (utf8 (r_name r)); congruence).
      rewrite Ep. cbn [bind andthen fst on_file extractor].
      assert (Hf : cinv2 (fst (x_on_file a cfg sched c (r_name r, ad, r_mtime r))) /\
                   x_cur (fst (x_on_file a cfg sched c (r_name r, ad, r_mtime r))) = x_cur c).
      { unfold x_on_file. pose proof (tick_inside sched c Hc) as Ht. pose proof (tick_cur sched c) as Hcu. set (c1 := tick sched c) in *. clearbody c1.
        rewrite <- Hcu in *.
        destruct (should_extract cfg (push (x_cur c1) (r_name r)) false); [|auto].
        destruct (a_fetch a ad) as [data| | |]; auto.
        destruct (open_target_inside (x_fs c1) (d ++ [r_name r]) (push (x_cur c1) (r_name r)) (r_mtime r)) as (O1 & O2 & O3); auto.
        { apply Ht. }
        destruct (open_target cfg (push (x_cur c1) (r_name r)) (r_mtime r) (x_fs c1)) as [f [[i|]| | |]]; cbn [fst snd] in *;
          try (split; [|reflexivity]; apply with_fs_inside; auto; fail).
        split; [|reflexivity]. destruct Ht as [T1 T3]. constructor; cbn [x_fs x_cur x_tasks]; auto.
        apply Forall_app. split; [revert T3; apply Forall_impl; intros t; apply O2|].
        constructor; [|constructor]. now apply O3. }
      destruct (x_on_file a cfg sched c (r_name r, ad, r_mtime r)) as [c1 [| | |]]; cbn [andthen fst snd] in *; try (split; [tauto|discriminate]).
      destruct Hf as [Hf1 Hf2]. apply IH; auto. congruence.
    + now destruct (Hnd fi n).
    + exfalso. apply (Hno (r_name r)). exists r, tg, []. split; [|split; [exact Ep|]].
      * unfold at_ in Hr. destruct (_ <? _); [now apply nth_error_In in Hr|discriminate Hr].
      * destruct Hn as (N1 & N2 & _). rewrite pieces_no_sep by exact N2. now destruct (r_name r).
    + split; [exact Hc|discriminate].
  - assert (Hok : okp (d ++ [r_name r])) by (apply (Hp lo); left; now rewrite app_assoc).
    assert (Hn : comp_ok (r_name r)) by (destruct Hok as [Hok' _]; apply Forall_app in Hok' as [_ Hok']; now apply Forall_inv in Hok').
    assert (Hkids' : forall i p, In (i, d0 ++ p) (flat (d0 ++ d ++ [r_name r]) kids) -> okp p) by (intros i p Hi; apply (Hp i); right; apply in_or_app; left; now rewrite <- app_assoc).
    assert (Hrest' : forall i p, In (i, d0 ++ p) (flat (d0 ++ d) rest) -> okp p) by (intros i p Hi; apply (Hp i); right; apply in_or_app; auto).
    unfold create_entry, rec_at. rewrite Hr. cbn [bind]. rewrite Hpay. cbn [b_file b_link b_dir x_builder].
    destruct (of_utf8 (r_name r)) as [nm| | |] eqn:Eu; cbn [bind andthen fst snd]; try (split; [exact Hc|discriminate]).
    assert (nm = r_name r) as -> by (unfold of_utf8 in Eu; destruct (utf8 (r_name r)); congruence).
    cbn [on_enter on_exit extractor].
    pose proof (tick_inside sched c Hc) as Ht. pose proof (tick_cur sched c) as Hcu. set (c1 := tick sched c) in *. clearbody c1.
    rewrite <- Hcu in Hcur. set (c2 := with_cur c1 (push (x_cur c1) (r_name r))).
    assert (H2 : cinv2 c2) by (destruct Ht as [T1 T3]; constructor; [exact T1|exact T3]).
    assert (E2 : pieces (x_cur c2) = d ++ [r_name r]) by (apply Hpush; auto).
    assert (Hex : forall c, cinv2 c -> pieces (x_cur c) = d ++ [r_name r] ->
      cinv2 (with_cur c (pop (x_cur c))) /\ pieces (x_cur (with_cur c (pop (x_cur c)))) = d).
    { intros c' [T1 T3] E'. split; [constructor; auto|]. apply (pieces_pop_last _ _ (r_name r)); [exact E'|]. apply Hn. }
    destruct (should_extract cfg (push (x_cur c1) (r_name r)) true).
    + destruct (create_dir_all_inside (snd (x_base cfg) ++ (d ++ [r_name r])) (x_fs c2) (c2_fs c2 H2) (okc_full _ Hok)) as [O1 O2].
      assert (Ea : abs_path cfg (push (x_cur c1) (r_name r)) = (fst (x_base cfg), snd (x_base cfg) ++ (d ++ [r_name r])))
        by (unfold abs_path; rewrite iter_pieces; f_equal; f_equal; exact E2).
      unfold io. rewrite Ea.
      destruct (create_dir_all (x_fs c2) (fst (x_base cfg), snd (x_base cfg) ++ (d ++ [r_name r]))) as [g [e|]]; cbn [fst snd andthen] in *.
      * split; [now apply with_fs_inside|discriminate].
      * pose proof (IHk (d ++ [r_name r]) (with_fs c2 g) (with_fs_inside c2 g H2 O1 O2) E2 Hkids') as H3. cbn zeta in H3.
        destruct (walk_forest _ _ _ kids (with_fs c2 g)) as [c3 [[]| | |]]; cbn [andthen fst snd] in *; try (split; [tauto|discriminate]).
        destruct H3 as [H3 H4]. destruct (Hex c3 H3 (H4 eq_refl)) as [H5 H6]. apply IHr; auto.
    + cbn [andthen]. destruct (Hex c2 H2 E2) as [H5 H6]. apply IHr; auto.
Qed.

(** The whole extraction. *)
Theorem extract_inside sched last rg d0 g res : wf a -> dir_range a rg d0 -> calm a f0 out ->
  (forall i p, apath a i (d0 ++ p) -> okp p) ->
  extract_range a rg cfg sched last f0 = (g, res) -> only_below f0 g out.
Proof.
  intros Hwf Hrg Hcalm Hp Hrun q Hq. unfold extract_range in Hrun.
  destruct (run_from_range x_builder a (extractor a cfg sched) (walk_fuel a) rg (mkCtx [] f0 [] false 0)) as [c r] eqn:E.
  assert (G : cinv2 c).
  2: { assert (g = x_fs (run_turns last c)) as -> by congruence.
       exact (iv_out _ _ _ _ (c2_fs _ (run_turns_inside last c G)) q Hq). }
  destruct (range_forest a Hwf rg d0 Hrg) as (fo & j & Hf & _ & _ & Hin & _ & Er). rewrite Er in E. clear Er.
  cbn [on_start on_stop extractor] in E. set (c0 := tick sched (mkCtx [] f0 [] false 0)) in *.
  assert (Et : forall l, run_turns l (mkCtx [] f0 [] false 0) = mkCtx [] f0 [] false 0).
  { induction l as [|[[|n] o] l IH]; cbn; auto. }
  assert (E0 : c0 = mkCtx [] f0 [] false 1) by (unfold c0, tick; cbn [x_tick]; rewrite Et; reflexivity).
  destruct (inv_start a cfg out f0 Hout Hcalm c0) as (g0 & Hg & Hi); try (rewrite E0; reflexivity).
  unfold io in E. replace (x_fs c0) with f0 in E by (rewrite E0; reflexivity). rewrite Hg in E. cbn [fst snd andthen] in E.
  assert (Hc2 : cinv2 (with_fs c0 g0)) by (destruct Hi as [I1 _ I3]; constructor; auto).
  destruct (walk_inside sched d0 _ _ fo Hf [] (with_fs c0 g0) Hc2) as [W _].
  - rewrite E0. reflexivity.
  - intros i p. rewrite app_nil_r. intros Hi'. apply Hin in Hi' as [Hi' _]. eapply Hp; eauto.
  - destruct (walk_forest _ _ _ fo (with_fs c0 g0)) as [c3 [[]| | |]]; cbn [andthen fst] in *; congruence.
Qed.
End Inside.
