(** Policies that never replace: skip, warn and error, on any destination. *)
From Verif Require Export ExtractFacts.

Lemma namei_missing k : forall f fl cur comps p, namei k f fl cur comps = Missing p -> h_names f p = None.
Proof.
  induction k as [|k IHk]; intros f fl cur comps; revert cur; induction comps as [|c rest IH]; intros cur p H; rewrite namei_eq in H; try discriminate H.
  all: destruct (bytes_eqb c (b ".")); [eauto|]; destruct (bytes_eqb c (b "..")); [eauto|].
  all: cbn zeta in H; destruct (h_names f (cur ++ [c])) as [[|i|t m]|] eqn:E; eauto.
  all: try (destruct rest; [|discriminate H]; try discriminate H; now injection H as <-).
  - destruct rest; [destruct fl|]; discriminate H.
  - destruct rest; [destruct fl|]; try discriminate H; cbn [negb] in H; eauto.
Qed.

(** Everything that was there is still there, untouched. *)
Record kept (f g : hostfs) : Prop := {
  kp_names : forall q n, h_names f q = Some n -> h_names g q = Some n;
  kp_inodes : forall i, i < h_next f -> h_data g i = h_data f i /\ h_mtime g i = h_mtime f i;
  kp_next : h_next f <= h_next g;
  kp_dirtime : h_dirtime g = h_dirtime f;
  kp_now : h_now g = h_now f }.
Lemma kept_refl f : kept f f.
Proof. constructor; auto; lia. Qed.
Lemma kept_trans f g h : kept f g -> kept g h -> kept f h.
Proof.
  intros A B. constructor.
  - intros q n H. now apply (kp_names _ _ B), (kp_names _ _ A).
  - intros i Hi. destruct (kp_inodes _ _ A i Hi) as [<- <-]. apply (kp_inodes _ _ B). pose proof (kp_next _ _ A). lia.
  - pose proof (kp_next _ _ A). pose proof (kp_next _ _ B). lia.
  - rewrite (kp_dirtime _ _ B). apply (kp_dirtime _ _ A).
  - rewrite (kp_now _ _ B). apply (kp_now _ _ A).
Qed.
Lemma kept_set f q v : h_names f q = None -> kept f (set_name f q (Some v)).
Proof.
  intros H. constructor; cbn; auto; try lia. intros q' n Hn. destruct (path_eqb' q' q) eqn:E; auto.
  apply path_eqb'_spec in E. congruence.
Qed.

Lemma mkdir_kept f p : kept f (fst (mkdir f p)).
Proof.
  unfold mkdir. destruct (look f false p) eqn:E; cbn; try apply kept_refl. apply kept_set. eapply namei_missing. exact E.
Qed.
Lemma create_dir_all_rev_kept s l : forall f, kept f (fst (create_dir_all_rev f s l)).
Proof.
  induction l as [|c l IH]; intros f; cbn [create_dir_all_rev]; [apply kept_refl|].
  pose proof (mkdir_kept f (s, rev (c :: l))) as H1. destruct (mkdir f (s, rev (c :: l))) as [f1 [e|]]; cbn [fst] in *; auto.
  assert (Hd : kept f (fst (if is_dir_path f1 (s, rev (c :: l)) then (f1, None) else (f1, Some e)))) by (destruct (is_dir_path f1 (s, rev (c :: l))); exact H1).
  destruct e; try exact Hd. specialize (IH f1). destruct (create_dir_all_rev f1 s l) as [f2 [e|]]; cbn [fst] in *.
  - exact (kept_trans _ _ _ H1 IH).
  - pose proof (mkdir_kept f2 (s, rev (c :: l))) as H3. destruct (mkdir f2 (s, rev (c :: l))) as [f3 [e|]]; cbn [fst] in *.
    + assert (Hk : kept f f3) by exact (kept_trans _ _ _ (kept_trans _ _ _ H1 IH) H3). destruct (is_dir_path f3 (s, rev (c :: l))); exact Hk.
    + exact (kept_trans _ _ _ (kept_trans _ _ _ H1 IH) H3).
Qed.
Lemma create_dir_all_kept f p : kept f (fst (create_dir_all f p)).
Proof. apply create_dir_all_rev_kept. Qed.
Lemma symlink_kept f t p : kept f (fst (symlink f t p)).
Proof.
  unfold symlink. destruct t; [apply kept_refl|]. destruct (look f false p) eqn:E; cbn; try apply kept_refl.
  apply kept_set. eapply namei_missing. exact E.
Qed.
Lemma open_new_kept f p : kept f (fst (open_new f p)) /\ forall i, snd (open_new f p) = inl i -> i = h_next f /\ h_next (fst (open_new f p)) = h_next f + 1.
Proof.
  unfold open_new. destruct (look f false p) as [q n|q|e] eqn:E; cbn [fst snd]; try (split; [apply kept_refl|easy]).
  split; [|intros i Hi; injection Hi as <-; cbn; auto].
  apply namei_missing in E. constructor; cbn; auto; try lia.
  - intros q' n Hn. destruct (path_eqb' q' q) eqn:Eq; auto. apply path_eqb'_spec in Eq. congruence.
  - intros i Hi. destruct (i =? h_next f) eqn:Ei; [apply N.eqb_eq in Ei; lia|auto].
Qed.

Definition preserving (pol : overwrite) : Prop := pol = Skip \/ pol = Warn \/ pol = Error.

Section Keep.
  Variables (a : archive) (cfg : config).
  Hypothesis Hpol : preserving (x_policy cfg).

  Lemma open_target_kept cur m f : kept f (fst (open_target cfg cur m f)) /\
    forall i, snd (open_target cfg cur m f) = Ok (Some i) -> i = h_next f /\ h_next (fst (open_target cfg cur m f)) = h_next f + 1.
  Proof.
    unfold open_target. pose proof (open_new_kept f (abs_path cfg cur)) as [H1 H2].
    destruct (open_new f (abs_path cfg cur)) as [f' [i|e]]; cbn [fst snd] in *.
    - split; auto. intros j Hj. injection Hj as <-. auto.
    - destruct e; try (split; [exact H1|easy]).
      destruct Hpol as [->|[->| ->]]; cbn [fst snd]; split; try apply kept_refl; easy.
  Qed.
  Lemma make_link_kept cur t m f : kept f (fst (make_link cfg cur t m f)).
  Proof.
    unfold make_link. pose proof (symlink_kept f t (abs_path cfg cur)) as H1.
    destruct (symlink f t (abs_path cfg cur)) as [f' [e|]]; cbn [fst snd] in *; auto.
    destruct e; auto. destruct Hpol as [->|[->| ->]]; cbn [fst snd]; apply kept_refl.
  Qed.

  Lemma xone_kept f p nd f' o r : xone a cfg f p nd = (f', o, r) ->
    kept f f' /\ match o with Some (i, _) => i = h_next f /\ h_next f' = h_next f + 1 | None => True end.
  Proof.
    unfold xone. destruct nd as [[|size addr|t] mt]; cbn [fst snd].
    - destruct (should_extract cfg (join p) true); [|intros E; injection E as <- <- <-; split; auto; apply kept_refl].
      pose proof (create_dir_all_kept f (abs_path cfg (join p))) as H.
      destruct (create_dir_all f (abs_path cfg (join p))) as [f1 [e|]]; intros E; injection E as <- <- <-; auto.
    - destruct (should_extract cfg (join p) false); [|intros E; injection E as <- <- <-; split; auto; apply kept_refl].
      destruct (a_fetch a addr) as [data| | |]; try (intros E; injection E as <- <- <-; split; auto; apply kept_refl).
      destruct (open_target_kept (join p) (m_mtime mt) f) as [H1 H2].
      destruct (open_target cfg (join p) (m_mtime mt) f) as [f1 [[i|]|e| |]]; cbn [fst snd] in *; intros E; injection E as <- <- <-; auto.
      destruct (H2 i eq_refl) as [-> E]. cbn. split; auto. constructor; cbn; try apply H1.
      intros k Hk. destruct (k =? h_next f) eqn:Ek; [apply N.eqb_eq in Ek; lia|]. now apply (kp_inodes _ _ H1).
    - destruct (utf8 t); [|intros E; injection E as <- <- <-; split; auto; apply kept_refl].
      destruct (should_extract cfg (join p) false); [|intros E; injection E as <- <- <-; split; auto; apply kept_refl].
      pose proof (make_link_kept (join p) t (m_mtime mt) f) as H. destruct (make_link cfg (join p) t (m_mtime mt) f) as [f1 r1].
      intros E; injection E as <- <- <-; auto.
  Qed.

  Lemma xseq_kept items : forall f log f' log' r lo,
    xseq a cfg items f log = (f', log', r) ->
    NoDup (map fst log) -> (forall i, In i (map fst log) -> lo <= i < h_next f) -> lo <= h_next f ->
    kept f f' /\ NoDup (map fst log') /\ (forall i, In i (map fst log') -> lo <= i < h_next f').
  Proof.
    induction items as [|[p nd] items IH]; intros f log f' log' r lo H Hnd Hlo Hle; cbn [xseq] in H.
    - injection H as <- <- <-. split; [apply kept_refl|auto].
    - destruct (xone a cfg f p nd) as [[f1 o] r1] eqn:E. apply xone_kept in E as [K Ho].
      assert (Hf : (f1, log, r1) = (f', log', r) -> kept f f' /\ NoDup (map fst log') /\ (forall i, In i (map fst log') -> lo <= i < h_next f')).
      { intros E. injection E as <- <- <-. split; auto. split; auto. intros i Hi. apply Hlo in Hi. pose proof (kp_next _ _ K). lia. }
      destruct r1 as [[]|e| |]; auto.
      pose proof (kp_next _ _ K) as Kn.
      destruct o as [[i d]|]; [destruct Ho as [-> Ho]|]; eapply (IH _ _ _ _ _ lo) in H.
      + destruct H as (H1 & H2 & H3). split; [eapply kept_trans; eauto|auto].
      + rewrite map_app. cbn [map fst]. apply nodup_snoc; auto. intros Hi. apply Hlo in Hi. lia.
      + intros i Hi. rewrite map_app in Hi. cbn [map fst] in Hi. apply in_app_iff in Hi as [Hi|[<-|[]]]; [apply Hlo in Hi|]; lia.
      + lia.
      + destruct H as (H1 & H2 & H3). split; [eapply kept_trans; eauto|auto].
      + auto.
      + intros i Hi. apply Hlo in Hi. lia.
      + lia.
  Qed.

  Variables (rg : range) (d0 : path) (f : hostfs).
  Hypothesis Hwf : wf a.
  Hypothesis Hrg : dir_range a rg d0.
  Hypothesis Hh : handled_below a d0.

  (** The final state does not depend on the schedule. *)
  Theorem extract_same_kept sched last g res sched' last' g' res' :
    extract_range a rg cfg sched last f = (g, res) -> extract_range a rg cfg sched' last' f = (g', res') ->
    (forall k, no_failure (sched k)) -> no_failure last -> res <> Diverge ->
    (forall k, no_failure (sched' k)) -> no_failure last' -> res' <> Diverge ->
    res = res' /\ same_fs g g'.
  Proof.
    intros Hrun Hrun' Hf1 Hf2 Hd Hf1' Hf2' Hd'. destruct (extract_runs a cfg Hwf rg d0 f Hrg Hh) as (items & Hitems & Hsorted & Hex).
    destruct (create_dir_all f (x_base cfg)) as [f0 [e|]].
    { rewrite Hex in Hrun, Hrun'. injection Hrun as <- <-. injection Hrun' as <- <-. split; auto. repeat split; auto. }
    destruct (xseq a cfg items f0 []) as [[f1 log] r] eqn:E.
    destruct (xseq_kept items f0 [] f1 log r (h_next f0) E) as (K1 & Hnd & Hlo); [constructor|easy|lia|].
    destruct (Hex Hnd sched last g res Hrun) as (Hn & Hm & _ & _ & _ & _ & H).
    destruct (Hex Hnd sched' last' g' res' Hrun') as (Hn' & Hm' & _ & _ & _ & _ & H').
    destruct (H Hf1 Hf2 Hd) as [-> Hdt]. destruct (H' Hf1' Hf2' Hd') as [-> Hdt'].
    split; auto. split; [|split]; intros; congruence.
  Qed.
End Keep.

(** The same on tidy destinations, whatever the policy. *)
Section Same.
  Variables (a : archive) (cfg : config) (rg : range) (d0 out : path) (f : hostfs).
  Hypothesis Hwf : wf a.
  Hypothesis Hrg : dir_range a rg d0.
  Hypothesis Hnames : plain_names a d0.
  Hypothesis Hout : outdir f (x_base cfg) out.
  Hypothesis Htidy : tidy f.
  Hypothesis Hnl : no_links a d0 f out.

  Theorem extract_same_tidy sched last g res sched' last' g' res' :
    extract_range a rg cfg sched last f = (g, res) -> extract_range a rg cfg sched' last' f = (g', res') ->
    (forall k, no_failure (sched k)) -> no_failure last -> res <> Diverge ->
    (forall k, no_failure (sched' k)) -> no_failure last' -> res' <> Diverge ->
    res = res' /\ same_fs g g'.
  Proof.
    intros Hrun Hrun' Hf1 Hf2 Hd Hf1' Hf2' Hd'. pose proof (plain_handled a d0 Hnames) as Hh.
    destruct (extract_runs a cfg Hwf rg d0 f Hrg Hh) as (items & Hitems & Hsorted & Hex).
    destruct (base_made f (x_base cfg) out Hout) as (f0 & Ec & M & Hshape). rewrite Ec in Hex.
    pose proof (made_tidy _ _ _ M Htidy) as T0.
    destruct (fold_run a cfg out Hshape f0 items Hsorted) with (todo := items) (done := @nil (path * node)) (f := f0) (log := @nil (N * bytes))
      as (done & rest & f1 & log & r & E1 & E2 & HS & Hr & Hsucc).
    - intros p nd Hin. apply Hitems in Hin as (Hp & (i & Hs) & _). split; auto.
      specialize (Hnames i p (stored_apath _ _ _ _ Hs) Hp). eapply Forall_impl; [|exact Hnames]. now intros n [Ho _].
    - intros p nd q Hin Hq Hb. apply Hitems in Hin. pose proof Hin as (_ & _ & Hv).
      destruct (visited_dir a cfg d0 Hwf Hh p nd q Hin Hq Hb) as [mt Hm]. exists mt. split; [now apply Hitems|auto].
    - intros p nd t m Hin Hn. apply Hitems in Hin as (Hp & (i & Hs) & _).
      rewrite (md_other _ _ _ M) in Hn; [eapply Hnl; eauto|]. right. intros [u E]. apply (f_equal (@length _)) in E.
      rewrite !app_length in E. destruct p; [easy|]. cbn in E. lia.
    - reflexivity.
    - apply state_start; auto. apply (md_up _ _ _ M).
    - rewrite E1 in Hex. destruct (s_log _ _ _ _ _ _ _ HS) as [Hnd Hlog].
      destruct (Hex Hnd sched last g res Hrun) as (Hn & Hm & _ & _ & _ & _ & H).
      destruct (Hex Hnd sched' last' g' res' Hrun') as (Hn' & Hm' & _ & _ & _ & _ & H').
      destruct (H Hf1 Hf2 Hd) as [-> Hdt]. destruct (H' Hf1' Hf2' Hd') as [-> Hdt'].
      split; auto. split; [|split]; intros; congruence.
  Qed.
End Same.

(** Some schedule completes, whatever happened before. *)
Lemma finish_one k : forall n c t, nth_error (x_tasks c) k = Some t -> (length (t_data t) - t_off t <= n)%nat -> (t_off t <= length (t_data t))%nat ->
  exists c', run_turns (repeat (k, Some 1%nat) (S n)) c = c' /\ (exists t', nth_error (x_tasks c') k = Some t' /\ t_done t' = true) /\
    length (x_tasks c') = length (x_tasks c) /\ forall j t0, nth_error (x_tasks c) j = Some t0 -> j <> k -> nth_error (x_tasks c') j = Some t0.
Proof.
  assert (Hr : forall {A} (x : A) k l, (k < length l)%nat -> nth_error (replace_nth k x l) k = Some x /\ length (replace_nth k x l) = length l /\
    forall j, j <> k -> nth_error (replace_nth k x l) j = nth_error l j).
  { intros A x k0 l. revert k0. induction l as [|y l IH]; intros [|k0] H; cbn in *; try lia.
    - split; auto. split; auto. intros [|j] Hj; [lia|reflexivity].
    - destruct (IH k0 ltac:(lia)) as (E1 & E2 & E3). split; auto. split; [lia|]. intros [|j] Hj; [reflexivity|]. apply E3. lia. }
  induction n as [|n IH]; intros c t Ht Hn Ho.
  - cbn [repeat]. change (run_turns [(k, Some 1%nat)] c) with (one_turn c (k, Some 1%nat)). eexists. split; [reflexivity|].
    unfold one_turn. cbn [fst snd]. rewrite Ht. unfold write_turn. destruct (t_done t) eqn:Ed; cbn [x_tasks].
    + destruct (Hr _ t k (x_tasks c)) as (E1 & E2 & E3); [apply nth_error_Some; congruence|].
      split; [eauto|]. split; auto. intros j t0 Hj Hjk. now rewrite E3.
    + match goal with |- context [mkTask ?a ?b ?c ?d] => set (t' := mkTask a b c d) end.
      destruct (Hr _ t' k (x_tasks c)) as (E1 & E2 & E3); [apply nth_error_Some; congruence|].
      split; [exists t'; split; auto; subst t'; cbn [t_done]; apply Nat.eqb_eq; lia|]. split; auto. intros j t0 Hj Hjk. now rewrite E3.
  - change (repeat (k, Some 1%nat) (S (S n))) with ((k, Some 1%nat) :: repeat (k, Some 1%nat) (S n)).
    change (run_turns ((k, Some 1%nat) :: repeat (k, Some 1%nat) (S n)) c) with (run_turns (repeat (k, Some 1%nat) (S n)) (one_turn c (k, Some 1%nat))).
    assert (Hstep : exists t', nth_error (x_tasks (one_turn c (k, Some 1%nat))) k = Some t' /\ (length (t_data t') - t_off t' <= n \/ t_done t' = true)%nat /\
      (t_off t' <= length (t_data t'))%nat /\ length (x_tasks (one_turn c (k, Some 1%nat))) = length (x_tasks c) /\
      forall j t0, nth_error (x_tasks c) j = Some t0 -> j <> k -> nth_error (x_tasks (one_turn c (k, Some 1%nat))) j = Some t0).
    { unfold one_turn. cbn [fst snd]. rewrite Ht. unfold write_turn. destruct (t_done t) eqn:Ed; cbn [x_tasks].
      - destruct (Hr _ t k (x_tasks c)) as (E1 & E2 & E3); [apply nth_error_Some; congruence|].
        exists t. split; [eauto|]. split; auto. split; auto. split; auto. intros j t0 Hj Hjk. now rewrite E3.
      - match goal with |- context [mkTask ?a ?b ?c ?d] => set (t' := mkTask a b c d) end.
        destruct (Hr _ t' k (x_tasks c)) as (E1 & E2 & E3); [apply nth_error_Some; congruence|].
        exists t'. split; auto. assert (4 * 1024 = 4096)%nat as Hk by reflexivity.
        split; [|split; [|split; auto]].
        + left. subst t'. cbn [t_data t_off]. rewrite Hk. lia.
        + subst t'. cbn [t_data t_off]. lia.
        + intros j t0 Hj Hjk. now rewrite E3. }
    destruct Hstep as (t' & H1 & H2 & H3 & H4 & H5).
    destruct (t_done t') eqn:Ed.
    + (* already done: the remaining turns do nothing *)
      assert (Hid : forall m c0, nth_error (x_tasks c0) k = Some t' -> exists c', run_turns (repeat (k, Some 1%nat) m) c0 = c' /\ nth_error (x_tasks c') k = Some t' /\
        length (x_tasks c') = length (x_tasks c0) /\ forall j t0, nth_error (x_tasks c0) j = Some t0 -> j <> k -> nth_error (x_tasks c') j = Some t0).
      { induction m as [|m IHm]; intros c0 Hc0; [exists c0; cbn; auto|].
        change (run_turns (repeat (k, Some 1%nat) (S m)) c0) with (run_turns (repeat (k, Some 1%nat) m) (one_turn c0 (k, Some 1%nat))).
        assert (Hx : x_tasks (one_turn c0 (k, Some 1%nat)) = replace_nth k t' (x_tasks c0)).
        { unfold one_turn. cbn [fst snd]. rewrite Hc0. unfold write_turn. now rewrite Ed. }
        destruct (Hr _ t' k (x_tasks c0)) as (E1 & E2 & E3); [apply nth_error_Some; congruence|].
        destruct (IHm (one_turn c0 (k, Some 1%nat))) as (c' & F1 & F2 & F3 & F4); [now rewrite Hx|].
        exists c'. split; auto. split; auto. split; [rewrite F3, Hx; auto|]. intros j t0 Hj Hjk. apply F4; auto. now rewrite Hx, E3. }
      destruct (Hid (S n) _ H1) as (c' & F1 & F2 & F3 & F4). exists c'. split; auto. split; [eauto|]. split; [congruence|]. auto.
    + destruct H2 as [H2|H2]; [|easy].
      destruct (IH _ t' H1 H2 H3) as (c' & F1 & F2 & F3 & F4). exists c'. split; auto. split; auto. split; [congruence|]. auto.
Qed.

Lemma finish_all c : (forall t, In t (x_tasks c) -> (t_off t <= length (t_data t))%nat) ->
  exists last, no_failure last /\ forallb t_done (x_tasks (run_turns last c)) = true.
Proof.
  intros H.
  assert (Hk : forall k, (k <= length (x_tasks c))%nat -> exists last, no_failure last /\ length (x_tasks (run_turns last c)) = length (x_tasks c) /\
    (forall j t, (j < k)%nat -> nth_error (x_tasks (run_turns last c)) j = Some t -> t_done t = true) /\
    (forall j t, (k <= j)%nat -> nth_error (x_tasks c) j = Some t -> nth_error (x_tasks (run_turns last c)) j = Some t)).
  { induction k as [|k IH]; intros Hk.
    - exists []. split; [easy|]. split; auto. split; [lia|auto].
    - destruct IH as (last & Hl & Hlen & Hd & Hr); [lia|].
      destruct (nth_error (x_tasks c) k) as [t|] eqn:Et; [|apply nth_error_None in Et; lia].
      pose proof (Hr k t ltac:(lia) Et) as Ht.
      destruct (finish_one k (length (t_data t) - t_off t) (run_turns last c) t Ht) as (c' & F1 & (t' & F2 & F2') & F3 & F4); [lia|apply H; eapply nth_error_In; eauto|].
      exists (last ++ repeat (k, Some 1%nat) (S (length (t_data t) - t_off t))).
      assert (E : run_turns (last ++ repeat (k, Some 1%nat) (S (length (t_data t) - t_off t))) c = c').
      { unfold run_turns in *. now rewrite fold_left_app. }
      rewrite E. split; [|split; [congruence|split]].
      + intros j o Hin. apply in_app_iff in Hin as [Hin|Hin]; [eapply Hl; eauto|]. apply repeat_spec in Hin. now injection Hin as _ ->.
      + intros j tj Hj Htj. destruct (Nat.eq_dec j k) as [->|Hjk]; [congruence|].
        destruct (nth_error (x_tasks (run_turns last c)) j) as [t0|] eqn:E0.
        * pose proof (F4 j t0 E0 Hjk) as E1. rewrite E1 in Htj. injection Htj as <-. apply (Hd j t0); auto. lia.
        * apply nth_error_None in E0. rewrite <- F3 in E0. apply nth_error_None in E0. congruence.
      + intros j t0 Hj Ht0. apply F4; [apply Hr; auto; lia|lia]. }
  destruct (Hk (length (x_tasks c)) ltac:(lia)) as (last & Hl & Hlen & Hd & _). exists last. split; auto.
  apply forallb_forall. intros t Ht. apply In_nth_error in Ht as [j Hj]. apply (Hd j t); auto.
  rewrite <- Hlen. apply nth_error_Some. congruence.
Qed.

Section Complete.
  Variables (a : archive) (cfg : config).
  Hypothesis Hwf : wf a.

  Lemma walk_no_diverge {C F L D} (B : builder F L D) (op : operator C F L D) :
    (forall i, create_entry B a i <> Diverge) ->
    (forall c d, snd (on_enter op c d) <> Diverge) -> (forall c d, snd (on_exit op c d) <> Diverge) ->
    (forall c d, snd (on_file op c d) <> Diverge) -> (forall c d, snd (on_link op c d) <> Diverge) ->
    forall fo c, snd (walk_forest B a op fo c) <> Diverge.
  Proof.
    intros Hc He Hx Hf Hl. induction fo as [|i r kids IHk rest IHr]; intros c; cbn [walk_forest]; [easy|].
    specialize (Hc i). destruct (create_entry B a i) as [[f|l|rg d]|e| |]; cbn [andthen fst snd]; try easy.
    - specialize (Hf c f). destruct (on_file op c f) as [c1 [u|e| |]]; cbn [andthen fst snd] in *; try easy.
    - specialize (Hl c l). destruct (on_link op c l) as [c1 [u|e| |]]; cbn [andthen fst snd] in *; try easy.
    - specialize (He c d). destruct (on_enter op c d) as [c1 [u|e| |]]; cbn [andthen fst snd] in *; try easy.
      assert (H2 : snd (if u then walk_forest B a op kids c1 else (c1, Ok tt)) <> Diverge) by (destruct u; [apply IHk|easy]).
      destruct (if u then walk_forest B a op kids c1 else (c1, Ok tt)) as [c2 [v|e| |]]; cbn [andthen fst snd] in *; try easy.
      specialize (Hx c2 d). destruct (on_exit op c2 d) as [c3 [w|e| |]]; cbn [andthen fst snd] in *; try easy.
  Qed.

  Definition sane (c : ctx) : Prop := forall t, In t (x_tasks c) -> (t_off t <= length (t_data t))%nat.
  Lemma sane_turn c x : sane c -> sane (one_turn c x).
  Proof.
    intros H. unfold one_turn. destruct (nth_error (x_tasks c) (fst x)) as [t|] eqn:E; auto.
    pose proof (H t (nth_error_In _ _ E)) as Ht. unfold write_turn.
    destruct (t_done t).
    { intros t' Ht'. cbn in Ht'. apply replace_nth_in in Ht' as [->|Ht']; auto. }
    destruct (snd x) as [k|].
    - intros t' Ht'. cbn [x_tasks] in Ht'. apply replace_nth_in in Ht' as [->|Ht']; auto. cbn [t_off t_data]. lia.
    - intros t' Ht'. cbn [x_tasks] in Ht'. apply replace_nth_in in Ht' as [->|Ht']; auto.
  Qed.
  Lemma sane_turns l : forall c, sane c -> sane (run_turns l c).
  Proof. induction l as [|x l IH]; intros c H; auto. apply (IH (one_turn c x)). now apply sane_turn. Qed.
  Lemma sane_tick sched c : sane c -> sane (tick sched c).
  Proof. intros H. unfold tick, sane. cbn. now apply sane_turns. Qed.

  (** A writing schedule that completes always exists. *)
  Theorem extract_completes rg d0 sched f : dir_range a rg d0 ->
    exists last, no_failure last /\ snd (extract_range a rg cfg sched last f) <> Diverge.
  Proof.
    intros Hrg. destruct (range_forest a Hwf rg d0 Hrg) as (fo & j & _ & _ & _ & _ & _ & E).
    unfold extract_range. rewrite E.
    set (x := andthen _ _).
    assert (Hx : sane (fst x) /\ snd x <> Diverge).
    { assert (H0 : sane (tick sched (mkCtx [] f [] false 0))) by (apply sane_tick; intros t []).
      subst x. cbn [extractor on_start on_stop]. fold (extractor a cfg sched).
      unfold io. set (c0 := with_fs _ _). assert (Hc0 : sane c0) by exact H0. clearbody c0.
      destruct (snd (create_dir_all _ _)) as [e|]; cbn [andthen fst snd]; [split; auto; easy|].
      assert (H1 : sane (fst (walk_forest x_builder a (extractor a cfg sched) fo c0))).
      { apply (walk_inv x_builder a (extractor a cfg sched) sane); [| | | |exact Hc0]; intros c d Hc; cbn [extractor on_enter on_exit on_file on_link].
        - apply (sane_tick sched) in Hc. destruct (should_extract _ _ _); auto.
          unfold io. destruct (create_dir_all _ _) as [f' [e|]]; auto.
        - exact Hc.
        - apply (sane_tick sched) in Hc. unfold x_on_file. destruct d as [[nm addr] mt].
          destruct (should_extract _ _ _); auto. destruct (a_fetch a addr); auto. destruct (open_target _ _ _ _) as [f' [[i|]|e| |]]; auto.
          intros t Ht. cbn in Ht. apply in_app_iff in Ht as [Ht|[<-|[]]]; [auto|cbn; lia].
        - apply (sane_tick sched) in Hc. unfold x_on_link. destruct d as [[nm t] mt].
          destruct (should_extract _ _ _); auto. destruct (make_link _ _ _ _ _); auto. }
      assert (H2 : snd (walk_forest x_builder a (extractor a cfg sched) fo c0) <> Diverge).
      { apply walk_no_diverge; cbn [extractor on_enter on_exit on_file on_link].
        - intros i. unfold create_entry. unfold rec_at. destruct (at_ (a_recs a) i) as [r|]; cbn; [|easy].
          destruct (r_payload r) eqn:Ep; cbn; unfold of_utf8; destruct (utf8 (r_name r)); cbn; try easy; try (rewrite Ep; cbn; easy).
          destruct (utf8 _); cbn; easy.
        - intros c d. destruct (should_extract _ _ _); [|easy]. unfold io. destruct (create_dir_all _ _) as [f' [e|]]; cbn; easy.
        - easy.
        - intros c [[nm addr] mt]. unfold x_on_file. destruct (should_extract _ _ _); [|easy]. destruct (a_fetch a addr); try easy.
          assert (Ho : snd (open_target cfg (push (x_cur (tick sched c)) nm) mt (x_fs (tick sched c))) <> Diverge).
          { unfold open_target. destruct (open_new _ _) as [f' [i|e]]; [easy|].
            destruct e; try easy. destruct (x_policy cfg); try easy.
            - unfold modified. destruct (look _ _ _) as [q [|i|tt m]|q|e]; try easy; destruct (entry_time mt); try easy;
                destruct (Z.leb _ _); try easy; destruct (open_trunc _ _) as [? [?|?]]; easy.
            - destruct (open_trunc _ _) as [? [?|?]]; easy. }
          destruct (open_target _ _ _ _) as [f' [[i|]|e| |]]; cbn [snd] in *; easy.
        - intros c [[nm t] mt]. unfold x_on_link. destruct (should_extract _ _ _); [|easy].
          assert (Ho : snd (make_link cfg (push (x_cur (tick sched c)) nm) t mt (x_fs (tick sched c))) <> Diverge).
          { assert (Hs : forall x : hostfs * option ioerr, snd (fst x, match snd x with None => Ok tt | Some e => Err (EIo e) end) <> Diverge)
              by (intros [? [?|]]; easy).
            unfold make_link. destruct (symlink _ _ _) as [f' [e|]]; [|easy].
            destruct e; try easy. destruct (x_policy cfg); try easy.
            - unfold modified. destruct (look _ _ _) as [q [|i|tt m]|q|e]; try easy; destruct (entry_time mt); try easy;
                destruct (Z.leb _ _); try easy; destruct (remove_file _ _) as [? [?|]]; try easy; apply Hs.
            - destruct (remove_file _ _) as [? [?|]]; try easy; apply Hs. }
          destruct (make_link _ _ _ _ _) as [f' r]; exact Ho. }
      destruct (walk_forest x_builder a (extractor a cfg sched) fo c0) as [c1 [u|e| |]]; cbn [andthen fst snd] in *; auto.
      split; auto; easy. }
    clearbody x. destruct x as [c r]. cbn [fst snd] in Hx. destruct Hx as [Hc Hr].
    destruct (finish_all c Hc) as (last & Hl & Hd). exists last. split; auto. cbn [snd]. rewrite Hd.
    destruct r as [u|e| |]; try easy. destruct (x_failed _); easy.
  Qed.
End Complete.
