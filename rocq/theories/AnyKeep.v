(** Policies that never replace, on any table of records. *)
From Verif Require Export ExtractKeep.

(** What every callback keeps is kept by a walk. *)
Record preserves {C F L D} (op : operator C F L D) (I : C -> Prop) : Prop := {
  pv_start : forall c, I c -> I (fst (on_start op c));
  pv_stop : forall c, I c -> I (fst (on_stop op c));
  pv_enter : forall c d, I c -> I (fst (on_enter op c d));
  pv_exit : forall c d, I c -> I (fst (on_exit op c d));
  pv_file : forall c x, I c -> I (fst (on_file op c x));
  pv_link : forall c x, I c -> I (fst (on_link op c x)) }.

Lemma andthen_kept {C A B} (I : C -> Prop) (x : C * res A) (k : C -> A -> C * res B) :
  I (fst x) -> (forall c v, I c -> I (fst (k c v))) -> I (fst (andthen x k)).
Proof. destruct x as [c [v| | |]]; cbn [andthen fst]; auto. Qed.

Lemma run_range_preserves {C F L D} (B : builder F L D) a (op : operator C F L D) I : preserves op I ->
  forall fuel cur stop c, I c -> I (fst (run_range B a op fuel cur stop c)).
Proof.
  intros P. induction fuel as [|k IH]; intros cur stop c Hc; [exact Hc|]. cbn [run_range].
  destruct (cur =? stop); [exact Hc|]. apply andthen_kept; [exact Hc|]. clear c Hc. intros c [x|x|r d] Hc.
  - apply andthen_kept; [now apply (pv_file _ _ P)|auto].
  - apply andthen_kept; [now apply (pv_link _ _ P)|auto].
  - apply andthen_kept; [now apply (pv_enter _ _ P)|]. clear c Hc. intros c e Hc.
    apply andthen_kept; [destruct e; auto|]. clear c Hc. intros c _ Hc. apply andthen_kept; [now apply (pv_exit _ _ P)|auto].
Qed.
Lemma run_from_range_preserves {C F L D} (B : builder F L D) a (op : operator C F L D) I : preserves op I ->
  forall fuel rg c, I c -> I (fst (run_from_range B a op fuel rg c)).
Proof.
  intros P fuel rg c Hc. unfold run_from_range. apply andthen_kept; [now apply (pv_start _ _ P)|]. intros c1 _ H1.
  apply andthen_kept; [now apply run_range_preserves|]. intros c2 _ H2. now apply (pv_stop _ _ P).
Qed.

Lemma replace_nth_forall {A} (P : A -> Prop) x : P x -> forall l n, Forall P l -> Forall P (replace_nth n x l).
Proof.
  intros Hx. induction l as [|y l IH]; intros [|n] Hl; cbn; auto; inversion Hl; constructor; auto.
Qed.

(** During an extraction: the host is kept, and the files being written are new. *)
Definition adding (f : hostfs) (c : ctx) : Prop := kept f (x_fs c) /\ Forall (fun t => h_next f <= t_ino t) (x_tasks c).

Lemma adding_start f : adding f (mkCtx [] f [] false 0).
Proof. split; [apply kept_refl|constructor]. Qed.
Lemma one_turn_adding f c x : adding f c -> adding f (one_turn c x).
Proof.
  intros [K T]. unfold one_turn. destruct (nth_error (x_tasks c) (fst x)) as [t|] eqn:En; [|now split].
  assert (Ht : h_next f <= t_ino t) by (rewrite Forall_forall in T; apply T; now apply nth_error_In in En).
  unfold write_turn. destruct (t_done t).
  { split; [exact K|]. cbn [x_tasks]. apply replace_nth_forall; auto. }
  destruct (snd x) as [k|]; cbn.
  - split; cbn [x_fs x_tasks]; [|apply replace_nth_forall; auto].
    constructor; cbn; try apply K.
    intros i Hi. destruct (N.eqb_spec i (t_ino t)) as [->|]; [lia|]. now apply (kp_inodes _ _ K).
  - split; [exact K|]. cbn [x_tasks]. apply replace_nth_forall; auto.
Qed.
Lemma run_turns_adding f l : forall c, adding f c -> adding f (run_turns l c).
Proof. induction l as [|x l IH]; intros c Hc; cbn; auto. apply IH. now apply one_turn_adding. Qed.
Lemma tick_adding f sched c : adding f c -> adding f (tick sched c).
Proof. intros H. destruct (run_turns_adding f (sched (x_tick c)) c H). now split. Qed.
Lemma with_fs_adding f c g : adding f c -> kept (x_fs c) g -> adding f (with_fs c g).
Proof. intros [K T] Hg. split; [eapply kept_trans; eauto|exact T]. Qed.
Lemma with_cur_adding f c p : adding f c -> adding f (with_cur c p).
Proof. now intros [K T]. Qed.

Section Adding.
  Variables (a : archive) (cfg : config) (sched : nat -> turns) (f : hostfs).
  Hypothesis Hpol : preserving (x_policy cfg).

  Lemma file_adding c x : adding f c -> adding f (fst (x_on_file a cfg sched c x)).
  Proof.
    intros Hc. destruct x as [[nm ad] mt]. unfold x_on_file. pose proof (tick_adding f sched c Hc) as Ht. set (c1 := tick sched c) in *.
    destruct (should_extract cfg (push (x_cur c1) nm) false); [|exact Ht].
    destruct (a_fetch a ad) as [data| | |]; try exact Ht.
    destruct (open_target_kept cfg Hpol (push (x_cur c1) nm) mt (x_fs c1)) as [O1 O2].
    destruct (open_target cfg (push (x_cur c1) nm) mt (x_fs c1)) as [g [[i|]| | |]]; cbn [fst snd] in *; try (apply with_fs_adding; auto; fail).
    destruct (O2 i eq_refl) as [-> _]. destruct Ht as [K T]. split; cbn [x_fs x_tasks]; [eapply kept_trans; eauto|].
    apply Forall_app. split; auto. constructor; [|constructor]. cbn. apply (kp_next _ _ K).
  Qed.
  Lemma link_adding c x : adding f c -> adding f (fst (x_on_link cfg sched c x)).
  Proof.
    intros Hc. destruct x as [[nm t] mt]. unfold x_on_link. pose proof (tick_adding f sched c Hc) as Ht. set (c1 := tick sched c) in *.
    destruct (should_extract cfg (push (x_cur c1) nm) false); [|exact Ht].
    pose proof (make_link_kept cfg Hpol (push (x_cur c1) nm) t mt (x_fs c1)) as O1.
    destruct (make_link cfg (push (x_cur c1) nm) t mt (x_fs c1)) as [g r]; cbn [fst] in *. now apply with_fs_adding.
  Qed.
  Lemma enter_adding c nm : adding f c -> adding f (fst (on_enter (extractor a cfg sched) c nm)).
  Proof.
    intros Hc. cbn [on_enter extractor]. pose proof (tick_adding f sched c Hc) as Ht. set (c1 := tick sched c) in *.
    pose proof (with_cur_adding f c1 (push (x_cur c1) nm) Ht) as Hw. destruct (should_extract cfg (push (x_cur c1) nm) true); [|exact Hw].
    apply andthen_kept; [|auto]. unfold io. cbn [fst]. apply with_fs_adding; auto. apply create_dir_all_kept.
  Qed.
  Lemma start_adding c : adding f c -> adding f (fst (on_start (extractor a cfg sched) c)).
  Proof.
    intros Hc. cbn [on_start extractor]. pose proof (tick_adding f sched c Hc) as Ht. unfold io. cbn [fst].
    apply with_fs_adding; auto. apply create_dir_all_kept.
  Qed.
  Lemma extractor_adding : preserves (extractor a cfg sched) (adding f).
  Proof.
    constructor; [exact start_adding|auto|exact enter_adding|intros c d Hc; now apply with_cur_adding|exact file_adding|exact link_adding].
  Qed.
End Adding.

Lemma kept_unchanged f g q : (forall q i, h_names f q = Some (HFile i) -> i < h_next f) -> kept f g -> h_names f q <> None -> unchanged f g q.
Proof.
  intros Hi K Hq. destruct (h_names f q) as [n|] eqn:E; [|easy]. split; [rewrite E; now apply (kp_names _ _ K)|].
  intros i Ei. apply (kp_inodes _ _ K). apply (Hi q). congruence.
Qed.
Lemma any_kept a rg cfg sched last f g res : preserving (x_policy cfg) -> extract_range a rg cfg sched last f = (g, res) -> kept f g.
Proof.
  intros Hp H. unfold extract_range in H.
  pose proof (run_from_range_preserves x_builder a _ _ (extractor_adding a cfg sched f Hp) (walk_fuel a) rg _ (adding_start f)) as K.
  destruct (run_from_range x_builder a (extractor a cfg sched) (walk_fuel a) rg (mkCtx [] f [] false 0)) as [c r]. cbn [fst] in K.
  injection H as <- _. now apply run_turns_adding.
Qed.
