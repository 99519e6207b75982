(** Extraction at the level of system calls. *)
From Verif Require Export SpecFine AnyKeep.

Local Ltac bad := let H := fresh in intros H; discriminate H.

(** ** Careful policies *)
Lemma careful_nil : careful [].
Proof. intros l x r E. now destruct l. Qed.
Definition fine_clause (before : list act) (x : act) : Prop :=
  match x with
  | Called f f' => leaves f f'
  | Opened f f' i => leaves f f' /\ (forall q, h_names f q <> Some (HFile i)) /\ exists q, h_names f q = None /\ h_names f' q = Some (HFile i)
  | Wrote f f' i => (forall q, h_names f' q = h_names f q) /\ (forall k, k <> i -> h_data f' k = h_data f k) /\
      (forall k, h_mtime f' k = h_mtime f k) /\ exists g g', In (Opened g g' i) before
  end.
Lemma careful_snoc l x : careful l -> fine_clause l x -> careful (l ++ [x]).
Proof.
  intros Hl Hx before y rest E. destruct rest as [|z rest _] using rev_ind.
  - apply app_inj_tail in E as [<- <-]. exact Hx.
  - rewrite app_comm_cons, app_assoc in E. apply app_inj_tail in E as [E _]. exact (Hl before y rest E).
Qed.
Lemma leaves_refl f : leaves f f.
Proof. split; auto. Qed.
Lemma leaves_add f q n : h_names f q = None -> leaves f (set_name f q (Some n)).
Proof.
  intros Hq. split; [|intros; cbn; auto]. intros q' n' Hn. cbn [h_names set_name]. destruct (path_eqb' q' q) eqn:E; [|exact Hn].
  apply path_eqb'_spec in E as ->. congruence.
Qed.
Lemma numbered_add f q n : numbered f -> (forall i, n <> HFile i) -> numbered (set_name f q (Some n)).
Proof.
  intros Hf Hn q' i. cbn [h_names set_name h_next]. destruct (path_eqb' q' q); [|apply Hf]. intros E. injection E as ->. now destruct (Hn i).
Qed.

(** A call keeps the numbering and leaves everything. *)
Definition gentle {A} (call : hostfs -> hostfs * A) : Prop := forall f, numbered f -> numbered (fst (call f)) /\ leaves f (fst (call f)).

Lemma mkdir_gentle p : gentle (fun f => mkdir f p).
Proof.
  intros f Hf. unfold mkdir. destruct (look f false p) as [q n|q|e] eqn:E; cbn [fst]; try (split; [exact Hf|apply leaves_refl]).
  split; [apply numbered_add; [exact Hf|discriminate]|]. apply leaves_add. exact (namei_missing _ _ _ _ _ _ E).
Qed.
Lemma symlink_gentle t p : gentle (fun f => symlink f t p).
Proof.
  intros f Hf. unfold symlink. destruct t as [|x t]; [split; [exact Hf|apply leaves_refl]|].
  destruct (look f false p) as [q n|q|e] eqn:E; cbn [fst]; try (split; [exact Hf|apply leaves_refl]).
  split; [apply numbered_add; [exact Hf|discriminate]|]. apply leaves_add. exact (namei_missing _ _ _ _ _ _ E).
Qed.
Lemma same_gentle {A} (v : hostfs -> A) : gentle (fun f => (f, v f)).
Proof. intros f Hf. split; [exact Hf|apply leaves_refl]. Qed.

(** What holds all along. *)
Definition watched (c : fctx) : Prop :=
  numbered (fx_fs c) /\ careful (fx_acts c) /\
  forall t, In t (fx_tasks c) -> exists g g', In (Opened g g' (t_ino t)) (fx_acts c).

Lemma replace_nth_in {A} (x y : A) : forall l n, In y (replace_nth n x l) -> y = x \/ In y l.
Proof.
  induction l as [|z l IH]; intros [|n] H; cbn [replace_nth] in H; try easy.
  - destruct H as [<-|H]; [now left|right; now right].
  - destruct H as [<-|H]; [right; now left|]. destruct (IH n H); [now left|right; now right].
Qed.
Lemma write_turn_ino f t o : t_ino (snd (fst (write_turn f t o))) = t_ino t.
Proof. unfold write_turn. destruct (t_done t); [reflexivity|]. now destruct o. Qed.
Lemma write_turn_fs f t o : let f' := fst (fst (write_turn f t o)) in
  (forall q, h_names f' q = h_names f q) /\ (forall k, k <> t_ino t -> h_data f' k = h_data f k) /\
  (forall k, h_mtime f' k = h_mtime f k) /\ h_next f' = h_next f.
Proof.
  unfold write_turn. destruct (t_done t); [cbn; auto|]. destruct o as [k|]; cbn [fst]; [|auto].
  repeat split; cbn [h_names h_data h_mtime h_next set_data]; auto. intros j Hj. destruct (N.eqb_spec j (t_ino t)); [easy|reflexivity].
Qed.
Lemma happen_watched c e : (forall g, e = Env g -> possible_env g) -> watched c -> watched (happen c e).
Proof.
  intros He (Hn & Ha & Ht). destruct e as [k o|g]; cbn [happen].
  - destruct (nth_error (fx_tasks c) k) as [t|] eqn:Ek; [|repeat split; assumption]. apply nth_error_In in Ek.
    pose proof (write_turn_ino (fx_fs c) t o) as Hi. pose proof (write_turn_fs (fx_fs c) t o) as Hw. cbv zeta in Hw.
    destruct (write_turn (fx_fs c) t o) as [[f t'] bad]. cbn [fst snd] in Hi, Hw. destruct Hw as (W1 & W2 & W3 & W4).
    split; [|split]; cbn [fx_fs fx_acts fx_tasks].
    + intros q i. rewrite W1, W4. apply Hn.
    + apply careful_snoc; [exact Ha|]. cbn [fine_clause]. auto.
    + intros t2 Hin. assert (Hex : exists g g', In (Opened g g' (t_ino t2)) (fx_acts c)).
      { apply replace_nth_in in Hin as [->|Hin]; [rewrite Hi|]; auto. }
      destruct Hex as (g & g' & H). exists g, g'. apply in_or_app. now left.
  - split; [|split]; cbn [fx_fs fx_acts fx_tasks]; auto. now apply (He g eq_refl).
Qed.
Lemma happens_watched l : possible_events l -> forall c, watched c -> watched (fold_left happen l c).
Proof.
  induction l as [|e l IH]; intros Hl c Hc; cbn [fold_left]; [exact Hc|]. apply IH.
  - intros g Hg. apply Hl. now right.
  - apply happen_watched; [|exact Hc]. intros g ->. apply Hl. now left.
Qed.

Section Watched.
  Variable sched : nat -> list fevent.
  Hypothesis Hsched : forall n, possible_events (sched n).

  Lemma gap_watched c : watched c -> watched (gap sched c).
  Proof. intros Hc. unfold gap. exact (happens_watched _ (Hsched _) c Hc). Qed.
  Lemma sys_watched {A} (call : hostfs -> hostfs * A) c : gentle call -> watched c -> watched (fst (sys sched call c)).
  Proof.
    intros G Hc. unfold sys. apply gap_watched in Hc. destruct Hc as (Hn & Ha & Ht). set (c1 := gap sched c) in *; clearbody c1.
    destruct (G (fx_fs c1) Hn) as [G1 G2]. destruct (call (fx_fs c1)) as [f r]. cbn [fst] in *.
    split; [|split]; cbn [did fx_fs fx_acts fx_tasks]; [exact G1|now apply careful_snoc|].
    intros t Hin. destruct (Ht t Hin) as (g & g' & H). exists g, g'. apply in_or_app. now left.
  Qed.
  Lemma dir_rev_watched start : forall l c, watched c -> watched (fst (fine_dir_rev sched c start l)).
  Proof.
    induction l as [|x l IH]; intros c Hc; [exact Hc|]. cbn [fine_dir_rev].
    assert (Hmk : forall c, watched c -> watched (fst (sys sched (mkdir_call start (rev (x :: l))) c)))
      by (intros; apply sys_watched; [apply mkdir_gentle|assumption]).
    assert (His : forall c, watched c -> watched (fst (sys sched (is_dir_call start (rev (x :: l))) c)))
      by (intros; apply sys_watched; [apply (same_gentle (fun f => is_dir_path f (start, rev (x :: l))))|assumption]).
    pose proof (Hmk c Hc) as H1. destruct (sys sched (mkdir_call start (rev (x :: l))) c) as [c1 [e|]]; cbn [fst] in H1; [|exact H1].
    assert (Hstat : forall (e : ioerr) c, watched c -> watched (fst (let (c4, d) := sys sched (is_dir_call start (rev (x :: l))) c in
       if d : bool then (c4, None) else (c4, Some e)))).
    { intros e' c' Hc'. pose proof (His c' Hc') as H2. destruct (sys sched (is_dir_call start (rev (x :: l))) c') as [c2 d]. now destruct d. }
    destruct e; try (apply Hstat; exact H1).
    specialize (IH c1 H1). destruct (fine_dir_rev sched c1 start l) as [c2 [e2|]]; cbn [fst] in IH; [exact IH|].
    pose proof (Hmk c2 IH) as H3. destruct (sys sched (mkdir_call start (rev (x :: l))) c2) as [c3 [e3|]]; cbn [fst] in H3; [|exact H3].
    now apply Hstat.
  Qed.
  Lemma dir_watched p c : watched c -> watched (fst (fine_dir sched p c)).
  Proof.
    intros Hc. unfold fine_dir. pose proof (dir_rev_watched (fst p) (rev (snd p)) c Hc) as H.
    now destruct (fine_dir_rev sched c (fst p) (rev (snd p))).
  Qed.
  Lemma open_new_watched lim p c : watched c -> watched (fst (sys_open lim sched (fun f => open_new f p) c)) /\
    forall i, snd (sys_open lim sched (fun f => open_new f p) c) = inl i ->
      exists g g', In (Opened g g' i) (fx_acts (fst (sys_open lim sched (fun f => open_new f p) c))).
  Proof.
    intros Hc. unfold sys_open. apply gap_watched in Hc. destruct Hc as (Hn & Ha & Ht). set (c1 := gap sched c) in *; clearbody c1.
    match goal with |- context [if ?x then _ else _] => destruct x end.
    { cbn [fst snd]. split; [split; [|split]; assumption|discriminate]. }
    unfold open_new. destruct (look (fx_fs c1) false p) as [q n|q|e] eqn:E.
    - cbn [fst snd]. split; [|discriminate]. split; [|split]; cbn [did fx_fs fx_acts fx_tasks]; [exact Hn|apply careful_snoc; [exact Ha|apply leaves_refl]|].
      intros t Hin. destruct (Ht t Hin) as (g & g' & H). exists g, g'. apply in_or_app. now left.
    - pose proof (namei_missing _ _ _ _ _ _ E) as Hq.
      match goal with |- context [Opened _ ?y _] => set (f' := y) end.
      assert (L : leaves (fx_fs c1) f').
      { split.
        - intros q' n' Hn'. cbn [f' touch set_data bump set_name h_names]. destruct (path_eqb' q' q) eqn:Eq; [|exact Hn'].
          apply path_eqb'_spec in Eq as ->. congruence.
        - intros q' i Hi. apply Hn in Hi. cbn [f' touch set_data bump set_name h_names h_data h_mtime].
          destruct (N.eqb_spec i (h_next (fx_fs c1))); [lia|auto]. }
      cbn [fst snd]. split.
      + split; [|split]; cbn [did fx_fs fx_acts fx_tasks].
        * intros q' i. unfold f'. cbn [touch set_data bump set_name h_names h_next]. destruct (path_eqb' q' q) eqn:Eq.
          -- intros Ei. injection Ei as Ei. rewrite <- Ei. lia.
          -- intros Hi. apply Hn in Hi. lia.
        * apply careful_snoc; [exact Ha|]. cbn [fine_clause]. split; [exact L|]. split.
          -- intros q' Hq'. apply Hn in Hq'. lia.
          -- exists q. split; [exact Hq|]. cbn [f' touch set_data bump set_name h_names].
             replace (path_eqb' q q) with true; [reflexivity|]. symmetry. now apply path_eqb'_spec.
        * intros t Hin. destruct (Ht t Hin) as (g & g' & H). exists g, g'. apply in_or_app. now left.
      + intros i Ei. injection Ei as <-. exists (fx_fs c1), f'. cbn [did fx_acts]. apply in_or_app. right. now left.
    - cbn [fst snd]. split; [|discriminate]. split; [|split]; cbn [did fx_fs fx_acts fx_tasks]; [exact Hn|apply careful_snoc; [exact Ha|apply leaves_refl]|].
      intros t Hin. destruct (Ht t Hin) as (g & g' & H). exists g, g'. apply in_or_app. now left.
  Qed.

  Variables (lim : option nat) (a : archive) (cfg : config).
  Hypothesis Hpol : preserving (x_policy cfg).

  Lemma fine_file_watched c x : watched c -> watched (fst (fine_on_file lim sched a cfg c x)).
  Proof.
    intros Hc. destruct x as [[nm ad] mt]. unfold fine_on_file. destruct (should_extract cfg (push (fx_cur c) nm) false); [|exact Hc].
    destruct (a_fetch a ad) as [data| | |]; try exact Hc. unfold fine_target.
    set (p := abs_path cfg (push (fx_cur c) nm)). destruct (open_new_watched lim p c Hc) as [H1 H2].
    destruct (sys_open lim sched (fun f => open_new f p) c) as [c1 [i|e]]; cbn [fst snd] in *; cbn [andthen].
    - destruct H1 as (A1 & A2 & A3). split; [|split]; cbn [fst fx_fs fx_acts fx_tasks]; auto.
      intros t Ht. apply in_app_or in Ht as [Ht|[<-|[]]]; [now apply A3|]. apply H2. reflexivity.
    - destruct e; try exact H1. destruct Hpol as [-> | [-> | ->]]; exact H1.
  Qed.
  Lemma fine_link_watched c x : watched c -> watched (fst (fine_on_link sched cfg c x)).
  Proof.
    intros Hc. destruct x as [[nm t] mt]. unfold fine_on_link. destruct (should_extract cfg (push (fx_cur c) nm) false); [|exact Hc].
    unfold fine_link. set (p := abs_path cfg (push (fx_cur c) nm)).
    pose proof (sys_watched (fun f => symlink f t p) c (symlink_gentle t p) Hc) as H1.
    destruct (sys sched (fun f => symlink f t p) c) as [c1 [e|]]; cbn [fst] in *; [|exact H1].
    destruct e; try exact H1. destruct Hpol as [-> | [-> | ->]]; exact H1.
  Qed.
  Lemma fine_extractor_watched : preserves (fine_extractor lim a cfg sched) watched.
  Proof.
    constructor; cbn [fine_extractor on_start on_stop on_enter on_exit on_file on_link].
    - intros c Hc. now apply dir_watched.
    - auto.
    - intros c d Hc. destruct (should_extract cfg (push (fx_cur c) d) true); [|exact Hc].
      apply andthen_kept; [|auto]. now apply dir_watched.
    - intros c d Hc. exact Hc.
    - exact fine_file_watched.
    - exact fine_link_watched.
  Qed.
End Watched.

Lemma watched_start f : numbered f -> watched (fine_start f).
Proof. intros Hf. split; [|split]; [exact Hf|apply careful_nil|easy]. Qed.
Lemma fine_watched lim a rg cfg sched last f fuel : preserving (x_policy cfg) -> numbered f ->
  (forall n, possible_events (sched n)) -> possible_events last ->
  watched (fold_left happen last (fst (run_from_range x_builder a (fine_extractor lim a cfg sched) fuel rg (fine_start f)))).
Proof.
  intros Hp Hf Hs Hl. apply happens_watched; [exact Hl|]. apply run_from_range_preserves; [|now apply watched_start].
  now apply fine_extractor_watched.
Qed.
