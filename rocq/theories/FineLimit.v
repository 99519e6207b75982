(** A bound on the number of open files. *)
From Verif Require Export FineSim.

(** ** Success under a limit is success without *)
Definition ok_same {A} (X Y : fctx -> fctx * res A) : Prop := forall c c' v, X c = (c', Ok v) -> Y c = (c', Ok v).
Lemma ok_same_refl {A} (X : fctx -> fctx * res A) : ok_same X X.
Proof. intros c c' v H. exact H. Qed.
Lemma ok_same_then {A C} (X Y : fctx -> fctx * res A) (X2 Y2 : fctx -> A -> fctx * res C) :
  ok_same X Y -> (forall v, ok_same (fun c => X2 c v) (fun c => Y2 c v)) -> ok_same (fun c => andthen (X c) X2) (fun c => andthen (Y c) Y2).
Proof.
  intros H1 H2 c c' v H. cbv beta in *. destruct (X c) as [c1 [w|e| |]] eqn:E; try discriminate H. rewrite (H1 _ _ _ E). cbn [andthen] in *.
  exact (H2 w _ _ _ H).
Qed.
Record op_ok_same {F L D} (op op' : operator fctx F L D) : Prop := {
  os_start : ok_same (on_start op) (on_start op');
  os_stop : ok_same (on_stop op) (on_stop op');
  os_enter : forall d, ok_same (fun c => on_enter op c d) (fun c => on_enter op' c d);
  os_exit : forall d, ok_same (fun c => on_exit op c d) (fun c => on_exit op' c d);
  os_file : forall x, ok_same (fun c => on_file op c x) (fun c => on_file op' c x);
  os_link : forall x, ok_same (fun c => on_link op c x) (fun c => on_link op' c x) }.
Lemma ok_same_range {F L D} (B : builder F L D) a op op' : op_ok_same op op' -> forall fuel cur stop,
  ok_same (run_range B a op fuel cur stop) (run_range B a op' fuel cur stop).
Proof.
  intros M. induction fuel as [|k IH]; intros cur stop; [intros c c' v H; discriminate H|].
  cbn [run_range]. destruct (cur =? stop); [intros c c' v H; exact H|].
  destruct (create_entry B a cur) as [[x|x|r d]|e| |]; cbn [andthen]; try (intros c c' v H; discriminate H).
  - refine (ok_same_then _ _ (fun c _ => run_range B a op k (cur + 1) stop c) (fun c _ => run_range B a op' k (cur + 1) stop c) (os_file _ _ M x) _).
    intros v. apply IH.
  - refine (ok_same_then _ _ (fun c _ => run_range B a op k (cur + 1) stop c) (fun c _ => run_range B a op' k (cur + 1) stop c) (os_link _ _ M x) _).
    intros v. apply IH.
  - refine (ok_same_then _ _
      (fun c (enter : bool) => andthen (if enter then run_range B a op k (fst r) (fst r + snd r) c else (c, Ok tt))
         (fun c _ => andthen (on_exit op c d) (fun c _ => run_range B a op k (cur + 1) stop c)))
      (fun c (enter : bool) => andthen (if enter then run_range B a op' k (fst r) (fst r + snd r) c else (c, Ok tt))
         (fun c _ => andthen (on_exit op' c d) (fun c _ => run_range B a op' k (cur + 1) stop c))) (os_enter _ _ M d) _).
    intros enter.
    refine (ok_same_then (fun c => if enter then run_range B a op k (fst r) (fst r + snd r) c else (c, Ok tt))
      (fun c => if enter then run_range B a op' k (fst r) (fst r + snd r) c else (c, Ok tt))
      (fun c _ => andthen (on_exit op c d) (fun c _ => run_range B a op k (cur + 1) stop c))
      (fun c _ => andthen (on_exit op' c d) (fun c _ => run_range B a op' k (cur + 1) stop c)) _ _).
    + destruct enter; [apply IH|apply ok_same_refl].
    + intros _. refine (ok_same_then _ _ (fun c _ => run_range B a op k (cur + 1) stop c) (fun c _ => run_range B a op' k (cur + 1) stop c) (os_exit _ _ M d) _).
      intros v. apply IH.
Qed.
Lemma ok_same_from_range {F L D} (B : builder F L D) a op op' : op_ok_same op op' -> forall fuel rg,
  ok_same (run_from_range B a op fuel rg) (run_from_range B a op' fuel rg).
Proof.
  intros M fuel rg. unfold run_from_range.
  refine (ok_same_then _ _ (fun c _ => andthen (run_range B a op fuel (fst rg) (fst rg + snd rg) c) (fun c _ => on_stop op c))
     (fun c _ => andthen (run_range B a op' fuel (fst rg) (fst rg + snd rg) c) (fun c _ => on_stop op' c)) (os_start _ _ M) _).
  intros _. refine (ok_same_then _ _ (fun c _ => on_stop op c) (fun c _ => on_stop op' c) (ok_same_range B a op op' M _ _ _) _).
  intros _. exact (os_stop _ _ M).
Qed.

(** An open that the limit refuses is an error. *)
Lemma open_limit lim sched call c : sys_open lim sched call c = sys_open None sched call c \/ sys_open lim sched call c = (gap sched c, Datatypes.inr IoOther).
Proof. unfold sys_open. destruct lim as [n|]; [|now left]. destruct (n <=? _)%nat; [now right|now left]. Qed.
Lemma target_ok lim sched cfg cur mt : ok_same (fine_target lim sched cfg cur mt) (fine_target None sched cfg cur mt).
Proof.
  intros c c' v. unfold fine_target. set (p := abs_path cfg cur).
  destruct (open_limit lim sched (fun f => open_new f p) c) as [-> | ->]; [|intros H; discriminate H].
  destruct (sys_open None sched (fun f => open_new f p) c) as [c1 [i|e]]; [auto|]. destruct e; auto.
  assert (T : forall c c' v, match sys_open lim sched (fun f => open_trunc f p) c with
      | (c, inl i) => (c, Ok (Some i)) | (c, Datatypes.inr e) => (c, Err (EIo e)) end = (c', Ok v) ->
      match sys_open None sched (fun f => open_trunc f p) c with
      | (c, inl i) => (c, Ok (Some i)) | (c, Datatypes.inr e) => (c, Err (EIo e)) end = (c', Ok v)).
  { intros c0 c0' v0. destruct (open_limit lim sched (fun f => open_trunc f p) c0) as [-> | ->]; [auto|intros H; discriminate H]. }
  destruct (x_policy cfg); auto. destruct (sys sched (stat_call true p) c1) as [c2 [t|e| |]]; cbn [andthen]; auto.
  destruct (entry_time mt) as [t'|e| |]; auto. destruct (t <=? t')%Z; auto.
Qed.
Lemma extractor_ok lim a cfg sched : op_ok_same (fine_extractor lim a cfg sched) (fine_extractor None a cfg sched).
Proof.
  constructor; cbn [fine_extractor on_start on_stop on_enter on_exit on_file on_link]; try (intros; apply ok_same_refl).
  intros [[nm ad] mt] c c' v. unfold fine_on_file. destruct (should_extract cfg (push (fx_cur c) nm) false); [|auto].
  destruct (a_fetch a ad) as [data| | |]; auto. pose proof (target_ok lim sched cfg (push (fx_cur c) nm) mt c) as T.
  destruct (fine_target lim sched cfg (push (fx_cur c) nm) mt c) as [c1 [o|e| |]]; try (intros H; discriminate H).
  rewrite (T c1 o eq_refl). auto.
Qed.
Lemma fine_ok lim a rg cfg sched last f c : fine_extract lim a rg cfg sched last f = (c, Ok tt) -> fine_extract None a rg cfg sched last f = (c, Ok tt).
Proof.
  unfold fine_extract.
  destruct (run_from_range x_builder a (fine_extractor lim a cfg sched) (walk_fuel a) rg (fine_start f)) as [c1 [[]|e| |]] eqn:E.
  - rewrite (ok_same_from_range x_builder a _ _ (extractor_ok lim a cfg sched) (walk_fuel a) rg _ _ _ E). auto.
  - intros H. injection H as _ H. destruct (forallb t_done (fx_tasks (fold_left happen last c1))); discriminate H.
  - intros H. injection H as _ H. destruct (forallb t_done (fx_tasks (fold_left happen last c1))); discriminate H.
  - intros H. injection H as _ H. destruct (forallb t_done (fx_tasks (fold_left happen last c1))); discriminate H.
Qed.

(** ** When nothing is written during the walk, every file opened is still open *)
Definition no_hard_links (f : hostfs) : Prop := forall p q i, h_names f p = Some (HFile i) -> h_names f q = Some (HFile i) -> p = q.
Definition held (n : nat) (f : hostfs) (c : fctx) : Prop :=
  numbered (fx_fs c) /\ no_hard_links (fx_fs c) /\ (length (fx_tasks c) <= n)%nat /\ Forall (fun t => t_done t = false) (fx_tasks c) /\
  forall q i, h_names (fx_fs c) q = Some (HFile i) -> h_names f q = Some (HFile i) \/ In i (map t_ino (fx_tasks c)).
(** A call that makes no file. *)
Definition no_file {A} (call : hostfs -> hostfs * A) : Prop := forall f, h_next f <= h_next (fst (call f)) /\
  forall q i, h_names (fst (call f)) q = Some (HFile i) -> h_names f q = Some (HFile i).
Lemma no_file_set f q n : (forall i, n <> Some (HFile i)) -> h_next f <= h_next (set_name f q n) /\
  forall q' i, h_names (set_name f q n) q' = Some (HFile i) -> h_names f q' = Some (HFile i).
Proof.
  intros H. split; [cbn [h_next set_name]; lia|]. intros q' i. cbn [h_names set_name]. destruct (path_eqb' q' q); [|auto].
  intros E. destruct (H i E).
Qed.
Lemma no_file_same f : h_next f <= h_next f /\ forall q i, h_names f q = Some (HFile i) -> h_names f q = Some (HFile i).
Proof. split; [lia|auto]. Qed.
Lemma mkdir_no_file p : no_file (fun f => mkdir f p).
Proof.
  intros f. unfold mkdir. destruct (look f false p) as [q n|q|e]; cbn [fst]; try apply no_file_same. apply no_file_set.
  intros i HH; discriminate HH.
Qed.
Lemma symlink_no_file t p : no_file (fun f => symlink f t p).
Proof.
  intros f. unfold symlink. destruct t as [|t0 ts]; [apply no_file_same|]. destruct (look f false p) as [q n|q|e]; cbn [fst]; try apply no_file_same.
  apply no_file_set. intros i HH; discriminate HH.
Qed.
Lemma remove_no_file p : no_file (fun f => remove_file f p).
Proof.
  intros f. unfold remove_file. destruct (look f false p) as [q [|i|t m]|q|e]; cbn [fst]; try apply no_file_same; apply no_file_set;
  intros j HH; discriminate HH.
Qed.
Lemma same_no_file {A} (v : hostfs -> A) : no_file (fun f => (f, v f)).
Proof. intros f. apply no_file_same. Qed.

Section Held.
  Variables (n : nat) (f : hostfs) (sched : nat -> list fevent) (a : archive) (cfg : config).
  Hypothesis Hidle : forall k, sched k = [].

  Lemma gap_idle c : gap sched c = mkFctx (fx_cur c) (fx_fs c) (fx_tasks c) (fx_failed c) (S (fx_calls c)) (fx_acts c).
  Proof. unfold gap. rewrite Hidle. reflexivity. Qed.
  Lemma sys_held {A} (call : hostfs -> hostfs * A) c : no_file call -> held n f c -> held n f (fst (sys sched call c)).
  Proof.
    intros Hc (H1 & H2 & H3 & H4 & H5). unfold sys. rewrite gap_idle. cbn [fx_fs]. destruct (Hc (fx_fs c)) as [C1 C2].
    destruct (call (fx_fs c)) as [g r]. cbn [fst did fx_cur fx_fs fx_tasks fx_failed fx_calls fx_acts] in *.
    split; [|split; [|split; [|split]]]; cbn [fx_fs fx_tasks]; auto.
    - intros q i Hq. apply C2 in Hq. apply H1 in Hq. exact (N.lt_le_trans _ _ _ Hq C1).
    - intros p q i Hp Hq. eapply H2; eauto.
  Qed.
  Lemma dir_rev_held start : forall l c, held n f c -> held n f (fst (fine_dir_rev sched c start l)).
  Proof.
    induction l as [|x l IH]; intros c Hc; [exact Hc|]. cbn [fine_dir_rev].
    assert (Hmk : forall c, held n f c -> held n f (fst (sys sched (mkdir_call start (rev (x :: l))) c)))
      by (intros; apply sys_held; [apply mkdir_no_file|assumption]).
    assert (His : forall c, held n f c -> held n f (fst (sys sched (is_dir_call start (rev (x :: l))) c)))
      by (intros; apply sys_held; [apply (same_no_file (fun f => is_dir_path f (start, rev (x :: l))))|assumption]).
    pose proof (Hmk c Hc) as H1. destruct (sys sched (mkdir_call start (rev (x :: l))) c) as [c1 [e|]]; cbn [fst] in H1; [|exact H1].
    assert (Hstat : forall (e : ioerr) c, held n f c -> held n f (fst (let (c4, d) := sys sched (is_dir_call start (rev (x :: l))) c in
       if d : bool then (c4, None) else (c4, Some e)))).
    { intros e' c' Hc'. pose proof (His c' Hc') as H2. destruct (sys sched (is_dir_call start (rev (x :: l))) c') as [c2 d]. now destruct d. }
    destruct e; try (apply Hstat; exact H1).
    specialize (IH c1 H1). destruct (fine_dir_rev sched c1 start l) as [c2 [e2|]]; cbn [fst] in IH; [exact IH|].
    pose proof (Hmk c2 IH) as H3. destruct (sys sched (mkdir_call start (rev (x :: l))) c2) as [c3 [e3|]]; cbn [fst] in H3; [|exact H3].
    now apply Hstat.
  Qed.
  Lemma dir_held p c : held n f c -> held n f (fst (fine_dir sched p c)).
  Proof.
    intros Hc. unfold fine_dir. pose proof (dir_rev_held (fst p) (rev (snd p)) c Hc) as H.
    now destruct (fine_dir_rev sched c (fst p) (rev (snd p))).
  Qed.
  Lemma all_undone l : Forall (fun t => t_done t = false) l -> filter (fun t => negb (t_done t)) l = l.
  Proof. induction 1 as [|t l H _ IH]; [reflexivity|]. cbn [filter]. rewrite H. cbn [negb]. now rewrite IH. Qed.
  (** An open: either it opened nothing, or there was room and the caller's task restores the invariant. *)
  Definition opened_by (c : fctx) (i : N) : Prop := forall data,
    held n f (mkFctx (fx_cur c) (fx_fs c) (fx_tasks c ++ [mkTask i data 0 false]) (fx_failed c) (fx_calls c) (fx_acts c)).
  Lemma room_add c g i x cur failed calls : held n f c -> (length (fx_tasks c) < n)%nat ->
    numbered g -> no_hard_links g -> (forall q j, h_names g q = Some (HFile j) -> h_names (fx_fs c) q = Some (HFile j) \/ j = i) ->
    opened_by (mkFctx cur g (fx_tasks c) failed calls x) i.
  Proof.
    intros (H1 & H2 & H3 & H4 & H5) Hr G1 G2 G3 data. split; [|split; [|split; [|split]]]; cbn [fx_fs fx_tasks]; auto.
    - rewrite app_length. cbn [length]. lia.
    - apply Forall_app. split; [exact H4|]. now repeat constructor.
    - intros q j Hq. rewrite map_app, in_app_iff. destruct (G3 q j Hq) as [Hj| ->]; [destruct (H5 q j Hj); auto|]. right. right. now left.
  Qed.
  Lemma open_new_held p c : held n f c -> match sys_open (Some n) sched (fun g => open_new g p) c with
    | (c', inl i) => opened_by c' i
    | (c', Datatypes.inr _) => held n f c'
    end.
  Proof.
    intros Hc. unfold sys_open. rewrite gap_idle. cbn [fx_fs fx_tasks]. pose proof Hc as (H1 & H2 & H3 & H4 & H5). rewrite all_undone by exact H4.
    destruct (Nat.leb_spec n (length (fx_tasks c))) as [Hf|Hr]; [exact Hc|].
    unfold open_new. destruct (look (fx_fs c) false p) as [q m|q|e] eqn:E; [exact Hc| |exact Hc].
    pose proof (namei_missing _ _ _ _ _ _ E) as Hq. cbn [did fx_cur fx_fs fx_tasks fx_failed fx_calls fx_acts].
    assert (G : forall q' j, h_names (set_name (fx_fs c) q (Some (HFile (h_next (fx_fs c))))) q' = Some (HFile j) ->
      (q' <> q /\ h_names (fx_fs c) q' = Some (HFile j)) \/ (q' = q /\ j = h_next (fx_fs c))).
    { intros q' j. cbn [h_names set_name]. destruct (path_eqb' q' q) eqn:Ep.
      - apply path_eqb'_spec in Ep. intros Ej. injection Ej as <-. now right.
      - intros Hj. left. split; [|exact Hj]. intros ->. assert (path_eqb' q q = true) by now apply path_eqb'_spec. congruence. }
    apply room_add; auto.
    - intros q' j Hj. apply G in Hj. cbn [touch set_data bump h_next]. destruct Hj as [[_ Hj]|[_ ->]]; [apply H1 in Hj|]; cbn; lia.
    - intros p1 p2 j Hp1 Hp2. apply G in Hp1. apply G in Hp2. destruct Hp1 as [[_ Hp1]|[-> ->]], Hp2 as [[_ Hp2]|[-> E2]]; auto.
      + eapply H2; eauto.
      + subst j. apply H1 in Hp1. lia.
      + apply H1 in Hp2. lia.
    - intros q' j Hj. apply G in Hj as [[_ Hj]|[_ ->]]; auto.
  Qed.
  Lemma open_trunc_held p c : held n f c -> match sys_open (Some n) sched (fun g => open_trunc g p) c with
    | (c', inl i) => opened_by c' i
    | (c', Datatypes.inr _) => held n f c'
    end.
  Proof.
    intros Hc. unfold sys_open. rewrite gap_idle. cbn [fx_fs fx_tasks]. pose proof Hc as (H1 & H2 & H3 & H4 & H5). rewrite all_undone by exact H4.
    destruct (Nat.leb_spec n (length (fx_tasks c))) as [Hf|Hr]; [exact Hc|].
    unfold open_trunc. destruct (look (fx_fs c) true p) as [q [|i|t m]|q|e] eqn:E; try exact Hc.
    apply room_add; auto.
  Qed.
  Lemma file_held c x : held n f c -> held n f (fst (fine_on_file (Some n) sched a cfg c x)).
  Proof.
    intros Hc. destruct x as [[nm ad] mt]. unfold fine_on_file. destruct (should_extract cfg (push (fx_cur c) nm) false); [|exact Hc].
    destruct (a_fetch a ad) as [data| | |]; try exact Hc. unfold fine_target. set (p := abs_path cfg (push (fx_cur c) nm)).
    pose proof (open_new_held p c Hc) as H1. destruct (sys_open (Some n) sched (fun g => open_new g p) c) as [c1 [i|e]]; cbn [andthen fst].
    { apply H1. }
    assert (T : forall c2, held n f c2 -> held n f (fst (andthen match sys_open (Some n) sched (fun g => open_trunc g p) c2 with
        | (c, inl i) => (c, Ok (Some i)) | (c, Datatypes.inr e) => (c, Err (EIo e)) end (fun c o => match o with
          | Some i => (mkFctx (fx_cur c) (fx_fs c) (fx_tasks c ++ [mkTask i data 0 false]) (fx_failed c) (fx_calls c) (fx_acts c), Ok tt)
          | None => (c, Ok tt)
          end)))).
    { intros c2 H2. pose proof (open_trunc_held p c2 H2) as H3. destruct (sys_open (Some n) sched (fun g => open_trunc g p) c2) as [c3 [i|e2]]; cbn [andthen fst]; [apply H3|exact H3]. }
    destruct e; try exact H1. destruct (x_policy cfg); try exact H1; [|now apply T].
    pose proof (sys_held (stat_call true p) c1 (same_no_file (fun g => modified g true p)) H1) as H2.
    destruct (sys sched (stat_call true p) c1) as [c2 [t|e| |]]; cbn [andthen fst] in *; auto.
    destruct (entry_time mt) as [t'|e| |]; auto. destruct (t <=? t')%Z; [now apply T|exact H2].
  Qed.
  Lemma link_held c x : held n f c -> held n f (fst (fine_on_link sched cfg c x)).
  Proof.
    intros Hc. destruct x as [[nm t] mt]. unfold fine_on_link. destruct (should_extract cfg (push (fx_cur c) nm) false); [|exact Hc].
    unfold fine_link. set (p := abs_path cfg (push (fx_cur c) nm)).
    assert (Hs : forall c, held n f c -> held n f (fst (sys sched (fun g => symlink g t p) c))) by (intros; apply sys_held; [apply symlink_no_file|assumption]).
    pose proof (Hs c Hc) as H1. destruct (sys sched (fun g => symlink g t p) c) as [c1 [e|]]; cbn [fst] in *; [|exact H1].
    assert (R : forall c2, held n f c2 -> held n f (fst match sys sched (fun g => remove_file g p) c2 with
        | (c, None) => (fst (sys sched (fun g => symlink g t p) c), match snd (sys sched (fun g => symlink g t p) c) with None => Ok tt | Some e => Err (EIo e) end)
        | (c, Some e) => (c, Err (EIo e)) end)).
    { intros c2 H2. pose proof (sys_held (fun g => remove_file g p) c2 (remove_no_file p) H2) as H3.
      destruct (sys sched (fun g => remove_file g p) c2) as [c3 [e3|]]; cbn [fst] in *; [exact H3|now apply Hs]. }
    destruct e; try exact H1. destruct (x_policy cfg); try exact H1; [|now apply R].
    pose proof (sys_held (stat_call false p) c1 (same_no_file (fun g => modified g false p)) H1) as H2.
    destruct (sys sched (stat_call false p) c1) as [c2 [t0|e| |]]; cbn [andthen fst] in *; auto.
    destruct (entry_time mt) as [t'|e| |]; auto. destruct (t0 <=? t')%Z; [now apply R|exact H2].
  Qed.
  Lemma extractor_held : preserves (fine_extractor (Some n) a cfg sched) (held n f).
  Proof.
    constructor; cbn [fine_extractor on_start on_stop on_enter on_exit on_file on_link].
    - intros c Hc. now apply dir_held.
    - auto.
    - intros c d Hc. destruct (should_extract cfg (push (fx_cur c) d) true); [|exact Hc].
      apply andthen_kept; [|auto]. now apply dir_held.
    - intros c d Hc. exact Hc.
    - exact file_held.
    - exact link_held.
  Qed.
End Held.

(** ** Fewer files than the limit *)
Definition is_opened (x : act) : bool := match x with Opened _ _ _ => true | _ => false end.
Definition opened (c : fctx) : nat := length (filter is_opened (fx_acts c)).
Definition counted (c : fctx) : Prop := (length (fx_tasks c) <= opened c)%nat.
Definition tame (n : nat) {A} (X Y : fctx -> fctx * A) : Prop := forall c, counted c ->
  counted (fst (X c)) /\ (opened c <= opened (fst (X c)))%nat /\ ((opened (fst (X c)) < n)%nat -> Y c = X c).

Lemma tame_same n {A} (X : fctx -> fctx * A) : (forall c, counted c -> counted (fst (X c)) /\ (opened c <= opened (fst (X c)))%nat) -> tame n X X.
Proof. intros H c Hc. destruct (H c Hc). auto. Qed.
Lemma tame_then n {A C} (X Y : fctx -> fctx * res A) (X2 Y2 : fctx -> A -> fctx * res C) :
  tame n X Y -> (forall v, tame n (fun c => X2 c v) (fun c => Y2 c v)) -> tame n (fun c => andthen (X c) X2) (fun c => andthen (Y c) Y2).
Proof.
  intros H1 H2 c Hc. destruct (H1 c Hc) as (A1 & A2 & A3). destruct (X c) as [c1 [v|e| |]] eqn:EX; cbn [fst] in *.
  2-4: cbn [andthen fst]; split; [exact A1|]; split; [exact A2|]; intros Hn; rewrite (A3 Hn); reflexivity.
  destruct (H2 v c1 A1) as (B1 & B2 & B3). cbn [andthen]. split; [exact B1|]. split; [lia|]. intros Hn. rewrite A3 by lia. cbn [andthen]. now apply B3.
Qed.
Record op_tame {F L D} (n : nat) (op op' : operator fctx F L D) : Prop := {
  ot_start : tame n (on_start op) (on_start op');
  ot_stop : tame n (on_stop op) (on_stop op');
  ot_enter : forall d, tame n (fun c => on_enter op c d) (fun c => on_enter op' c d);
  ot_exit : forall d, tame n (fun c => on_exit op c d) (fun c => on_exit op' c d);
  ot_file : forall x, tame n (fun c => on_file op c x) (fun c => on_file op' c x);
  ot_link : forall x, tame n (fun c => on_link op c x) (fun c => on_link op' c x) }.
Lemma tame_ret n {A} (v : A) : tame n (fun c => (c, v)) (fun c => (c, v)).
Proof. intros c Hc. auto. Qed.
Lemma tame_range {F L D} n (B : builder F L D) a op op' : op_tame n op op' -> forall fuel cur stop,
  tame n (run_range B a op fuel cur stop) (run_range B a op' fuel cur stop).
Proof.
  intros M. induction fuel as [|k IH]; intros cur stop; [apply (tame_ret n Diverge)|].
  cbn [run_range]. destruct (cur =? stop); [apply (tame_ret n (Ok tt))|].
  destruct (create_entry B a cur) as [[x|x|r d]|e| |]; cbn [andthen]; [| | |apply (tame_ret n (Err e))|apply (tame_ret n Panic)|apply (tame_ret n Diverge)].
  - refine (tame_then n _ _ (fun c _ => run_range B a op k (cur + 1) stop c) (fun c _ => run_range B a op' k (cur + 1) stop c) (ot_file _ _ _ M x) _).
    intros v. apply IH.
  - refine (tame_then n _ _ (fun c _ => run_range B a op k (cur + 1) stop c) (fun c _ => run_range B a op' k (cur + 1) stop c) (ot_link _ _ _ M x) _).
    intros v. apply IH.
  - refine (tame_then n _ _
      (fun c (enter : bool) => andthen (if enter then run_range B a op k (fst r) (fst r + snd r) c else (c, Ok tt))
         (fun c _ => andthen (on_exit op c d) (fun c _ => run_range B a op k (cur + 1) stop c)))
      (fun c (enter : bool) => andthen (if enter then run_range B a op' k (fst r) (fst r + snd r) c else (c, Ok tt))
         (fun c _ => andthen (on_exit op' c d) (fun c _ => run_range B a op' k (cur + 1) stop c))) (ot_enter _ _ _ M d) _).
    intros enter.
    refine (tame_then n (fun c => if enter then run_range B a op k (fst r) (fst r + snd r) c else (c, Ok tt))
      (fun c => if enter then run_range B a op' k (fst r) (fst r + snd r) c else (c, Ok tt))
      (fun c _ => andthen (on_exit op c d) (fun c _ => run_range B a op k (cur + 1) stop c))
      (fun c _ => andthen (on_exit op' c d) (fun c _ => run_range B a op' k (cur + 1) stop c)) _ _).
    + destruct enter; [apply IH|apply (tame_ret n (Ok tt))].
    + intros _. refine (tame_then n _ _ (fun c _ => run_range B a op k (cur + 1) stop c) (fun c _ => run_range B a op' k (cur + 1) stop c) (ot_exit _ _ _ M d) _).
      intros v. apply IH.
Qed.
Lemma tame_from_range {F L D} n (B : builder F L D) a op op' : op_tame n op op' -> forall fuel rg,
  tame n (run_from_range B a op fuel rg) (run_from_range B a op' fuel rg).
Proof.
  intros M fuel rg. unfold run_from_range.
  refine (tame_then n _ _ (fun c _ => andthen (run_range B a op fuel (fst rg) (fst rg + snd rg) c) (fun c _ => on_stop op c))
     (fun c _ => andthen (run_range B a op' fuel (fst rg) (fst rg + snd rg) c) (fun c _ => on_stop op' c)) (ot_start _ _ _ M) _).
  intros _. refine (tame_then n _ _ (fun c _ => on_stop op c) (fun c _ => on_stop op' c) (tame_range n B a op op' M _ _ _) _).
  intros _. exact (ot_stop _ _ _ M).
Qed.

Section Tame.
  Definition grows (c c' : fctx) : Prop := counted c -> counted c' /\ (opened c <= opened c')%nat.
  Lemma grows_refl c : grows c c.
  Proof. intros H. auto. Qed.
  Lemma grows_trans c1 c2 c3 : grows c1 c2 -> grows c2 c3 -> grows c1 c3.
  Proof. intros H1 H2 H. destruct (H1 H) as [A1 A2]. destruct (H2 A1) as [B1 B2]. split; [exact B1|lia]. Qed.
  Lemma replace_nth_length {A} (x : A) : forall l k, length (replace_nth k x l) = length l.
  Proof. induction l as [|y l IH]; intros [|k]; cbn [replace_nth length]; auto. Qed.
  Lemma happen_grows e c : grows c (happen c e).
  Proof.
    destruct e as [k o|g]; [|intros H; auto]. cbn [happen]. destruct (nth_error (fx_tasks c) k) as [t|]; [|apply grows_refl].
    destruct (write_turn (fx_fs c) t o) as [[f t'] bad]. unfold grows, counted, opened. cbn [fx_tasks fx_acts].
    rewrite replace_nth_length, filter_app, app_length. lia.
  Qed.
  Lemma happens_grows l : forall c, grows c (fold_left happen l c).
  Proof. induction l as [|e l IH]; intros c; [apply grows_refl|]. cbn [fold_left]. eapply grows_trans; [apply happen_grows|apply IH]. Qed.
  Variables (n : nat) (sched : nat -> list fevent) (a : archive) (cfg : config).
  Lemma gap_grows c : grows c (gap sched c).
  Proof. exact (happens_grows (sched (fx_calls c)) c). Qed.
  Lemma did_grows c f x : grows c (did c f x).
  Proof. unfold grows, counted, opened, did. cbn [fx_tasks fx_acts]. rewrite filter_app, app_length. lia. Qed.
  Lemma sys_grows {A} (call : hostfs -> hostfs * A) c : grows c (fst (sys sched call c)).
  Proof. unfold sys. destruct (call (fx_fs (gap sched c))) as [f r]. eapply grows_trans; [apply gap_grows|apply did_grows]. Qed.
  Lemma dir_rev_grows start : forall l c, grows c (fst (fine_dir_rev sched c start l)).
  Proof.
    induction l as [|x l IH]; intros c; [apply grows_refl|]. cbn [fine_dir_rev]. set (cs := rev (x :: l)).
    pose proof (sys_grows (mkdir_call start cs) c) as H1. destruct (sys sched (mkdir_call start cs) c) as [c1 [e|]]; cbn [fst] in H1; [|exact H1].
    assert (Hstat : forall (e : ioerr) c, grows c (fst (let (c4, d) := sys sched (is_dir_call start cs) c in if d : bool then (c4, None) else (c4, Some e)))).
    { intros e' c'. pose proof (sys_grows (is_dir_call start cs) c') as H2. destruct (sys sched (is_dir_call start cs) c') as [c2 d]. now destruct d. }
    destruct e; try (eapply grows_trans; [exact H1|apply Hstat]).
    eapply grows_trans; [exact H1|]. specialize (IH c1). destruct (fine_dir_rev sched c1 start l) as [c2 [e2|]]; cbn [fst] in IH; [exact IH|].
    eapply grows_trans; [exact IH|]. pose proof (sys_grows (mkdir_call start cs) c2) as H3. destruct (sys sched (mkdir_call start cs) c2) as [c3 [e3|]]; cbn [fst] in H3; [|exact H3].
    eapply grows_trans; [exact H3|apply Hstat].
  Qed.
  Lemma dir_grows p c : grows c (fst (fine_dir sched p c)).
  Proof. unfold fine_dir. pose proof (dir_rev_grows (fst p) (rev (snd p)) c) as H. now destruct (fine_dir_rev sched c (fst p) (rev (snd p))). Qed.

  (** An open adds one to the count when it succeeds. *)
  Lemma open_grows call c : counted c -> let x := sys_open None sched call c in
    counted (fst x) /\ (opened c <= opened (fst x))%nat /\ (forall i, snd x = inl i -> (S (length (fx_tasks (fst x))) <= opened (fst x))%nat) /\
    ((opened (fst x) < n)%nat -> sys_open (Some n) sched call c = x).
  Proof.
    intros Hc. cbv zeta. unfold sys_open. pose proof (gap_grows c Hc) as [G1 G2]. set (c1 := gap sched c) in *; clearbody c1.
    assert (Hu : (length (filter (fun t => negb (t_done t)) (fx_tasks c1)) <= length (fx_tasks c1))%nat).
    { generalize (fx_tasks c1). intros l. induction l as [|t l IH]; cbn [filter length]; [lia|]. destruct (negb (t_done t)); cbn [length]; lia. }
    destruct (call (fx_fs c1)) as [g [i|e]]; cbn [fst snd]; unfold counted, opened, did in *; cbn [fx_tasks fx_acts] in *; rewrite filter_app, app_length; cbn [filter is_opened length].
    - split; [lia|]. split; [lia|]. split; [intros; lia|]. intros Hn. destruct (Nat.leb_spec n (length (filter (fun t => negb (t_done t)) (fx_tasks c1)))) as [H|H]; [lia|reflexivity].
    - split; [lia|]. split; [lia|]. split; [intros i HH; discriminate HH|]. intros Hn. destruct (Nat.leb_spec n (length (filter (fun t => negb (t_done t)) (fx_tasks c1)))) as [H|H]; [lia|reflexivity].
  Qed.
  Lemma file_tame x : tame n (fun c => fine_on_file None sched a cfg c x) (fun c => fine_on_file (Some n) sched a cfg c x).
  Proof.
    destruct x as [[nm ad] mt]. intros c Hc. unfold fine_on_file. destruct (should_extract cfg (push (fx_cur c) nm) false); [|auto].
    destruct (a_fetch a ad) as [data| | |]; auto.
    set (k := fun (c : fctx) (o : option N) => match o with
          | Some i => (mkFctx (fx_cur c) (fx_fs c) (fx_tasks c ++ [mkTask i data 0 false]) (fx_failed c) (fx_calls c) (fx_acts c), Ok tt)
          | None => (c, Ok tt)
          end). unfold fine_target. set (p := abs_path cfg (push (fx_cur c) nm)).
    assert (K : forall c i, (S (length (fx_tasks c)) <= opened c)%nat -> counted (fst (k c (Some i))) /\ opened (fst (k c (Some i))) = opened c).
    { intros c0 i Hk. unfold k, counted, opened in *. cbn [fst fx_tasks fx_acts]. rewrite app_length. cbn [length]. split; [lia|reflexivity]. }
    pose proof (open_grows (fun f => open_new f p) c Hc) as (A1 & A2 & A3 & A4). cbv zeta in *.
    destruct (sys_open None sched (fun f => open_new f p) c) as [c1 [i|e]]; cbn [fst snd] in *.
    { cbn [andthen]. specialize (A3 i eq_refl). destruct (K c1 i A3) as [K1 K2]. split; [exact K1|]. split; [lia|]. intros Hn. rewrite A4 by lia. reflexivity. }
    assert (T : forall c2, counted c2 -> let X := fun lim => andthen match sys_open lim sched (fun f => open_trunc f p) c2 with
        | (c, inl i) => (c, Ok (Some i)) | (c, Datatypes.inr e) => (c, Err (EIo e)) end k in
        counted (fst (X None)) /\ (opened c2 <= opened (fst (X None)))%nat /\ ((opened (fst (X None)) < n)%nat -> X (Some n) = X None)).
    { intros c2 H2. cbv zeta. pose proof (open_grows (fun f => open_trunc f p) c2 H2) as (B1 & B2 & B3 & B4). cbv zeta in *.
      destruct (sys_open None sched (fun f => open_trunc f p) c2) as [c3 [i|e2]]; cbn [fst snd andthen] in *.
      - specialize (B3 i eq_refl). destruct (K c3 i B3) as [K1 K2]. split; [exact K1|]. split; [lia|]. intros Hn. rewrite B4 by lia. reflexivity.
      - split; [exact B1|]. split; [exact B2|]. intros Hn. rewrite B4 by lia. reflexivity. }
    destruct e; try (cbn [andthen fst]; split; [exact A1|]; split; [exact A2|]; intros Hn; rewrite A4 by exact Hn; reflexivity).
    destruct (x_policy cfg); try (cbn [andthen fst k]; split; [exact A1|]; split; [exact A2|]; intros Hn; rewrite A4 by exact Hn; reflexivity).
    - destruct (sys_grows (stat_call true p) c1 A1) as [S1 S2]. destruct (sys sched (stat_call true p) c1) as [c2 [t|e| |]] eqn:Est; cbn [fst] in S1, S2.
      2-4: cbn [andthen fst]; split; [exact S1|]; split; [lia|]; intros Hn; rewrite A4 by lia; rewrite Est; reflexivity.
      change (andthen (c2, Ok t) ?q) with (q c2 t). cbv beta. destruct (entry_time mt) as [t'|e| |] eqn:Ee.
      2-4: cbn [andthen fst]; split; [exact S1|]; split; [lia|]; intros Hn; rewrite A4 by lia; rewrite Est; reflexivity.
      destruct (t <=? t')%Z eqn:Et.
      + destruct (T c2 S1) as (T1 & T2 & T3). cbv zeta in T1, T2, T3. split; [exact T1|]. split; [lia|]. intros Hn. rewrite A4 by lia. rewrite Est. cbn [andthen]. rewrite Et. exact (T3 Hn).
      + cbn [andthen fst k]; split; [exact S1|]; split; [lia|]; intros Hn; rewrite A4 by lia; rewrite Est; cbn [andthen]; rewrite Et; reflexivity.
    - destruct (T c1 A1) as (T1 & T2 & T3). cbv zeta in T1, T2, T3. split; [exact T1|]. split; [lia|]. intros Hn. rewrite A4 by lia. exact (T3 Hn).
  Qed.
  Lemma link_grows c x : grows c (fst (fine_on_link sched cfg c x)).
  Proof.
    destruct x as [[nm t] mt]. unfold fine_on_link. destruct (should_extract cfg (push (fx_cur c) nm) false); [|apply grows_refl].
    unfold fine_link. set (p := abs_path cfg (push (fx_cur c) nm)).
    pose proof (sys_grows (fun g => symlink g t p) c) as H1. destruct (sys sched (fun g => symlink g t p) c) as [c1 [e|]]; cbn [fst] in *; [|exact H1].
    assert (R : forall c2, grows c2 (fst match sys sched (fun g => remove_file g p) c2 with
        | (c, None) => (fst (sys sched (fun g => symlink g t p) c), match snd (sys sched (fun g => symlink g t p) c) with None => Ok tt | Some e => Err (EIo e) end)
        | (c, Some e) => (c, Err (EIo e)) end)).
    { intros c2. pose proof (sys_grows (fun g => remove_file g p) c2) as H3.
      destruct (sys sched (fun g => remove_file g p) c2) as [c3 [e3|]]; cbn [fst] in *; [exact H3|]. eapply grows_trans; [exact H3|apply sys_grows]. }
    destruct e; try exact H1. destruct (x_policy cfg); try exact H1; [|eapply grows_trans; [exact H1|apply R]].
    eapply grows_trans; [exact H1|]. pose proof (sys_grows (stat_call false p) c1) as H2.
    destruct (sys sched (stat_call false p) c1) as [c2 [t0|e| |]]; cbn [andthen fst] in *; auto.
    destruct (entry_time mt) as [t'|e| |]; auto. destruct (t0 <=? t')%Z; [eapply grows_trans; [exact H2|apply R]|exact H2].
  Qed.
  Lemma extractor_tame : op_tame n (fine_extractor None a cfg sched) (fine_extractor (Some n) a cfg sched).
  Proof.
    constructor; cbn [fine_extractor on_start on_stop on_enter on_exit on_file on_link].
    - apply tame_same. intros c. apply dir_grows.
    - apply tame_ret.
    - intros d. apply tame_same. intros c Hc. destruct (should_extract cfg (push (fx_cur c) d) true); [|auto].
      pose proof (dir_grows (abs_path cfg (push (fx_cur c) d)) (at_path c (push (fx_cur c) d)) Hc) as H.
      destruct (fine_dir sched (abs_path cfg (push (fx_cur c) d)) (at_path c (push (fx_cur c) d))) as [c1 [v|e| |]]; exact H.
    - intros d. apply tame_same. auto.
    - exact file_tame.
    - intros x. apply tame_same. intros c. apply link_grows.
  Qed.
End Tame.
Lemma fine_enough n a rg cfg sched last f c r : fine_extract None a rg cfg sched last f = (c, r) -> (opened c < n)%nat ->
  fine_extract (Some n) a rg cfg sched last f = (c, r).
Proof.
  unfold fine_extract. intros H Hn.
  destruct (tame_from_range n x_builder a _ _ (extractor_tame n sched a cfg) (walk_fuel a) rg (fine_start f)) as (T1 & T2 & T3); [apply le_n|].
  destruct (run_from_range x_builder a (fine_extractor None a cfg sched) (walk_fuel a) rg (fine_start f)) as [c1 r1]. cbn [fst] in *.
  rewrite T3; [exact H|]. injection H as <- _. destruct (happens_grows last c1 T1) as [_ G]. lia.
Qed.
