(** Writers between system calls do no more than writers between callbacks. *)
From Verif Require Export FineFacts.

Definition view (t : nat) (c : fctx) : ctx := mkCtx (fx_cur c) (fx_fs c) (fx_tasks c) (fx_failed c) t.
Fixpoint strip (l : list fevent) : turns :=
  match l with
  | [] => []
  | Turn k o :: r => (k, o) :: strip r
  | Env _ :: r => strip r
  end.
Definition alone (l : list fevent) : Prop := forall g, ~ In (Env g) l.

Lemma happen_view t l : alone l -> forall c, view t (fold_left happen l c) = run_turns (strip l) (view t c).
Proof.
  induction l as [|e l IH]; intros Hl c; [reflexivity|]. assert (Hl' : alone l) by (intros g Hg; apply (Hl g); now right).
  destruct e as [k o|g]; [|destruct (Hl g); now left]. cbn [fold_left strip run_turns]. rewrite IH by exact Hl'. unfold run_turns. f_equal.
  unfold one_turn. cbn [view fst snd x_tasks x_fs x_cur x_failed x_tick happen]. destruct (nth_error (fx_tasks c) k) as [tk|]; [|reflexivity].
  destruct (write_turn (fx_fs c) tk o) as [[f t'] bad]. reflexivity.
Qed.
Lemma happen_cur l : forall c, fx_cur (fold_left happen l c) = fx_cur c.
Proof.
  induction l as [|e l IH]; intros c; [reflexivity|]. cbn [fold_left]. rewrite IH. destruct e as [k o|g]; [|reflexivity]. cbn [happen].
  destruct (nth_error (fx_tasks c) k) as [tk|]; [|reflexivity]. now destruct (write_turn (fx_fs c) tk o) as [[f t'] bad].
Qed.

(** ** Calls that do not see contents *)
Definition blind {A} (P : hostfs -> hostfs * A) (f : hostfs) : Prop :=
  forall d, P (with_data f d) = (with_data (fst (P f)) d, snd (P f)).
Lemma with_data_id f : with_data f (h_data f) = f.
Proof. now destruct f. Qed.
Lemma blind_data {A} (P : hostfs -> hostfs * A) f : blind P f -> h_data (fst (P f)) = h_data f.
Proof. intros H. specialize (H (h_data f)). rewrite with_data_id in H. rewrite H at 1. reflexivity. Qed.
Lemma blind_with {A} (P : hostfs -> hostfs * A) f d : blind P f -> blind P (with_data f d).
Proof. intros H d'. change (with_data (with_data f d) d') with (with_data f d'). rewrite (H d), (H d'). reflexivity. Qed.

Lemma one_turn_blind {A} (P : hostfs -> hostfs * A) c x : blind P (x_fs c) ->
  one_turn (with_fs c (fst (P (x_fs c)))) x = with_fs (one_turn c x) (fst (P (x_fs (one_turn c x)))) /\
  snd (P (x_fs (one_turn c x))) = snd (P (x_fs c)) /\ blind P (x_fs (one_turn c x)).
Proof.
  intros H. unfold one_turn. cbn [with_fs x_tasks x_fs x_cur x_failed x_tick]. destruct (nth_error (x_tasks c) (fst x)) as [t|]; [|auto].
  unfold write_turn. destruct (t_done t); [cbn [with_fs x_tasks x_fs x_cur x_failed x_tick]; auto|].
  destruct (snd x) as [k|]; cbn [with_fs x_tasks x_fs x_cur x_failed x_tick]; [|auto]. rewrite (blind_data P _ H).
  match goal with |- context [set_data (x_fs c) (t_ino t) ?v] => set (v0 := v) end.
  change (set_data (x_fs c) (t_ino t) v0) with (with_data (x_fs c) (fun j => if j =? t_ino t then v0 else h_data (x_fs c) j)).
  split; [|split].
  - rewrite H. cbn [fst]. f_equal. unfold set_data, with_data. f_equal. now rewrite (blind_data P _ H).
  - rewrite H. reflexivity.
  - now apply blind_with.
Qed.
Lemma run_turns_blind {A} (P : hostfs -> hostfs * A) l : forall c, blind P (x_fs c) ->
  run_turns l (with_fs c (fst (P (x_fs c)))) = with_fs (run_turns l c) (fst (P (x_fs (run_turns l c)))) /\
  snd (P (x_fs (run_turns l c))) = snd (P (x_fs c)) /\ blind P (x_fs (run_turns l c)).
Proof.
  induction l as [|x l IH]; intros c H; [auto|]. unfold run_turns in *. cbn [fold_left]. destruct (one_turn_blind P c x H) as (E1 & E2 & E3).
  rewrite E1, <- E2. now apply IH.
Qed.
Lemma run_turns_tick l : forall c t, run_turns l (mkCtx (x_cur c) (x_fs c) (x_tasks c) (x_failed c) t) =
  mkCtx (x_cur (run_turns l c)) (x_fs (run_turns l c)) (x_tasks (run_turns l c)) (x_failed (run_turns l c)) t.
Proof.
  induction l as [|x l IH]; intros c t; [reflexivity|]. unfold run_turns in *. cbn [fold_left]. rewrite <- IH. f_equal.
  unfold one_turn. cbn [x_tasks x_fs x_cur x_failed x_tick]. destruct (nth_error (x_tasks c) (fst x)) as [tk|]; [|reflexivity].
  destruct (write_turn (x_fs c) tk (snd x)) as [[f t'] bad]. reflexivity.
Qed.

Section Sim.
  Variables (sched : nat -> list fevent) (Q : nat * option nat -> Prop).
  Hypothesis Halone : forall n, alone (sched n).
  Hypothesis HQ : forall n k o, In (Turn k o) (sched n) -> Q (k, o).

  Lemma strip_Q l : (forall k o, In (Turn k o) l -> Q (k, o)) -> Forall Q (strip l).
  Proof.
    induction l as [|[k o|g] l IH]; intros H; cbn [strip]; [constructor| |].
    - constructor; [apply H; now left|]. apply IH. intros k' o' Hi. apply H. now right.
    - apply IH. intros k' o' Hi. apply H. now right.
  Qed.

  (** [B] does what [P] does once some turns are taken. *)
  Definition does {A} (B : fctx -> fctx * A) (P : hostfs -> hostfs * A) : Prop := forall c t, exists T, Forall Q T /\
    let v := run_turns T (view t c) in
    view t (fst (B c)) = with_fs v (fst (P (x_fs v))) /\ snd (B c) = snd (P (x_fs v)).

  Lemma does_ext {A} (B B' : fctx -> fctx * A) (P P' : hostfs -> hostfs * A) :
    (forall c, B c = B' c) -> (forall f, P f = P' f) -> does B P -> does B' P'.
  Proof. intros HB HP H c t. destruct (H c t) as (T & HT & E). exists T. cbv zeta in *. rewrite <- HB, <- HP. auto. Qed.
  Lemma does_ret {A} (v : A) : does (fun c => (c, v)) (fun f => (f, v)).
  Proof. intros c t. exists []. split; [constructor|]. split; reflexivity. Qed.
  Lemma gap_view t c : view t (gap sched c) = run_turns (strip (sched (fx_calls c))) (view t c).
  Proof. rewrite <- happen_view by apply Halone. reflexivity. Qed.
  Lemma does_sys {A} (call : hostfs -> hostfs * A) : does (sys sched call) call.
  Proof.
    intros c t. exists (strip (sched (fx_calls c))). split; [apply strip_Q; apply HQ|]. rewrite <- gap_view. cbv zeta. unfold sys.
    change (x_fs (view t (gap sched c))) with (fx_fs (gap sched c)). destruct (call (fx_fs (gap sched c))) as [f r]. split; reflexivity.
  Qed.
  Lemma does_open (call : hostfs -> hostfs * (N + ioerr)) : does (sys_open None sched call) call.
  Proof.
    intros c t. exists (strip (sched (fx_calls c))). split; [apply strip_Q; apply HQ|]. rewrite <- gap_view. cbv zeta. unfold sys_open.
    change (x_fs (view t (gap sched c))) with (fx_fs (gap sched c)). destruct (call (fx_fs (gap sched c))) as [f [i|e]]; split; reflexivity.
  Qed.
  (** In sequence. *)
  Lemma does_bind {A C} (B1 : fctx -> fctx * A) P1 (B2 : A -> fctx -> fctx * C) P2 :
    does B1 P1 ->
    (forall f, blind P1 f \/ exists v, (forall c, B2 (snd (P1 f)) c = (c, v)) /\ forall g, P2 (snd (P1 f)) g = (g, v)) ->
    (forall x, does (B2 x) (P2 x)) ->
    does (fun c => let (c1, x) := B1 c in B2 x c1) (fun f => let (f1, x) := P1 f in P2 x f1).
  Proof.
    intros H1 Hb H2 c t. destruct (H1 c t) as (T1 & HT1 & E1 & E2). cbv zeta in E1, E2. set (v1 := run_turns T1 (view t c)) in *.
    destruct (B1 c) as [c1 x] eqn:EB. cbn [fst snd] in E1, E2. destruct (Hb (x_fs v1)) as [Hbl|(v & Hv1 & Hv2)].
    - destruct (H2 x c1 t) as (T2 & HT2 & E3 & E4). exists (T1 ++ T2). split; [now apply Forall_app|]. cbv zeta in *.
      unfold run_turns. rewrite fold_left_app. change (fold_left one_turn T1 (view t c)) with v1. change (fold_left one_turn T2 v1) with (run_turns T2 v1).
      rewrite E1 in E3, E4. destruct (run_turns_blind P1 T2 v1 Hbl) as (F1 & F2 & F3). rewrite F1 in E3, E4.
      destruct (P1 (x_fs (run_turns T2 v1))) as [f1 x1] eqn:EP. cbn [fst snd] in *. subst x1. rewrite <- E2. split; [exact E3|exact E4].
    - exists T1. split; [exact HT1|]. cbv zeta. fold v1. destruct (P1 (x_fs v1)) as [f1 x1] eqn:EP. cbn [fst snd] in *. subst x1.
      rewrite Hv1, Hv2. cbn [fst snd]. auto.
  Qed.
  Lemma does_bind_blind {A C} (B1 : fctx -> fctx * A) P1 (B2 : A -> fctx -> fctx * C) P2 :
    does B1 P1 -> (forall f, blind P1 f) -> (forall x, does (B2 x) (P2 x)) ->
    does (fun c => let (c1, x) := B1 c in B2 x c1) (fun f => let (f1, x) := P1 f in P2 x f1).
  Proof. intros. now apply does_bind; auto. Qed.

  (** *** The callbacks *)
  Lemma does_dir_rev start : forall l, does (fun c => fine_dir_rev sched c start l) (fun f => create_dir_all_rev f start l).
  Proof.
    induction l as [|x l IH]; [apply does_ret|]. cbn [fine_dir_rev create_dir_all_rev]. set (cs := rev (x :: l)).
    assert (Hmk : does (sys sched (mkdir_call start cs)) (mkdir_call start cs)) by apply does_sys.
    assert (Hmb : forall f, blind (mkdir_call start cs) f) by (intros f d; apply mkdir_data).
    assert (His : forall e : ioerr, does (A:=option ioerr) (fun c => let (c4, d) := sys sched (is_dir_call start cs) c in if d : bool then (c4, None) else (c4, Some e))
              (fun f => if is_dir_path f (start, cs) then (f, None) else (f, Some e))).
    { intros e. eapply does_ext; [reflexivity| |apply (does_bind_blind (sys sched (is_dir_call start cs)) (is_dir_call start cs)
        (fun (d : bool) c => if d then (c, None) else (c, Some e)) (fun (d : bool) f => if d then (f, None) else (f, Some e)))].
      - reflexivity.
      - apply does_sys.
      - intros f d. unfold is_dir_call. now rewrite is_dir_data.
      - intros []; apply does_ret. }
    assert (Hmk2 : does (A:=option ioerr) (fun c => match sys sched (mkdir_call start cs) c with
                        | (c3, None) => (c3, None)
                        | (c3, Some e) => let (c4, d) := sys sched (is_dir_call start cs) c3 in if d : bool then (c4, None) else (c4, Some e)
                        end)
                    (fun f => match mkdir f (start, cs) with
                        | (f3, None) => (f3, None)
                        | (f3, Some e) => if is_dir_path f3 (start, cs) then (f3, None) else (f3, Some e)
                        end)).
    { eapply does_ext; [| |apply (does_bind_blind (sys sched (mkdir_call start cs)) (mkdir_call start cs)
        (fun o c => match o with None => (c, None) | Some e => let (c4, d) := sys sched (is_dir_call start cs) c in if d : bool then (c4, None) else (c4, Some e) end)
        (fun o f => match o with None => (f, None) | Some e => if is_dir_path f (start, cs) then (f, None) else (f, Some e) end)); auto].
      - intros c. cbv beta. destruct (sys sched (mkdir_call start cs) c) as [c1 [e|]]; reflexivity.
      - intros f. cbv beta. unfold mkdir_call. destruct (mkdir f (start, cs)) as [f1 [e|]]; reflexivity.
      - intros [e|]; [apply His|apply does_ret]. }
    assert (Hpar : does (A:=option ioerr) (fun c => match fine_dir_rev sched c start l with
          | (c2, None) => match sys sched (mkdir_call start cs) c2 with
                        | (c3, None) => (c3, None)
                        | (c3, Some e) => let (c4, d) := sys sched (is_dir_call start cs) c3 in if d : bool then (c4, None) else (c4, Some e)
                        end
          | (c2, Some e) => (c2, Some e)
          end)
          (fun f => match create_dir_all_rev f start l with
          | (f2, None) => match mkdir f2 (start, cs) with
                        | (f3, None) => (f3, None)
                        | (f3, Some e) => if is_dir_path f3 (start, cs) then (f3, None) else (f3, Some e)
                        end
          | (f2, Some e) => (f2, Some e)
          end)).
    { eapply does_ext; [| |refine (does_bind_blind _ _
        (fun o c => match o with Some e => (c, Some e) | None => match sys sched (mkdir_call start cs) c with
                        | (c3, None) => (c3, None)
                        | (c3, Some e) => let (c4, d) := sys sched (is_dir_call start cs) c3 in if d : bool then (c4, None) else (c4, Some e)
                        end end)
        (fun o f => match o with Some e => (f, Some e) | None => match mkdir f (start, cs) with
                        | (f3, None) => (f3, None)
                        | (f3, Some e) => if is_dir_path f3 (start, cs) then (f3, None) else (f3, Some e)
                        end end) IH _ _)].
      - intros c. cbv beta. destruct (fine_dir_rev sched c start l) as [c1 [e|]]; reflexivity.
      - intros f. cbv beta. destruct (create_dir_all_rev f start l) as [f1 [e|]]; reflexivity.
      - intros f d. apply create_dir_all_rev_data.
      - intros [e|]; [apply does_ret|exact Hmk2]. }
    eapply does_ext; [| |refine (does_bind_blind _ _
        (fun o c => match o with
           | None => (c, None)
           | Some IoNotFound => match fine_dir_rev sched c start l with
              | (c2, None) => match sys sched (mkdir_call start cs) c2 with
                            | (c3, None) => (c3, None)
                            | (c3, Some e) => let (c4, d) := sys sched (is_dir_call start cs) c3 in if d : bool then (c4, None) else (c4, Some e)
                            end
              | (c2, Some e) => (c2, Some e)
              end
           | Some e => let (c4, d) := sys sched (is_dir_call start cs) c in if d : bool then (c4, None) else (c4, Some e)
           end)
        (fun o f => match o with
           | None => (f, None)
           | Some IoNotFound => match create_dir_all_rev f start l with
              | (f2, None) => match mkdir f2 (start, cs) with
                            | (f3, None) => (f3, None)
                            | (f3, Some e) => if is_dir_path f3 (start, cs) then (f3, None) else (f3, Some e)
                            end
              | (f2, Some e) => (f2, Some e)
              end
           | Some e => if is_dir_path f (start, cs) then (f, None) else (f, Some e)
           end) Hmk Hmb _)].
    - intros c. cbv beta. destruct (sys sched (mkdir_call start cs) c) as [c1 [[]|]]; reflexivity.
    - intros f. cbv beta. unfold mkdir_call. destruct (mkdir f (start, cs)) as [f1 [[]|]]; reflexivity.
    - intros [[]|]; try exact Hpar; try apply His; apply does_ret.
  Qed.
  Lemma does_dir p : does (fine_dir sched p) (fun f => let (g, e) := create_dir_all f p in (g, match e with None => Ok tt | Some e => Err (EIo e) end)).
  Proof.
    eapply does_ext; [| |apply (does_bind_blind _ _ (fun e c => (c, match e with None => Ok tt | Some e => Err (EIo e) end))
       (fun e f => (f, match e with None => Ok tt | Some e => Err (EIo e) end)) (does_dir_rev (fst p) (rev (snd p))))].
    - reflexivity.
    - reflexivity.
    - intros f d. apply create_dir_all_rev_data.
    - intros e. apply does_ret.
  Qed.

  Lemma open_new_same f p e : snd (open_new f p) = Datatypes.inr e -> fst (open_new f p) = f.
  Proof. unfold open_new. destruct (look f false p) as [q n|q|e']; [reflexivity|intros HH; discriminate HH|reflexivity]. Qed.
  Lemma open_new_blind f p : blind (fun f => open_new f p) f \/ exists i, snd (open_new f p) = inl i.
  Proof.
    destruct (open_new f p) as [g [i|e]] eqn:E; [right; exists i; reflexivity|]. left. intros d. cbv beta. rewrite open_new_data, E. reflexivity.
  Qed.
  Lemma does_trunc p : does (fun c => match sys_open None sched (fun f => open_trunc f p) c with
                 | (c, inl i) => (c, Ok (Some i))
                 | (c, Datatypes.inr e) => (c, Err (EIo e))
                 end) (fun f => match open_trunc f p with
                 | (f', inl i) => (f', Ok (Some i))
                 | (f', Datatypes.inr e) => (f', Err (EIo e))
                 end).
  Proof.
    eapply does_ext; [| |apply (does_bind (A:=N + ioerr) (C:=res (option N)) _ _
       (fun x c => (c, match x with inl i => Ok (Some i) | Datatypes.inr e => Err (EIo e) end))
       (fun x f => (f, match x with inl i => Ok (Some i) | Datatypes.inr e => Err (EIo e) end)) (does_open (fun f => open_trunc f p)))].
    - intros c. cbv beta. destruct (sys_open None sched (fun f => open_trunc f p) c) as [c1 [i|e]]; reflexivity.
    - intros f. cbv beta. destruct (open_trunc f p) as [f1 [i|e]]; reflexivity.
    - intros f. right. eexists. split; intros; reflexivity.
    - intros x. apply does_ret.
  Qed.
  Lemma does_stat fol p : does (sys sched (stat_call fol p)) (stat_call fol p).
  Proof. apply does_sys. Qed.
  Lemma stat_blind fol p f : blind (stat_call fol p) f.
  Proof. intros d. unfold stat_call. now rewrite modified_data. Qed.

  Lemma does_target cfg cur mt : does (fine_target None sched cfg cur mt) (open_target cfg cur mt).
  Proof.
    set (p := abs_path cfg cur).
    pose (tr := fun c => match sys_open None sched (fun f => open_trunc f p) c with
                 | (c, inl i) => (c, Ok (Some i))
                 | (c, Datatypes.inr e) => (c, Err (EIo e))
                 end).
    pose (tp := fun f => match open_trunc f p with
                 | (f', inl i) => (f', Ok (Some i))
                 | (f', Datatypes.inr e) => (f', Err (EIo e))
                 end).
    assert (Htr : does tr tp) by apply does_trunc.
    pose (nb := fun (t : res Z) (c : fctx) => match t with
            | Ok t => match entry_time mt with
                    | Ok t' => if (t <=? t')%Z then tr c else (c, Ok None)
                    | _ => (c, Panic)
                    end
            | Err e => (c, Err e) | Panic => (c, Panic) | Diverge => (c, Diverge) end).
    pose (np := fun (t : res Z) (f : hostfs) => match t with
            | Ok t => match entry_time mt with
                    | Ok t' => if (t <=? t')%Z then tp f else (f, Ok None)
                    | _ => (f, Panic)
                    end
            | Err e => (f, Err e) | Panic => (f, Panic) | Diverge => (f, Diverge) end).
    assert (Hn : forall t, does (nb t) (np t)).
    { intros [t|e| |]; try apply does_ret. unfold nb, np. destruct (entry_time mt) as [t'|e| |]; try apply does_ret.
      destruct (t <=? t')%Z; [exact Htr|apply does_ret]. }
    assert (Hnew : does (fun c => let (c1, t) := sys sched (stat_call true p) c in nb t c1) (fun f => let (f1, t) := stat_call true p f in np t f1)).
    { apply does_bind_blind; [apply does_stat|intros f; apply stat_blind|exact Hn]. }
    eapply does_ext; [| |refine (does_bind _ _
      (fun x c => match x with
         | inl i => (c, Ok (Some i))
         | Datatypes.inr IoExists => match x_policy cfg with
             | Skip | Warn => (c, Ok None)
             | Newer => let (c1, t) := sys sched (stat_call true p) c in nb t c1
             | Overwrite => tr c
             | Error => (c, Err (EFileExists cur))
             end
         | Datatypes.inr e => (c, Err (EIo e))
         end)
      (fun x f => match x with
         | inl i => (f, Ok (Some i))
         | Datatypes.inr IoExists => match x_policy cfg with
             | Skip | Warn => (f, Ok None)
             | Newer => let (f1, t) := stat_call true p f in np t f1
             | Overwrite => tp f
             | Error => (f, Err (EFileExists cur))
             end
         | Datatypes.inr e => (f, Err (EIo e))
         end) (does_open (fun f => open_new f p)) _ _)].
    - intros c. cbv beta. unfold fine_target. fold p. destruct (sys_open None sched (fun f => open_new f p) c) as [c1 [i|e]]; [reflexivity|].
      destruct e; reflexivity.
    - intros f. cbv beta. unfold open_target. fold p. pose proof (open_new_same f p) as Hs. destruct (open_new f p) as [f1 [i|e]]; [reflexivity|].
      cbn [fst snd] in Hs. specialize (Hs e eq_refl). subst f1. destruct e; reflexivity.
    - intros f. destruct (open_new_blind f p) as [H|[i Hi]]; [now left|]. right. exists (Ok (Some i)). cbv beta. rewrite Hi. auto.
    - intros [i|e]; [apply does_ret|]. destruct e; try apply does_ret. destruct (x_policy cfg); try apply does_ret; assumption.
  Qed.

  Lemma does_link cfg cur t mt : does (fine_link sched cfg cur t mt) (make_link cfg cur t mt).
  Proof.
    set (p := abs_path cfg cur).
    pose (ans := fun o : option ioerr => match o with None => Ok tt | Some e => Err (EIo e) end).
    assert (Hsy : does (sys sched (fun f => symlink f t p)) (fun f => symlink f t p)) by apply does_sys.
    assert (Hsb : forall f, blind (fun f => symlink f t p) f) by (intros f d; apply symlink_data).
    pose (rb := fun c => match sys sched (fun f => remove_file f p) c with
                | (c, None) => let (c1, o) := sys sched (fun f => symlink f t p) c in (c1, ans o)
                | (c, Some e) => (c, Err (EIo e))
                end).
    pose (rp := fun f => match remove_file f p with
                | (f, None) => let (f1, o) := symlink f t p in (f1, ans o)
                | (f, Some e) => (f, Err (EIo e))
                end).
    assert (Hr : does rb rp).
    { eapply does_ext; [| |refine (does_bind_blind _ _
        (fun o c => match o with None => let (c1, o) := sys sched (fun f => symlink f t p) c in (c1, ans o) | Some e => (c, Err (EIo e)) end)
        (fun o f => match o with None => let (f1, o) := symlink f t p in (f1, ans o) | Some e => (f, Err (EIo e)) end)
        (does_sys (fun f => remove_file f p)) _ _)].
      - intros c. unfold rb. destruct (sys sched (fun f => remove_file f p) c) as [c1 [e|]]; reflexivity.
      - intros f. unfold rp. destruct (remove_file f p) as [f1 [e|]]; reflexivity.
      - intros f d. apply remove_file_data.
      - intros [e|]; [apply does_ret|]. apply does_bind_blind; [exact Hsy|exact Hsb|]. intros x. apply does_ret. }
    pose (nb := fun (t : res Z) (c : fctx) => match t with
            | Ok t => match entry_time mt with
                    | Ok t' => if (t <=? t')%Z then rb c else (c, Ok tt)
                    | _ => (c, Panic)
                    end
            | Err e => (c, Err e) | Panic => (c, Panic) | Diverge => (c, Diverge) end).
    pose (np := fun (t : res Z) (f : hostfs) => match t with
            | Ok t => match entry_time mt with
                    | Ok t' => if (t <=? t')%Z then rp f else (f, Ok tt)
                    | _ => (f, Panic)
                    end
            | Err e => (f, Err e) | Panic => (f, Panic) | Diverge => (f, Diverge) end).
    assert (Hn : forall t, does (nb t) (np t)).
    { intros [t0|e| |]; try apply does_ret. unfold nb, np. destruct (entry_time mt) as [t'|e| |]; try apply does_ret.
      destruct (t0 <=? t')%Z; [exact Hr|apply does_ret]. }
    assert (Hnew : does (fun c => let (c1, t) := sys sched (stat_call false p) c in nb t c1) (fun f => let (f1, t) := stat_call false p f in np t f1)).
    { apply does_bind_blind; [apply does_stat|intros f; apply stat_blind|exact Hn]. }
    eapply does_ext; [| |refine (does_bind_blind _ _
      (fun o c => match o with
         | None => (c, Ok tt)
         | Some IoExists => match x_policy cfg with
             | Skip | Warn => (c, Ok tt)
             | Newer => let (c1, t) := sys sched (stat_call false p) c in nb t c1
             | Overwrite => rb c
             | Error => (c, Err (ELinkExists cur))
             end
         | Some e => (c, Err (EIo e))
         end)
      (fun o f => match o with
         | None => (f, Ok tt)
         | Some IoExists => match x_policy cfg with
             | Skip | Warn => (f, Ok tt)
             | Newer => let (f1, t) := stat_call false p f in np t f1
             | Overwrite => rp f
             | Error => (f, Err (ELinkExists cur))
             end
         | Some e => (f, Err (EIo e))
         end) Hsy Hsb _)].
    - intros c. cbv beta. unfold fine_link. fold p. destruct (sys sched (fun f => symlink f t p) c) as [c1 [e|]]; [|reflexivity].
      assert (R : forall c2, match sys sched (fun f => remove_file f p) c2 with
                | (c, None) => (fst (sys sched (fun f => symlink f t p) c), match snd (sys sched (fun f => symlink f t p) c) with None => Ok tt | Some e => Err (EIo e) end)
                | (c, Some e) => (c, Err (EIo e))
                end = rb c2).
      { intros c2. unfold rb. destruct (sys sched (fun f => remove_file f p) c2) as [c3 [e3|]]; [reflexivity|].
        now destruct (sys sched (fun f => symlink f t p) c3). }
      destruct e; try reflexivity. destruct (x_policy cfg); try reflexivity.
      + destruct (sys sched (stat_call false p) c1) as [c2 [t0|e| |]]; try reflexivity. cbn [andthen nb].
        destruct (entry_time mt) as [t'|e| |]; try reflexivity. destruct (t0 <=? t')%Z; [|reflexivity]. symmetry. apply R.
      + symmetry. apply R.
    - intros f. cbv beta. unfold make_link. fold p.
      assert (Hs : forall e, snd (symlink f t p) = Some e -> fst (symlink f t p) = f).
      { intros e. unfold symlink. destruct t as [|t0 ts]; [reflexivity|]. destruct (look f false p) as [q n|q|e']; [reflexivity|intros HH; discriminate HH|reflexivity]. }
      destruct (symlink f t p) as [f1 [e|]]; [|reflexivity]. cbn [fst snd] in Hs. specialize (Hs e eq_refl). subst f1.
      assert (R : match remove_file f p with
                | (f1, None) => (fst (symlink f1 t p), match snd (symlink f1 t p) with None => Ok tt | Some e => Err (EIo e) end)
                | (f1, Some e) => (f1, Err (EIo e))
                end = rp f).
      { unfold rp. destruct (remove_file f p) as [f3 [e3|]]; [reflexivity|]. now destruct (symlink f3 t p). }
      destruct e; try reflexivity. destruct (x_policy cfg); try reflexivity.
      + unfold stat_call, np. destruct (modified f false p) as [t0|e| |]; try reflexivity.
        destruct (entry_time mt) as [t'|e| |]; try reflexivity. destruct (t0 <=? t')%Z; [|reflexivity]. symmetry. exact R.
      + symmetry. exact R.
    - intros [e|]; [|apply does_ret]. destruct e; try apply does_ret. destruct (x_policy cfg); try apply does_ret; assumption.
  Qed.

  (** ** The walk *)
  Definition follows (m : list turns) (t : nat) (s : nat -> turns) : Prop := forall k T, nth_error m k = Some T -> s (t + k)%nat = T.
  Definition matches {A} (X : fctx -> fctx * res A) (Y : (nat -> turns) -> ctx -> ctx * res A) : Prop := forall c, exists m, Forall (Forall Q) m /\
    forall s t, follows m t s -> Y s (view t c) = (view (t + length m) (fst (X c)), snd (X c)).

  Lemma matches_ret {A} (r : res A) : matches (fun c => (c, r)) (fun _ c => (c, r)).
  Proof. intros c. exists []. split; [constructor|]. intros s t _. cbn [length fst snd]. now rewrite Nat.add_0_r. Qed.
  Lemma follows_app m1 m2 t s : follows (m1 ++ m2) t s -> follows m1 t s /\ follows m2 (t + length m1) s.
  Proof.
    intros H. split; intros k T Hk.
    - apply H. rewrite nth_error_app1; [exact Hk|]. apply nth_error_Some. rewrite Hk. discriminate.
    - rewrite <- Nat.add_assoc. apply H. rewrite nth_error_app2 by lia. now replace (length m1 + k - length m1)%nat with k by lia.
  Qed.
  Lemma matches_then {A C} (X : fctx -> fctx * res A) Y (X2 : fctx -> A -> fctx * res C) Y2 :
    matches X Y -> (forall v, matches (fun c => X2 c v) (fun s c => Y2 s c v)) ->
    matches (fun c => andthen (X c) X2) (fun s c => andthen (Y s c) (Y2 s)).
  Proof.
    intros H1 H2 c. destruct (H1 c) as (m1 & Q1 & E1). destruct (X c) as [c1 r] eqn:EX. cbn [fst snd] in E1.
    destruct r as [v|e| |].
    - destruct (H2 v c1) as (m2 & Q2 & E2). exists (m1 ++ m2). split; [now apply Forall_app|]. intros s t Hf.
      apply follows_app in Hf as [F1 F2]. rewrite (E1 s t F1). cbn [andthen]. rewrite (E2 s _ F2), app_length, Nat.add_assoc. reflexivity.
    - exists m1. split; [exact Q1|]. intros s t Hf. rewrite (E1 s t Hf). reflexivity.
    - exists m1. split; [exact Q1|]. intros s t Hf. rewrite (E1 s t Hf). reflexivity.
    - exists m1. split; [exact Q1|]. intros s t Hf. rewrite (E1 s t Hf). reflexivity.
  Qed.
  Record op_matches {F L D} (op : operator fctx F L D) (op' : (nat -> turns) -> operator ctx F L D) : Prop := {
    om_start : matches (on_start op) (fun s => on_start (op' s));
    om_stop : matches (on_stop op) (fun s => on_stop (op' s));
    om_enter : forall d, matches (fun c => on_enter op c d) (fun s c => on_enter (op' s) c d);
    om_exit : forall d, matches (fun c => on_exit op c d) (fun s c => on_exit (op' s) c d);
    om_file : forall x, matches (fun c => on_file op c x) (fun s c => on_file (op' s) c x);
    om_link : forall x, matches (fun c => on_link op c x) (fun s c => on_link (op' s) c x) }.
  Lemma matches_range {F L D} (B : builder F L D) a op op' : op_matches op op' -> forall fuel cur stop,
    matches (run_range B a op fuel cur stop) (fun s => run_range B a (op' s) fuel cur stop).
  Proof.
    intros M. induction fuel as [|k IH]; intros cur stop; [apply (matches_ret Diverge)|].
    cbn [run_range]. destruct (cur =? stop); [apply (matches_ret (Ok tt))|].
    destruct (create_entry B a cur) as [[x|x|r d]|e| |]; cbn [andthen]; [| | |apply (matches_ret (Err e))|apply (matches_ret Panic)|apply (matches_ret Diverge)].
    - refine (matches_then _ _ (fun c _ => run_range B a op k (cur + 1) stop c) (fun s c _ => run_range B a (op' s) k (cur + 1) stop c) (om_file _ _ M x) _).
      intros v. apply IH.
    - refine (matches_then _ _ (fun c _ => run_range B a op k (cur + 1) stop c) (fun s c _ => run_range B a (op' s) k (cur + 1) stop c) (om_link _ _ M x) _).
      intros v. apply IH.
    - refine (matches_then _ _
        (fun c (enter : bool) => andthen (if enter then run_range B a op k (fst r) (fst r + snd r) c else (c, Ok tt))
           (fun c _ => andthen (on_exit op c d) (fun c _ => run_range B a op k (cur + 1) stop c)))
        (fun s c (enter : bool) => andthen (if enter then run_range B a (op' s) k (fst r) (fst r + snd r) c else (c, Ok tt))
           (fun c _ => andthen (on_exit (op' s) c d) (fun c _ => run_range B a (op' s) k (cur + 1) stop c))) (om_enter _ _ M d) _).
      intros enter.
      refine (matches_then (fun c => if enter then run_range B a op k (fst r) (fst r + snd r) c else (c, Ok tt))
        (fun s c => if enter then run_range B a (op' s) k (fst r) (fst r + snd r) c else (c, Ok tt))
        (fun c _ => andthen (on_exit op c d) (fun c _ => run_range B a op k (cur + 1) stop c))
        (fun s c _ => andthen (on_exit (op' s) c d) (fun c _ => run_range B a (op' s) k (cur + 1) stop c)) _ _).
      + destruct enter; [apply IH|apply (matches_ret (Ok tt))].
      + intros _. refine (matches_then _ _ (fun c _ => run_range B a op k (cur + 1) stop c) (fun s c _ => run_range B a (op' s) k (cur + 1) stop c) (om_exit _ _ M d) _).
        intros v. apply IH.
  Qed.
  Lemma matches_from_range {F L D} (B : builder F L D) a op op' : op_matches op op' -> forall fuel rg,
    matches (run_from_range B a op fuel rg) (fun s => run_from_range B a (op' s) fuel rg).
  Proof.
    intros M fuel rg. unfold run_from_range.
    refine (matches_then _ _ (fun c _ => andthen (run_range B a op fuel (fst rg) (fst rg + snd rg) c) (fun c _ => on_stop op c))
       (fun s c _ => andthen (run_range B a (op' s) fuel (fst rg) (fst rg + snd rg) c) (fun c _ => on_stop (op' s) c)) (om_start _ _ M) _).
    intros _. refine (matches_then _ _ (fun c _ => on_stop op c) (fun s c _ => on_stop (op' s) c) (matches_range B a op op' M _ _ _) _).
    intros _. exact (om_stop _ _ M).
  Qed.

  (** A callback: turns, then the calls. *)
  Lemma callback {A} (X : fctx -> fctx * A) P c : does X P -> exists T, Forall Q T /\ forall s t, s t = T ->
    let c1 := tick s (view t c) in
    view (S t) (fst (X c)) = with_fs c1 (fst (P (x_fs c1))) /\ snd (X c) = snd (P (x_fs c1)) /\ x_cur c1 = fx_cur c.
  Proof.
    intros H. destruct (H c 0%nat) as (T & HT & E1 & E2). cbv zeta in E1, E2. exists T. split; [exact HT|]. intros s t Hs. cbv zeta.
    unfold tick. change (x_tick (view t c)) with t. rewrite Hs. cbn [with_fs x_fs x_cur x_tasks x_failed x_tick].
    pose proof (run_turns_tick T (view 0 c) t) as Et. change (mkCtx (x_cur (view 0 c)) (x_fs (view 0 c)) (x_tasks (view 0 c)) (x_failed (view 0 c)) t) with (view t c) in Et. rewrite Et. cbn [with_fs x_fs x_cur x_tasks x_failed x_tick].
    split; [|split; [exact E2|apply run_turns_cur]].
    change (view (S t) (fst (X c))) with (mkCtx (x_cur (view 0 (fst (X c)))) (x_fs (view 0 (fst (X c)))) (x_tasks (view 0 (fst (X c)))) (x_failed (view 0 (fst (X c)))) (S t)).
    rewrite E1. reflexivity.
  Qed.
  Lemma tick_with_cur s c p : tick s (with_cur c p) = with_cur (tick s c) p.
  Proof.
    unfold tick. change (x_tick (with_cur c p)) with (x_tick c). generalize (s (x_tick c)). intros l. unfold run_turns.
    assert (G : forall l c, fold_left one_turn l (with_cur c p) = with_cur (fold_left one_turn l c) p).
    { clear. induction l as [|x l IH]; intros c; [reflexivity|]. cbn [fold_left]. rewrite <- IH. f_equal. unfold one_turn, with_cur.
      cbn [x_tasks x_fs x_cur x_failed x_tick]. destruct (nth_error (x_tasks c) (fst x)) as [tk|]; [|reflexivity].
      destruct (write_turn (x_fs c) tk (snd x)) as [[f t'] bad]. reflexivity. }
    rewrite G. reflexivity.
  Qed.
  Lemma idle_tick s t c : s t = [] -> tick s (view t c) = view (S t) c.
  Proof. intros H. unfold tick. change (x_tick (view t c)) with t. rewrite H. reflexivity. Qed.
  Lemma follows_one T t s : follows [T] t s -> s t = T.
  Proof. intros H. specialize (H 0%nat T eq_refl). now rewrite Nat.add_0_r in H. Qed.
  Lemma Q_one T : Forall Q T -> Forall (Forall Q) [T].
  Proof. now repeat constructor. Qed.

  Lemma extractor_matches a cfg : op_matches (fine_extractor None a cfg sched) (extractor a cfg).
  Proof.
    constructor; cbn [fine_extractor extractor on_start on_stop on_enter on_exit on_file on_link].
    - intros c. destruct (callback _ _ c (does_dir (x_base cfg))) as (T & HT & E). exists [T]. split; [now apply Q_one|].
      intros s t Hf. apply follows_one in Hf. destruct (E s t Hf) as (E1 & E2 & _). unfold io. cbn [length]. rewrite Nat.add_1_r, E1, E2.
      cbv zeta. destruct (create_dir_all (x_fs (tick s (view t c))) (x_base cfg)); reflexivity.
    - apply (matches_ret (Ok tt)).
    - intros nm c. set (cur := push (fx_cur c) nm). destruct (should_extract cfg cur true) eqn:Es.
      + destruct (callback _ _ (at_path c cur) (does_dir (abs_path cfg cur))) as (T & HT & E). exists [T]. split; [now apply Q_one|].
        intros s t Hf. apply follows_one in Hf. destruct (E s t Hf) as (E1 & E2 & _).
        change (view t (at_path c cur)) with (with_cur (view t c) cur) in E1, E2. rewrite tick_with_cur in E1, E2.
        assert (Hc : x_cur (tick s (view t c)) = fx_cur c) by apply tick_cur. cbv zeta. rewrite Hc. fold cur. rewrite Es. unfold io.
        cbn [length]. rewrite Nat.add_1_r. destruct (fine_dir sched (abs_path cfg cur) (at_path c cur)) as [c2 r2]. cbn [fst snd] in E1, E2. subst r2.
        cbn [with_cur x_fs] in *. destruct (create_dir_all (x_fs (tick s (view t c))) (abs_path cfg cur)) as [g [e|]]; cbn [fst snd andthen] in *; rewrite E1; reflexivity.
      + exists [[]]. split; [apply Q_one; constructor|]. intros s t Hf. apply follows_one in Hf. rewrite (idle_tick s t c Hf).
        change (x_cur (view (S t) c)) with (fx_cur c). cbv zeta. fold cur. rewrite Es. cbn [length fst snd]. rewrite Nat.add_1_r. reflexivity.
    - intros nm c. exists []. split; [constructor|]. intros s t _. cbn [length fst snd]. rewrite Nat.add_0_r. reflexivity.
    - intros [[nm ad] mt] c. unfold fine_on_file, x_on_file. set (cur := push (fx_cur c) nm).
      assert (Idle : forall r : res unit, exists m, Forall (Forall Q) m /\ forall s t, follows m t s -> (tick s (view t c), r) = (view (t + length m) c, r)).
      { intros r. exists [[]]. split; [apply Q_one; constructor|]. intros s t Hf. apply follows_one in Hf. rewrite (idle_tick s t c Hf). cbn [length]. now rewrite Nat.add_1_r. }
      assert (Hcur : forall s t, push (x_cur (tick s (view t c))) nm = cur) by (intros s t; rewrite tick_cur; reflexivity).
      destruct (should_extract cfg cur false) eqn:Es.
      + destruct (a_fetch a ad) as [data| | |] eqn:Ef.
        * destruct (callback _ _ c (does_target cfg cur mt)) as (T & HT & E). exists [T]. split; [now apply Q_one|].
          intros s t Hf. apply follows_one in Hf. destruct (E s t Hf) as (E1 & E2 & _). cbv zeta. rewrite Hcur, Es.
          destruct (fine_target None sched cfg cur mt c) as [c2 r2]. cbn [fst snd] in E1, E2. subst r2. cbn [length]. rewrite Nat.add_1_r.
          destruct (open_target cfg cur mt (x_fs (tick s (view t c)))) as [g [[i|]|e| |]]; cbn [fst snd andthen] in *; rewrite <- ?E1; try reflexivity.
          f_equal.
          change (mkCtx (x_cur (with_fs (tick s (view t c)) g)) (x_fs (with_fs (tick s (view t c)) g)) (x_tasks (with_fs (tick s (view t c)) g) ++ [mkTask i data 0 false])
                    (x_failed (with_fs (tick s (view t c)) g)) (x_tick (with_fs (tick s (view t c)) g)) =
                  view (S t) (mkFctx (fx_cur c2) (fx_fs c2) (fx_tasks c2 ++ [mkTask i data 0 false]) (fx_failed c2) (fx_calls c2) (fx_acts c2))).
          rewrite <- E1. reflexivity.
        * destruct (Idle (Ok tt)) as (m & Hm & E). exists m. split; [exact Hm|]. intros s t Hf. cbv zeta. rewrite Hcur, Es. now apply E.
        * destruct (Idle Panic) as (m & Hm & E). exists m. split; [exact Hm|]. intros s t Hf. cbv zeta. rewrite Hcur, Es. now apply E.
        * destruct (Idle Panic) as (m & Hm & E). exists m. split; [exact Hm|]. intros s t Hf. cbv zeta. rewrite Hcur, Es. now apply E.
      + destruct (Idle (Ok tt)) as (m & Hm & E). exists m. split; [exact Hm|]. intros s t Hf. cbv zeta. rewrite Hcur, Es. now apply E.
    - intros [[nm tg] mt] c. unfold fine_on_link, x_on_link. set (cur := push (fx_cur c) nm).
      assert (Hcur : forall s t, push (x_cur (tick s (view t c))) nm = cur) by (intros s t; rewrite tick_cur; reflexivity).
      destruct (should_extract cfg cur false) eqn:Es.
      + destruct (callback _ _ c (does_link cfg cur tg mt)) as (T & HT & E). exists [T]. split; [now apply Q_one|].
        intros s t Hf. apply follows_one in Hf. destruct (E s t Hf) as (E1 & E2 & _). cbv zeta. rewrite Hcur, Es.
        cbn [length]. rewrite Nat.add_1_r, E1, E2. destruct (make_link cfg cur tg mt (x_fs (tick s (view t c)))); reflexivity.
      + exists [[]]. split; [apply Q_one; constructor|]. intros s t Hf. apply follows_one in Hf. cbv zeta. rewrite Hcur, Es, (idle_tick s t c Hf).
        cbn [length]. now rewrite Nat.add_1_r.
  Qed.
  Lemma fine_is_coarse a rg cfg last f : alone last -> (forall k o, In (Turn k o) last -> Q (k, o)) ->
    let (c, r) := fine_extract None a rg cfg sched last f in
    exists s l, extract_range a rg cfg s l f = (fx_fs c, r) /\ (forall n, Forall Q (s n)) /\ Forall Q l.
  Proof.
    intros Hal HQl. unfold fine_extract, extract_range.
    destruct (matches_from_range x_builder a _ _ (extractor_matches a cfg) (walk_fuel a) rg (fine_start f)) as (m & Hm & E).
    destruct (run_from_range x_builder a (fine_extractor None a cfg sched) (walk_fuel a) rg (fine_start f)) as [c r]. cbn [fst snd] in E.
    exists (fun n => nth n m []), (strip last). split; [|split].
    - change (mkCtx [] f [] false 0) with (view 0 (fine_start f)).
      rewrite E by (intros k T Hk; cbn [Nat.add]; now apply nth_error_nth).
      rewrite <- happen_view by exact Hal. reflexivity.
    - intros n. destruct (Nat.lt_ge_cases n (length m)) as [Hn|Hn]; [|rewrite nth_overflow by exact Hn; constructor].
      rewrite Forall_forall in Hm. apply Hm. now apply nth_In.
    - now apply strip_Q.
  Qed.
End Sim.
