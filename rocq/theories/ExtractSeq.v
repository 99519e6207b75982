(** Extraction is the sequential extraction of the visited entries, whatever the writers' schedule. *)
From Verif Require Export SelectProofs WalkProofs.

Lemma nodup_left {A} (l m : list A) : NoDup (l ++ m) -> NoDup l.
Proof. induction l as [|x l IH]; cbn; [constructor|]. intros H. apply NoDup_cons_iff in H as [H1 H2]. constructor; auto. rewrite in_app_iff in H1. tauto. Qed.

(** ** A reference: sequential extraction, each file written at once *)
Definition with_data (f : hostfs) (d : N -> bytes) : hostfs :=
  mkHost (h_names f) d (h_mtime f) (h_next f) (h_dirtime f) (h_now f).
Definition upd (d : N -> bytes) (i : N) (v : bytes) : N -> bytes := fun k => if k =? i then v else d k.

Section Seq.
  Variables (a : archive) (cfg : config).

  (** One entry: the new file system, the inode written and its content. *)
  Definition xone (f : hostfs) (p : path) (nd : node) : hostfs * option (N * bytes) * res unit :=
    match fst nd with
    | KDir =>
        if should_extract cfg (join p) true then
          match create_dir_all f (abs_path cfg (join p)) with
          | (f', None) => (f', None, Ok tt)
          | (f', Some e) => (f', None, Err (EIo e))
          end
        else (f, None, Ok tt)
    | KFile _ addr =>
        if should_extract cfg (join p) false then
          match a_fetch a addr with
          | Found data =>
              match open_target cfg (join p) (m_mtime (snd nd)) f with
              | (f', Ok (Some i)) => (set_data f' i data, Some (i, data), Ok tt)
              | (f', Ok None) => (f', None, Ok tt)
              | (f', Err e) => (f', None, Err e)
              | (f', Panic) => (f', None, Panic)
              | (f', Diverge) => (f', None, Diverge)
              end
          | MissingPack => (f, None, Ok tt)
          | NoContent | FetchErr => (f, None, Panic)
          end
        else (f, None, Ok tt)
    | KLink t =>
        if utf8 t then
          if should_extract cfg (join p) false then
            let (f', r) := make_link cfg (join p) t (m_mtime (snd nd)) f in (f', None, r)
          else (f, None, Ok tt)
        else (f, None, Err EUtf8)
    end.

  Fixpoint xseq (l : list (path * node)) (f : hostfs) (log : list (N * bytes)) : hostfs * list (N * bytes) * res unit :=
    match l with
    | [] => (f, log, Ok tt)
    | (p, nd) :: r =>
        match xone f p nd with
        | (f', o, Ok _) => xseq r f' (match o with Some x => log ++ [x] | None => log end)
        | (f', o, e) => (f', log, e)
        end
    end.

  (** The entries the walk meets: unselected directories are not entered. *)
  Definition node_of (r : rec) : node := match node_of_rec r with Some nd => nd | None => (KDir, meta_of_rec r) end.
  Fixpoint vis (d : path) (f : forest) : list (path * node) :=
    match f with
    | FNil => []
    | FCons i r kids rest =>
        (d ++ [r_name r], node_of r) ::
        (if is_dir_node (node_of r) && should_extract cfg (join (d ++ [r_name r])) true
         then vis (d ++ [r_name r]) kids else []) ++ vis d rest
    end.

  Lemma seq_app l1 : forall l2 f log,
    xseq (l1 ++ l2) f log =
    match xseq l1 f log with
    | (f', log', Ok _) => xseq l2 f' log'
    | x => x
    end.
  Proof.
    induction l1 as [|[p nd] l1 IH]; intros l2 f log; cbn [app xseq]; auto.
    destruct (xone f p nd) as [[f' o] [u|e| |]]; auto.
  Qed.

  Lemma seq_log l : forall f log f' log' r, xseq l f log = (f', log', r) -> exists t, log' = log ++ t.
  Proof.
    induction l as [|[p nd] l IH]; intros f log f' log' r; cbn [xseq].
    - intros E. injection E as _ <- _. exists []. now rewrite app_nil_r.
    - destruct (xone f p nd) as [[f1 o] [u|e| |]].
      2-4: intros E; injection E as _ <- _; exists []; now rewrite app_nil_r.
      intros E. apply IH in E as [t ->]. destruct o as [x|]; eauto. exists (x :: t). now rewrite <- app_assoc.
  Qed.
End Seq.

(** ** Contents do not influence the calls *)
Lemma namei_eq k f fl cur comps : namei k f fl cur comps =
  match comps with
  | [] => At cur HDir
  | c :: rest =>
      if bytes_eqb c (b ".") then namei k f fl cur rest
      else if bytes_eqb c (b "..") then namei k f fl (removelast cur) rest
      else match h_names f (cur ++ [c]) with
           | None => match rest with [] => Missing (cur ++ [c]) | _ => Bad IoNotFound end
           | Some HDir => namei k f fl (cur ++ [c]) rest
           | Some (HFile i) => match rest with [] => At (cur ++ [c]) (HFile i) | _ => Bad IoNotDir end
           | Some (HLink t m) =>
               if match rest with [] => negb fl | _ => false end then At (cur ++ [c]) (HLink t m)
               else match k with
                    | O => Bad IoLoop
                    | S k => namei k f fl (if is_abs t then [] else cur) (pieces t ++ rest)
                    end
           end
  end.
Proof. destruct k; destruct comps; reflexivity. Qed.

Lemma namei_names k : forall f g fl, h_names f = h_names g -> forall cur comps, namei k f fl cur comps = namei k g fl cur comps.
Proof.
  induction k as [|k IH]; intros f g fl E cur comps; revert cur;
    (induction comps as [|c rest IHc]; intros cur; rewrite (namei_eq _ f), (namei_eq _ g); [reflexivity|]); rewrite <- E, !IHc;
    destruct (bytes_eqb c (b ".")); auto; destruct (bytes_eqb c (b "..")); auto;
    destruct (h_names f (cur ++ [c])) as [[|i|t m]|]; auto;
    destruct (match rest with [] => negb fl | _ => false end); auto.
Qed.
Lemma look_data f d fl p : look (with_data f d) fl p = look f fl p.
Proof. apply namei_names. reflexivity. Qed.

Lemma mkdir_data f d p : mkdir (with_data f d) p = (with_data (fst (mkdir f p)) d, snd (mkdir f p)).
Proof. unfold mkdir. rewrite look_data. destruct (look f false p); reflexivity. Qed.
Lemma is_dir_data f d p : is_dir_path (with_data f d) p = is_dir_path f p.
Proof. unfold is_dir_path. now rewrite look_data. Qed.
Lemma create_dir_all_rev_data s l : forall f d,
  create_dir_all_rev (with_data f d) s l = (with_data (fst (create_dir_all_rev f s l)) d, snd (create_dir_all_rev f s l)).
Proof.
  induction l as [|c l IH]; intros f d; cbn [create_dir_all_rev]; [reflexivity|].
  rewrite mkdir_data. destruct (mkdir f (s, rev (c :: l))) as [f1 [e|]]; cbn [fst snd]; [|reflexivity].
  destruct e; try (rewrite is_dir_data; destruct (is_dir_path f1 (s, rev (c :: l))); reflexivity).
  rewrite IH. destruct (create_dir_all_rev f1 s l) as [f2 [e|]]; cbn [fst snd]; [reflexivity|].
  rewrite mkdir_data. destruct (mkdir f2 (s, rev (c :: l))) as [f3 [e|]]; cbn [fst snd]; [|reflexivity].
  rewrite is_dir_data. destruct (is_dir_path f3 (s, rev (c :: l))); reflexivity.
Qed.
Lemma create_dir_all_data f d p :
  create_dir_all (with_data f d) p = (with_data (fst (create_dir_all f p)) d, snd (create_dir_all f p)).
Proof. apply create_dir_all_rev_data. Qed.
Lemma open_new_data f d p : open_new (with_data f d) p =
  match open_new f p with
  | (f', inl i) => (with_data f' (upd d i []), inl i)
  | (f', Datatypes.inr e) => (with_data f' d, Datatypes.inr e)
  end.
Proof. unfold open_new. rewrite look_data. destruct (look f false p); reflexivity. Qed.
Lemma open_trunc_data f d p : open_trunc (with_data f d) p =
  match open_trunc f p with
  | (f', inl i) => (with_data f' (upd d i []), inl i)
  | (f', Datatypes.inr e) => (with_data f' d, Datatypes.inr e)
  end.
Proof. unfold open_trunc. rewrite look_data. destruct (look f true p) as [q [|i|t m]|q|e]; reflexivity. Qed.
Lemma symlink_data f d t p : symlink (with_data f d) t p = (with_data (fst (symlink f t p)) d, snd (symlink f t p)).
Proof. unfold symlink. rewrite look_data. destruct t; [reflexivity|]. destruct (look f false p); reflexivity. Qed.
Lemma remove_file_data f d p : remove_file (with_data f d) p = (with_data (fst (remove_file f p)) d, snd (remove_file f p)).
Proof. unfold remove_file. rewrite look_data. destruct (look f false p) as [q [|i|t m]|q|e]; reflexivity. Qed.
Lemma modified_data f d fl p : modified (with_data f d) fl p = modified f fl p.
Proof. unfold modified. rewrite look_data. reflexivity. Qed.

Lemma open_target_data cfg cur m f d : open_target cfg cur m (with_data f d) =
  match open_target cfg cur m f with
  | (f', Ok (Some i)) => (with_data f' (upd d i []), Ok (Some i))
  | (f', r) => (with_data f' d, r)
  end.
Proof.
  unfold open_target. rewrite open_new_data, open_trunc_data, modified_data.
  destruct (open_new f (abs_path cfg cur)) as [f1 [i|e]]; [reflexivity|].
  destruct e; try reflexivity.
  destruct (x_policy cfg); try reflexivity.
  - destruct (modified f true (abs_path cfg cur)) as [t|e| |]; try reflexivity.
    destruct (entry_time m) as [t'|e| |]; try reflexivity. destruct (t <=? t')%Z; [|reflexivity].
    destruct (open_trunc f (abs_path cfg cur)) as [f2 [i|e]]; reflexivity.
  - destruct (open_trunc f (abs_path cfg cur)) as [f2 [i|e]]; reflexivity.
Qed.

Lemma open_target_log cfg cur m f f' i : open_target cfg cur m f = (f', Ok (Some i)) -> h_data f' = upd (h_data f) i [].
Proof.
  intros E. pose proof (open_target_data cfg cur m f (h_data f)) as H.
  assert (Ef : with_data f (h_data f) = f) by now destruct f. rewrite Ef, E in H.
  injection H as H. rewrite H at 1. reflexivity.
Qed.

Lemma make_link_data cfg cur t m f d : make_link cfg cur t m (with_data f d) =
  (with_data (fst (make_link cfg cur t m f)) d, snd (make_link cfg cur t m f)).
Proof.
  unfold make_link. rewrite symlink_data, remove_file_data, modified_data.
  destruct (symlink f t (abs_path cfg cur)) as [f1 [e|]]; cbn [fst snd]; [|reflexivity].
  assert (R : match remove_file f (abs_path cfg cur) with
              | (f2, None) => (fst (symlink (with_data f2 d) t (abs_path cfg cur)), match snd (symlink (with_data f2 d) t (abs_path cfg cur)) with None => Ok tt | Some e => Err (EIo e) end)
              | (f2, Some e) => (with_data f2 d, Err (EIo e))
              end =
              let x := match remove_file f (abs_path cfg cur) with
              | (f2, None) => (fst (symlink f2 t (abs_path cfg cur)), match snd (symlink f2 t (abs_path cfg cur)) with None => Ok tt | Some e => Err (EIo e) end)
              | (f2, Some e) => (f2, Err (EIo e))
              end in (with_data (fst x) d, snd x)).
  { destruct (remove_file f (abs_path cfg cur)) as [f2 [e2|]]; [reflexivity|]. rewrite symlink_data. reflexivity. }
  destruct e; try reflexivity. destruct (x_policy cfg); try reflexivity.
  - destruct (modified f false (abs_path cfg cur)) as [t1|e1| |]; try reflexivity.
    destruct (entry_time m) as [t'|e1| |]; try reflexivity. destruct (t1 <=? t')%Z; [|reflexivity].
    destruct (remove_file f (abs_path cfg cur)) as [f2 [e2|]]; exact R.
  - destruct (remove_file f (abs_path cfg cur)) as [f2 [e2|]]; exact R.
Qed.

Lemma make_link_keeps cfg cur t m f : h_data (fst (make_link cfg cur t m f)) = h_data f.
Proof.
  pose proof (make_link_data cfg cur t m f (h_data f)) as H. assert (Ef : with_data f (h_data f) = f) by now destruct f.
  rewrite Ef in H. rewrite (surjective_pairing (make_link cfg cur t m f)) in H at 1. injection H as H. rewrite H at 1. reflexivity.
Qed.
Lemma create_dir_all_keeps f p : h_data (fst (create_dir_all f p)) = h_data f.
Proof.
  pose proof (create_dir_all_data f (h_data f) p) as H. assert (Ef : with_data f (h_data f) = f) by now destruct f.
  rewrite Ef in H. rewrite (surjective_pairing (create_dir_all f p)) in H at 1. injection H as H. rewrite H at 1. reflexivity.
Qed.
Lemma open_target_keeps cfg cur m f f' r : open_target cfg cur m f = (f', r) -> (forall i, r <> Ok (Some i)) -> h_data f' = h_data f.
Proof.
  intros E Hr. pose proof (open_target_data cfg cur m f (h_data f)) as H.
  assert (Ef : with_data f (h_data f) = f) by now destruct f. rewrite Ef, E in H.
  destruct r as [[i|]|e| |]; try (injection H as H; rewrite H at 1; reflexivity). now destruct (Hr i).
Qed.

(** ** The simulation *)
(** A writer half way: the file holds the bytes written so far. *)
Record rel (f : hostfs) (log : list (N * bytes)) (c : ctx) : Prop := {
  rl_fs : x_fs c = with_data f (h_data (x_fs c));
  rl_log : map (fun t => (t_ino t, t_data t)) (x_tasks c) = log;
  rl_other : forall i, ~ In i (map fst log) -> h_data (x_fs c) i = h_data f i;
  rl_task : forall t, In t (x_tasks c) ->
    h_data (x_fs c) (t_ino t) = firstn (t_off t) (t_data t) /\ (t_off t <= length (t_data t))%nat /\
    (t_done t = true -> t_off t = length (t_data t) \/ x_failed c = true);
  rl_full : forall i d, In (i, d) log -> h_data f i = d }.

Lemma replace_nth_in {A} k (x y : A) : forall l, In y (replace_nth k x l) -> y = x \/ In y l.
Proof. induction k as [|k IH]; intros [|z l]; cbn; auto; intros [H|H]; auto. apply IH in H as [H|H]; auto. Qed.
Lemma replace_nth_map {A B} (g : A -> B) k x : forall l t, nth_error l k = Some t -> g x = g t -> map g (replace_nth k x l) = map g l.
Proof.
  induction k as [|k IH]; intros [|z l] t; cbn; try easy.
  - intros H. injection H as ->. now intros ->.
  - intros H E. f_equal. eapply IH; eauto.
Qed.
Lemma replace_nth_other {A B} (g : A -> B) k x y : forall l t, NoDup (map g l) -> nth_error l k = Some t -> g x = g t ->
  In y (replace_nth k x l) -> y = x \/ (In y l /\ g y <> g t).
Proof.
  induction k as [|k IH]; intros [|z l] t Hd; cbn; try easy; apply NoDup_cons_iff in Hd as [Hn Hd].
  - intros H. injection H as ->. intros E [H|H]; auto. right. split; auto. intros E'. apply Hn. rewrite <- E'. now apply in_map.
  - intros H E [<-|Hin].
    + right. split; auto. intros E'. apply Hn. change (g z) with (g z). rewrite E'. apply in_map. eapply nth_error_In; eauto.
    + destruct (IH _ _ Hd H E Hin) as [->|[H1 H2]]; auto.
Qed.

Lemma pwrite_next data off k : (off <= length data)%nat ->
  pwrite (firstn off data) off (firstn k (skipn off data)) = firstn (off + k) data.
Proof.
  intros H. unfold pwrite.
  assert (E1 : length (firstn off data) = off) by (rewrite firstn_length; lia). rewrite E1, Nat.sub_diag. cbn [repeat].
  rewrite app_nil_r, firstn_firstn, Nat.min_id.
  rewrite (skipn_all2 (firstn off data)) by lia. rewrite app_nil_r.
  clear E1. revert data H. induction off as [|o IH]; intros [|x data] H; cbn [firstn skipn Nat.add app].
  - now destruct k.
  - reflexivity.
  - now destruct k.
  - f_equal. apply IH. cbn in H. lia.
Qed.

Lemma one_turn_rel f log c x : NoDup (map fst log) -> rel f log c -> rel f log (one_turn c x).
Proof.
  intros Hnd H. unfold one_turn. destruct (nth_error (x_tasks c) (fst x)) as [t|] eqn:Et; [|exact H].
  destruct H as [H1 H2 H3 H4 H5]. unfold write_turn.
  assert (Hin := nth_error_In _ _ Et). destruct (H4 t Hin) as (D1 & D2 & D3).
  assert (Hnd' : NoDup (map t_ino (x_tasks c))) by (rewrite <- H2, map_map in Hnd; exact Hnd).
  destruct (t_done t) eqn:Ed.
  { assert (Er : replace_nth (fst x) t (x_tasks c) = x_tasks c).
    { revert Et. clear. generalize (fst x). induction (x_tasks c) as [|z l IH]; intros [|k]; cbn; try easy; intros E; [congruence|].
      f_equal. now apply IH. }
    rewrite Er, orb_false_r. destruct c; cbn in *. now constructor. }
  destruct (snd x) as [k|].
  - set (k' := Nat.min _ _).
    constructor; cbn [x_fs x_tasks x_failed h_data set_data].
    + rewrite H1 at 1. unfold set_data, with_data. cbn. f_equal.
    + rewrite <- H2. eapply replace_nth_map; eauto.
    + intros i Hi. destruct (N.eqb_spec i (t_ino t)) as [->|]; auto. exfalso. apply Hi. rewrite <- H2, map_map. now apply (in_map t_ino).
    + intros y Hy. rewrite orb_false_r.
      eapply (replace_nth_other t_ino) in Hy; [|exact Hnd'|exact Et|reflexivity].
      destruct Hy as [->|[Hy1 Hy2]]; cbn [t_ino t_data t_off t_done].
      * rewrite N.eqb_refl. rewrite D1, pwrite_next by auto. split; auto.
        assert (t_off t + k' <= length (t_data t))%nat by (subst k'; lia). split; auto. intros E. left. now apply Nat.eqb_eq in E.
      * apply N.eqb_neq in Hy2 as ->. auto.
    + exact H5.
  - constructor; cbn [x_fs x_tasks x_failed]; auto.
    + rewrite <- H2. eapply replace_nth_map; eauto.
    + intros y Hy. rewrite orb_true_r. apply replace_nth_in in Hy as [->|Hy]; cbn [t_ino t_data t_off t_done].
      * auto.
      * destruct (H4 y Hy) as (K1 & K2 & K3). auto.
Qed.

Lemma run_turns_rel f log l : forall c, NoDup (map fst log) -> rel f log c -> rel f log (run_turns l c).
Proof. induction l as [|x l IH]; intros c Hn H; cbn; auto. apply IH; auto. now apply one_turn_rel. Qed.
Lemma tick_rel f log sched c : NoDup (map fst log) -> rel f log c -> rel f log (tick sched c).
Proof.
  intros Hn H. apply (run_turns_rel f log (sched (x_tick c)) c Hn) in H. unfold tick. destruct H. now constructor.
Qed.

Lemma one_turn_cur c x : x_cur (one_turn c x) = x_cur c.
Proof. unfold one_turn. destruct (nth_error _ _); auto. destruct (write_turn _ _ _) as [[? ?] ?]. reflexivity. Qed.
Lemma run_turns_cur l : forall c, x_cur (run_turns l c) = x_cur c.
Proof. induction l as [|x l IH]; intros c; cbn; auto. unfold run_turns in *. cbn. now rewrite IH, one_turn_cur. Qed.
Lemma tick_cur sched c : x_cur (tick sched c) = x_cur c.
Proof. unfold tick. cbn. apply run_turns_cur. Qed.

(** Failures. *)
Lemma run_turns_failed l : forall c, no_failure l -> x_failed (run_turns l c) = x_failed c.
Proof.
  induction l as [|[k o] l IH]; intros c H; cbn; auto. unfold run_turns in IH. rewrite IH.
  - unfold one_turn. destruct (nth_error _ _) as [t|]; auto. unfold write_turn. cbn [snd]. destruct (t_done t); [cbn; now rewrite orb_false_r|].
    destruct o as [n|]; cbn; [now rewrite orb_false_r|]. now destruct (H k None (or_introl eq_refl)).
  - intros k' o' Hin. apply (H k' o'). now right.
Qed.
Lemma run_turns_failed_up l : forall c, x_failed c = true -> x_failed (run_turns l c) = true.
Proof.
  induction l as [|[k o] l IH]; intros c H; cbn; auto. unfold run_turns in IH. rewrite IH; auto.
  unfold one_turn. destruct (nth_error _ _) as [t|]; auto. destruct (write_turn _ _ _) as [[? ?] ?]. cbn. now rewrite H.
Qed.

Section Walk.
  Variables (a : archive) (cfg : config) (sched : nat -> turns).
  Hypothesis Hwf : wf a.

  (** A list of names the loop over [current_path] handles. *)
  Definition handled (p : path) : Prop := Forall (fun n => good n /\ n <> b "." /\ utf8 n = true) p.
  Lemma handled_good p : handled p -> Forall good p.
  Proof. apply Forall_impl. tauto. Qed.
  Lemma handled_app p q : handled (p ++ q) <-> handled p /\ handled q.
  Proof. apply Forall_app. Qed.

  Definition sim (x : hostfs * list (N * bytes) * res unit) (cur : bytes) (y : ctx * res unit) : Prop :=
    rel (fst (fst x)) (snd (fst x)) (fst y) /\ snd x = snd y /\ (snd y = Ok tt -> x_cur (fst y) = cur).

  (** The names of the forest. *)
  Fixpoint fnames (f : forest) : Prop :=
    match f with
    | FNil => True
    | FCons i r kids rest => handled [r_name r] /\ fnames kids /\ fnames rest
    end.

  Lemma with_fs_rel f log c f' : rel f log c -> h_data f' = h_data f ->
    rel f' log (with_fs c (with_data f' (h_data (x_fs c)))).
  Proof.
    intros [H1 H2 H3 H4 H5] E. constructor; cbn; auto; intros; rewrite E; auto.
  Qed.

  Lemma x_create_file i r n mt : at_ (a_recs a) i = Some r -> r_name r = n -> utf8 n = true -> r_mtime r = mt ->
    create_entry x_builder a i =
    match r_payload r with
    | RFile c _ => Ok (GFile (n, c, mt))
    | RLink t => if utf8 t then Ok (GLink (n, t, mt)) else Err EUtf8
    | RDir first nb => Ok (GDir (as_u32 first, as_u32 nb) n)
    | RBad _ => Err EBadVariant
    end.
  Proof.
    intros Hr <- Hu <-. unfold create_entry, rec_at. rewrite Hr. cbn [bind].
    destruct (r_payload r) as [c s|first nb|t|v] eqn:Ep; cbn [x_builder b_file b_link b_dir]; unfold of_utf8; rewrite ?Hu; cbn [bind]; rewrite ?Ep; cbn [bind]; auto.
    unfold of_utf8. destruct (utf8 t); reflexivity.
  Qed.

  (** One callback. *)
  Lemma file_sim f log d n addr mt size c : handled d -> handled [n] -> NoDup (map fst log) -> rel f log c -> x_cur c = join d ->
    let x := xone a cfg f (d ++ [n]) (KFile size addr, mt) in
    (forall i dt, snd (fst x) = Some (i, dt) -> ~ In i (map fst log)) ->
    sim (fst (fst x), match snd (fst x) with Some y => log ++ [y] | None => log end, snd x) (join d)
        (x_on_file a cfg sched c (n, addr, m_mtime mt)).
  Proof.
    intros Hd Hn Hnd Hrel Hc x Hfresh.
    pose proof (tick_rel _ _ sched _ Hnd Hrel) as Ht. pose proof (tick_cur sched c) as Hcur. rewrite Hc in Hcur.
    unfold x_on_file. set (c1 := tick sched c) in *. clearbody c1. rewrite Hcur.
    assert (Gd := handled_good _ Hd). assert (Gn := handled_good _ Hn). apply Forall_inv in Gn.
    rewrite push_join by auto. subst x. unfold xone in *. cbn [fst snd] in *.
    destruct (should_extract cfg (join (d ++ [n])) false); [|now split].
    destruct (a_fetch a addr) as [data| | |]; try now split.
    assert (Efs := rl_fs _ _ _ Ht). rewrite Efs, open_target_data.
    destruct (open_target cfg (join (d ++ [n])) (m_mtime mt) f) as [f' r] eqn:E.
    destruct r as [[i|]|e| |]; cbn [fst snd] in *.
    2-5: split; [|split; [reflexivity|now intros _]]; eapply with_fs_rel; eauto; eapply open_target_keeps; eauto; congruence.
    split; [|split; [reflexivity|now intros _]]. cbn [fst snd].
    specialize (Hfresh i data eq_refl). pose proof (open_target_log _ _ _ _ _ _ E) as El.
    destruct Ht as [H1 H2 H3 H4 H5]. constructor; cbn [x_fs x_tasks x_failed x_cur].
    - reflexivity.
    - rewrite map_app, H2. reflexivity.
    - intros k Hk. rewrite map_app, in_app_iff in Hk. cbn in Hk. cbn. rewrite El. unfold upd.
      destruct (N.eqb_spec k i) as [->|]; [tauto|]. apply H3. tauto.
    - intros t Hin. apply in_app_iff in Hin as [Hin|[<-|[]]]; cbn [t_ino t_data t_off t_done h_data with_data].
      + destruct (H4 t Hin) as (K1 & K2 & K3). unfold upd. destruct (N.eqb_spec (t_ino t) i) as [E'|]; auto.
        exfalso. apply Hfresh. rewrite <- E', <- H2, map_map. now apply (in_map t_ino).
      + unfold upd. rewrite N.eqb_refl. split; auto. split; [lia|easy].
    - intros k dk Hin. cbn. rewrite El. unfold upd. apply in_app_iff in Hin as [Hin|[Hin|[]]].
      + destruct (N.eqb_spec k i) as [->|]; auto. exfalso. apply Hfresh. apply in_map_iff. exists (i, dk). auto.
      + injection Hin as -> ->. now rewrite N.eqb_refl.
  Qed.

  Lemma link_sim f log d n t mt c : handled d -> handled [n] -> NoDup (map fst log) -> rel f log c -> x_cur c = join d -> utf8 t = true ->
    let x := xone a cfg f (d ++ [n]) (KLink t, mt) in
    snd (fst x) = None /\ sim (fst (fst x), log, snd x) (join d) (x_on_link cfg sched c (n, t, m_mtime mt)).
  Proof.
    intros Hd Hn Hnd Hrel Hc Hu x.
    pose proof (tick_rel _ _ sched _ Hnd Hrel) as Ht. pose proof (tick_cur sched c) as Hcur. rewrite Hc in Hcur.
    unfold x_on_link. set (c1 := tick sched c) in *. clearbody c1. rewrite Hcur.
    assert (Gd := handled_good _ Hd). assert (Gn := handled_good _ Hn). apply Forall_inv in Gn.
    rewrite push_join by auto. subst x. unfold xone in *. cbn [fst snd] in *. rewrite Hu.
    destruct (should_extract cfg (join (d ++ [n])) false); [|now split].
    assert (Efs := rl_fs _ _ _ Ht). rewrite Efs, make_link_data.
    pose proof (make_link_keeps cfg (join (d ++ [n])) t (m_mtime mt) f) as Hk.
    destruct (make_link cfg (join (d ++ [n])) t (m_mtime mt) f) as [f' r]. cbn [fst snd] in *. split; auto.
    split; [|split; [reflexivity|now intros _]]. now apply (with_fs_rel f).
  Qed.

  Lemma enter_sim f log d n mt c : handled d -> handled [n] -> NoDup (map fst log) -> rel f log c -> x_cur c = join d ->
    let x := xone a cfg f (d ++ [n]) (KDir, mt) in
    let y := on_enter (extractor a cfg sched) c n in
    snd (fst x) = None /\ rel (fst (fst x)) log (fst y) /\
    match snd x with
    | Ok _ => snd y = Ok (should_extract cfg (join (d ++ [n])) true)
    | Err e => snd y = Err e
    | Panic => snd y = Panic
    | Diverge => snd y = Diverge
    end /\ x_cur (fst y) = join (d ++ [n]).
  Proof.
    intros Hd Hn Hnd Hrel Hc x y.
    pose proof (tick_rel _ _ sched _ Hnd Hrel) as Ht. pose proof (tick_cur sched c) as Hcur. rewrite Hc in Hcur.
    subst x y. cbn [extractor on_enter]. set (c1 := tick sched c) in *. clearbody c1. rewrite Hcur.
    assert (Gd := handled_good _ Hd). assert (Gn := handled_good _ Hn). apply Forall_inv in Gn.
    rewrite push_join by auto. unfold xone. cbn [fst snd with_cur x_fs].
    assert (Ht' : rel f log (with_cur c1 (join (d ++ [n])))) by (destruct Ht; now constructor).
    destruct (should_extract cfg (join (d ++ [n])) true); [|now split].
    assert (Efs := rl_fs _ _ _ Ht). unfold io. rewrite Efs, create_dir_all_data.
    pose proof (create_dir_all_keeps f (abs_path cfg (join (d ++ [n])))) as Hk.
    destruct (create_dir_all f (abs_path cfg (join (d ++ [n])))) as [f' [e|]]; cbn [fst snd andthen] in *.
    - split; auto. split; [|now split]. change (h_data (x_fs c1)) with (h_data (x_fs (with_cur c1 (join (d ++ [n]))))). now apply (with_fs_rel f).
    - split; auto. split; [|now split]. change (h_data (x_fs c1)) with (h_data (x_fs (with_cur c1 (join (d ++ [n]))))). now apply (with_fs_rel f).
  Qed.

  Lemma seq_nodup l f log f' log' r : xseq a cfg l f log = (f', log', r) -> NoDup (map fst log') -> NoDup (map fst log).
  Proof. intros E. apply seq_log in E as [t ->]. rewrite map_app. intros H. now apply nodup_left in H. Qed.

  Lemma walk_sim lo hi fo : forest_of a lo hi fo -> forall d f log c, handled d -> fnames fo -> rel f log c -> x_cur c = join d ->
    NoDup (map fst (snd (fst (xseq a cfg (vis cfg d fo) f log)))) ->
    sim (xseq a cfg (vis cfg d fo) f log) (join d) (walk_forest x_builder a (extractor a cfg sched) fo c).
  Proof.
    induction 1 as [lo|lo hi r rest Hlt Hr Hnd Hrest IH|lo hi r first nb kids rest Hlt Hr Hp Hkids IHk Hrest IHr];
      intros d f log c Hd Hfn Hrel Hc Hlog; cbn [walk_forest vis xseq] in *; [now split| |].
    - destruct Hfn as (Hn & _ & Hfr). assert (Hun : utf8 (r_name r) = true) by (apply Forall_inv in Hn; tauto).
      rewrite (x_create_file lo r (r_name r) (r_mtime r)) by auto. unfold node_of, node_of_rec in *.
      destruct (r_payload r) as [addr size|first nb|t|v] eqn:Ep.
      2: { now destruct (Hnd first nb). } 3: { now apply (wf_variant _ Hwf _ _ v) in Hr. }
      + cbn [is_dir_node is_dir_kind fst andb app andthen extractor on_file] in *.
        pose proof (file_sim f log d (r_name r) addr (meta_of_rec r) size c Hd Hn) as HS.
        destruct (xone a cfg f (d ++ [r_name r]) (KFile size addr, meta_of_rec r)) as [[f1 o] res1] eqn:E1. cbn [fst snd] in HS.
        assert (Hl1 : NoDup (map fst (match res1 with Ok _ => match o with Some x => log ++ [x] | None => log end | _ => log end))).
        { destruct res1; auto. destruct (xseq a cfg (vis cfg d rest) f1 _) as [[f2 l2] r2] eqn:E2. eapply seq_nodup; eauto. }
        assert (Hl0 : NoDup (map fst log)).
        { destruct res1; auto. destruct o as [x|]; auto. rewrite map_app in Hl1. now apply nodup_left in Hl1. }
        specialize (HS Hl0 Hrel Hc).
        assert (Ho : forall i dt, o = Some (i, dt) -> res1 = Ok tt).
        { intros i dt ->. unfold xone in E1. cbn [fst snd] in E1. destruct (should_extract _ _ _); [|discriminate E1].
          destruct (a_fetch a addr); try discriminate E1. destruct (open_target _ _ _ _) as [f2 [[j|]|e| |]]; congruence. }
        assert (HS' : sim (f1, match o with Some y => log ++ [y] | None => log end, res1) (join d) (x_on_file a cfg sched c (r_name r, addr, m_mtime (meta_of_rec r)))).
        { apply HS. intros i dt ->. rewrite (Ho i dt eq_refl) in Hl1. rewrite map_app in Hl1. apply NoDup_remove_2 in Hl1. now rewrite app_nil_r in Hl1. }
        clear HS. destruct HS' as (S1 & S2 & S3). cbn [fst snd] in S1, S2.
        change (m_mtime (meta_of_rec r)) with (r_mtime r) in *.
        destruct (x_on_file a cfg sched c (r_name r, addr, r_mtime r)) as [c1 r1]. cbn [fst snd] in *. subst r1.
        destruct res1 as [[]|e| |]; cbn [andthen].
        * apply IH; auto.
        * destruct o as [[i dt]|]; [discriminate (Ho i dt eq_refl)|]. now split.
        * destruct o as [[i dt]|]; [discriminate (Ho i dt eq_refl)|]. now split.
        * destruct o as [[i dt]|]; [discriminate (Ho i dt eq_refl)|]. now split.
      + cbn [is_dir_node is_dir_kind fst andb app] in *.
        assert (Hl0 : NoDup (map fst log)).
        { destruct (xone a cfg f (d ++ [r_name r]) (KLink t, meta_of_rec r)) as [[f1 o] res1] eqn:E1.
          destruct res1; auto. destruct (xseq a cfg (vis cfg d rest) f1 _) as [[f2 l2] r2] eqn:E2. 
          assert (Hl1 := seq_nodup _ _ _ _ _ _ E2 Hlog). destruct o as [x|]; auto. rewrite map_app in Hl1. now apply nodup_left in Hl1. }
        destruct (utf8 t) eqn:Hu.
        2: { cbn [andthen]. unfold xone. cbn [fst snd]. rewrite Hu. now split. }
        destruct (link_sim f log d (r_name r) t (meta_of_rec r) c Hd Hn Hl0 Hrel Hc Hu) as (Ho & S1 & S2 & S3).
        destruct (xone a cfg f (d ++ [r_name r]) (KLink t, meta_of_rec r)) as [[f1 o] res1] eqn:E1. cbn [fst snd] in *. subst o.
        change (m_mtime (meta_of_rec r)) with (r_mtime r) in *.
        cbn [andthen extractor on_link].
        destruct (x_on_link cfg sched c (r_name r, t, r_mtime r)) as [c1 r1]. cbn [fst snd] in *. subst r1.
        destruct res1 as [[]|e| |]; cbn [andthen]; try now split. apply IH; auto.
    - destruct Hfn as (Hn & Hfk & Hfr). assert (Hun : utf8 (r_name r) = true) by (apply Forall_inv in Hn; tauto).
      rewrite (x_create_file lo r (r_name r) (r_mtime r)) by auto. unfold node_of, node_of_rec in *. rewrite Hp in *.
      cbn [is_dir_node is_dir_kind fst andb andthen] in *.
      assert (Hl0 : NoDup (map fst log)).
      { destruct (xone a cfg f (d ++ [r_name r]) (KDir, meta_of_rec r)) as [[f1 o] res1] eqn:E1.
        destruct res1; auto. destruct (xseq a cfg _ f1 _) as [[f2 l2] r2] eqn:E2.
        assert (Hl1 := seq_nodup _ _ _ _ _ _ E2 Hlog). destruct o as [x|]; auto. rewrite map_app in Hl1. now apply nodup_left in Hl1. }
      destruct (enter_sim f log d (r_name r) (meta_of_rec r) c Hd Hn Hl0 Hrel Hc) as (Ho & S1 & S2 & S3).
      destruct (xone a cfg f (d ++ [r_name r]) (KDir, meta_of_rec r)) as [[f1 o] res1] eqn:E1. cbn [fst snd] in *. subst o.
      destruct (on_enter (extractor a cfg sched) c (r_name r)) as [c1 r1]. cbn [fst snd] in *.
      destruct res1 as [[]|e| |]; subst r1; cbn [andthen]; try now split.
      rewrite seq_app in *.
      assert (Hd1 : handled (d ++ [r_name r])) by now apply handled_app.
      assert (Hpop : pop (join (d ++ [r_name r])) = join d).
      { apply Forall_inv in Hn. apply pop_push; try tauto. now apply handled_good. }
      assert (Hcase : exists f2 log2 res2, (xseq a cfg (if should_extract cfg (join (d ++ [r_name r])) true then vis cfg (d ++ [r_name r]) kids else []) f1 log) = (f2, log2, res2) /\
        NoDup (map fst log2) /\
        sim (f2, log2, res2) (join (d ++ [r_name r])) (if should_extract cfg (join (d ++ [r_name r])) true then walk_forest x_builder a (extractor a cfg sched) kids c1 else (c1, Ok tt))).
      { destruct (xseq a cfg (if should_extract _ _ _ then _ else _) f1 log) as [[f2 log2] res2] eqn:E2.
        exists f2, log2, res2. split; auto.
        assert (Hn2 : NoDup (map fst log2)).
        { destruct res2 as [u|e| |]; auto. destruct (xseq a cfg (vis cfg d rest) f2 log2) as [[f3 l3] r3] eqn:E3. eapply seq_nodup; eauto. }
        split; auto. destruct (should_extract cfg (join (d ++ [r_name r])) true).
        - rewrite <- E2. apply IHk; auto. now rewrite E2.
        - cbn in E2. injection E2 as <- <- <-. now split. }
      destruct Hcase as (f2 & log2 & res2 & E2 & Hn2 & T1 & T2 & T3). rewrite E2 in *. cbn [fst snd] in *.
      destruct (if should_extract cfg (join (d ++ [r_name r])) true then _ else (c1, Ok tt)) as [c2 r2]. cbn [fst snd] in *. subst r2.
      destruct res2 as [[]|e| |]; cbn [andthen]; try now split.
      cbn [extractor on_exit andthen]. apply IHr; auto.
      + destruct T1. now constructor.
      + cbn [with_cur x_cur]. now rewrite T3.
  Qed.
End Walk.
