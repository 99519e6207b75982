(** The times of what an extraction writes. *)
From Verif Require Export SpecUpdate AnyKeep.

Record stamped (f g : hostfs) : Prop := {
  sp_now : h_now g = h_now f;
  sp_next : h_next f <= h_next g;
  sp_old : forall i, i < h_next f -> h_mtime g i = h_mtime f i \/ h_mtime g i = h_now f;
  sp_new : forall i, h_next f <= i < h_next g -> h_mtime g i = h_now f;
  sp_files : forall q i, h_names g q = Some (HFile i) -> h_names f q = Some (HFile i) \/ h_next f <= i < h_next g;
  sp_links : forall q t m, h_names g q = Some (HLink t m) -> h_names f q = Some (HLink t m) \/ m = h_now f }.

Lemma stamped_refl f : stamped f f.
Proof. constructor; auto; lia. Qed.
Lemma stamped_trans f g h : stamped f g -> stamped g h -> stamped f h.
Proof.
  intros [A1 A2 A3 A4 A5 A6] [B1 B2 B3 B4 B5 B6]. constructor.
  - congruence.
  - lia.
  - intros i Hi. destruct (B3 i) as [E|E]; [lia| |right; congruence]. rewrite E. auto.
  - intros i Hi. destruct (N.lt_ge_cases i (h_next g)).
    + destruct (B3 i) as [E|E]; [lia| |congruence]. rewrite E. apply A4. lia.
    + rewrite B4; [exact A1|lia].
  - intros q i E. destruct (B5 q i E) as [E'|E']; [|right; lia]. destruct (A5 q i E') as [E2|E2]; [auto|right; lia].
  - intros q t m E. destruct (B6 q t m E) as [E'|E']; [auto|right; congruence].
Qed.

Lemma stamped_set f q v : (forall i, v <> Some (HFile i)) -> (forall t m, v = Some (HLink t m) -> m = h_now f) -> stamped f (set_name f q v).
Proof.
  intros Hf Hl. constructor; cbn; auto; try lia.
  - intros q' i E. destruct (path_eqb' q' q); [now apply Hf in E|auto].
  - intros q' t m E. destruct (path_eqb' q' q); [right; eapply Hl; eauto|auto].
Qed.
Lemma mkdir_stamped f p : stamped f (fst (mkdir f p)).
Proof. unfold mkdir. destruct (look f false p); cbn; try apply stamped_refl. apply stamped_set; discriminate. Qed.
Lemma create_dir_all_rev_stamped s l : forall f, stamped f (fst (create_dir_all_rev f s l)).
Proof.
  induction l as [|c l IH]; intros f; cbn [create_dir_all_rev]; [apply stamped_refl|].
  pose proof (mkdir_stamped f (s, rev (c :: l))) as H1. destruct (mkdir f (s, rev (c :: l))) as [f1 [e|]]; cbn [fst] in *; auto.
  assert (Hd : stamped f (fst (if is_dir_path f1 (s, rev (c :: l)) then (f1, None) else (f1, Some e)))) by (destruct (is_dir_path f1 (s, rev (c :: l))); exact H1).
  destruct e; try exact Hd. specialize (IH f1). destruct (create_dir_all_rev f1 s l) as [f2 [e|]]; cbn [fst] in *.
  - exact (stamped_trans _ _ _ H1 IH).
  - pose proof (mkdir_stamped f2 (s, rev (c :: l))) as H3. destruct (mkdir f2 (s, rev (c :: l))) as [f3 [e|]]; cbn [fst] in *.
    + assert (Hk : stamped f f3) by exact (stamped_trans _ _ _ (stamped_trans _ _ _ H1 IH) H3). destruct (is_dir_path f3 (s, rev (c :: l))); exact Hk.
    + exact (stamped_trans _ _ _ (stamped_trans _ _ _ H1 IH) H3).
Qed.
Lemma symlink_stamped f t p : stamped f (fst (symlink f t p)).
Proof.
  unfold symlink. destruct t as [|c t]; [apply stamped_refl|]. destruct (look f false p); cbn; try apply stamped_refl.
  apply stamped_set; [discriminate|]. intros ? ? E. now injection E as <- <-.
Qed.
Lemma remove_stamped f p : stamped f (fst (remove_file f p)).
Proof.
  unfold remove_file. destruct (look f false p) as [q [|i|t m]|q|e]; cbn; try apply stamped_refl; apply stamped_set; discriminate.
Qed.
Lemma open_new_stamped f p : stamped f (fst (open_new f p)).
Proof.
  unfold open_new. destruct (look f false p); cbn; try apply stamped_refl. constructor; cbn; auto; try lia.
  - intros i Hi. destruct (N.eqb_spec i (h_next f)); auto.
  - intros i Hi. destruct (N.eqb_spec i (h_next f)); [auto|lia].
  - intros q i E. destruct (path_eqb' q p0); [|auto]. injection E as <-. right. lia.
  - intros q t m E. destruct (path_eqb' q p0); [discriminate E|auto].
Qed.
Lemma open_trunc_stamped f p : stamped f (fst (open_trunc f p)).
Proof.
  unfold open_trunc. destruct (look f true p) as [q [|i|t m]|q|e]; cbn; try apply stamped_refl. constructor; cbn; auto; try lia.
  intros j Hj. destruct (N.eqb_spec j i); auto.
Qed.

Section Extract.
  Variables (a : archive) (cfg : config) (sched : nat -> turns).

  Lemma open_target_stamped cur m f : stamped f (fst (open_target cfg cur m f)).
  Proof.
    unfold open_target. set (p := abs_path cfg cur). pose proof (open_new_stamped f p) as H1. pose proof (open_trunc_stamped f p) as H2.
    destruct (open_trunc f p) as [f2 [i2|e2]]; cbn [fst] in H2.
    all: destruct (open_new f p) as [f1 [i|e]]; cbn [fst] in *; auto; destruct e; cbn [fst]; auto.
    all: destruct (x_policy cfg); cbn [fst]; auto using stamped_refl.
    all: destruct (modified f true p) as [t| | |]; cbn [fst]; auto using stamped_refl; destruct (entry_time m) as [t'| | |]; cbn [fst]; auto using stamped_refl.
    all: destruct (t <=? t')%Z; cbn [fst]; auto using stamped_refl.
  Qed.
  Lemma make_link_stamped cur t m f : stamped f (fst (make_link cfg cur t m f)).
  Proof.
    unfold make_link. set (p := abs_path cfg cur). pose proof (symlink_stamped f t p) as H1. pose proof (remove_stamped f p) as H2.
    assert (H3 : stamped f (fst (match remove_file f p with
        | (f1, None) => (fst (symlink f1 t p), match snd (symlink f1 t p) with None => Ok tt | Some e => Err (EIo e) end)
        | (f1, Some e) => (f1, Err (EIo e)) end))).
    { destruct (remove_file f p) as [f1 [e|]]; cbn [fst] in *; [exact H2|]. exact (stamped_trans _ _ _ H2 (symlink_stamped f1 t p)). }
    destruct (symlink f t p) as [f1 [e|]]; cbn [fst] in *; auto. destruct e; cbn [fst]; auto.
    destruct (x_policy cfg); cbn [fst]; auto using stamped_refl.
    destruct (modified f false p) as [t0| | |]; cbn [fst]; auto using stamped_refl. destruct (entry_time m) as [t'| | |]; cbn [fst]; auto using stamped_refl.
    destruct (t0 <=? t')%Z; cbn [fst]; auto using stamped_refl.
  Qed.

  Lemma one_turn_stamped f c x : stamped f (x_fs c) -> stamped f (x_fs (one_turn c x)).
  Proof.
    intros H. unfold one_turn. destruct (nth_error (x_tasks c) (fst x)) as [t|]; [|exact H]. unfold write_turn. destruct (t_done t); [exact H|].
    destruct (snd x) as [k|]; [|exact H]. cbn [x_fs]. destruct H as [A1 A2 A3 A4 A5 A6]. constructor; cbn; auto.
  Qed.
  Lemma run_turns_stamped f l : forall c, stamped f (x_fs c) -> stamped f (x_fs (run_turns l c)).
  Proof. induction l as [|x l IH]; intros c Hc; cbn; auto. apply IH. now apply one_turn_stamped. Qed.
  Lemma tick_stamped f c : stamped f (x_fs c) -> stamped f (x_fs (tick sched c)).
  Proof. intros H. exact (run_turns_stamped f (sched (x_tick c)) c H). Qed.

  Lemma extractor_stamped f : preserves (extractor a cfg sched) (fun c => stamped f (x_fs c)).
  Proof.
    constructor; cbn [on_start on_stop on_enter on_exit on_file on_link extractor]; auto.
    - intros c Hc. unfold io. cbn [fst with_fs x_fs]. apply tick_stamped in Hc. exact (stamped_trans _ _ _ Hc (create_dir_all_rev_stamped _ _ _)).
    - intros c nm Hc. apply tick_stamped in Hc. set (c1 := tick sched c) in *. destruct (should_extract cfg (push (x_cur c1) nm) true); [|exact Hc].
      apply andthen_kept; [|auto]. unfold io. cbn [fst with_fs with_cur x_fs]. exact (stamped_trans _ _ _ Hc (create_dir_all_rev_stamped _ _ _)).
    - intros c [[nm ad] mt] Hc. unfold x_on_file. apply tick_stamped in Hc. set (c1 := tick sched c) in *.
      destruct (should_extract cfg (push (x_cur c1) nm) false); [|exact Hc]. destruct (a_fetch a ad) as [data| | |]; try exact Hc.
      pose proof (stamped_trans _ _ _ Hc (open_target_stamped (push (x_cur c1) nm) mt (x_fs c1))) as H.
      destruct (open_target cfg (push (x_cur c1) nm) mt (x_fs c1)) as [g [[i|]| | |]]; exact H.
    - intros c [[nm t] mt] Hc. unfold x_on_link. apply tick_stamped in Hc. set (c1 := tick sched c) in *.
      destruct (should_extract cfg (push (x_cur c1) nm) false); [|exact Hc].
      pose proof (stamped_trans _ _ _ Hc (make_link_stamped (push (x_cur c1) nm) t mt (x_fs c1))) as H.
      destruct (make_link cfg (push (x_cur c1) nm) t mt (x_fs c1)) as [g r]; exact H.
  Qed.

  Theorem extract_stamped rg last f g res : extract_range a rg cfg sched last f = (g, res) -> stamped f g.
  Proof.
    intros H. unfold extract_range in H.
    pose proof (run_from_range_preserves x_builder a _ _ (extractor_stamped f) (walk_fuel a) rg (mkCtx [] f [] false 0) (stamped_refl f)) as K.
    destruct (run_from_range x_builder a (extractor a cfg sched) (walk_fuel a) rg (mkCtx [] f [] false 0)) as [c r]. cbn [fst] in K.
    injection H as <- _. now apply run_turns_stamped.
  Qed.
End Extract.
