(** The selection of entries, [should_extract]. *)
From Verif Require Export SpecExtract.

Definition dotless (p : path) : Prop := ~ In (b ".") p.

Lemma dotless_app p q : dotless (p ++ q) <-> dotless p /\ dotless q.
Proof. unfold dotless. rewrite in_app_iff. tauto. Qed.

Lemma drop_dots_dotless p : dotless p -> drop_dots p = p.
Proof.
  destruct p as [|x p _] using rev_ind; auto. intros H. rewrite drop_dots_snoc.
  destruct (bytes_eqb_spec x (b ".")); auto. subst. exfalso. apply H. rewrite in_app_iff. cbn. auto.
Qed.

Lemma drop_dots_prefix p : exists t, p = drop_dots p ++ t.
Proof.
  induction p as [|x p IH] using rev_ind; [now exists []|]. rewrite drop_dots_snoc.
  destruct (bytes_eqb x (b ".")).
  - destruct IH as [t Ht]. exists (t ++ [x]). now rewrite app_assoc, <- Ht.
  - exists []. now rewrite app_nil_r.
Qed.

Lemma parent_none s : parent s = None <-> s = [].
Proof. unfold parent. destruct s; easy. Qed.

Lemma next_back_shrinks s o rest : next_back s = (o, rest) -> s <> [] -> (length rest < length s)%nat.
Proof.
  intros E Hs. destruct o as [c|]; [now apply next_back_length in E|].
  pose proof (next_back_pieces s) as Hp. rewrite E in Hp. destruct Hp as [_ ->]. destruct s; cbn; [easy|lia].
Qed.

Lemma parent_loop_le k : forall s, (length (parent_loop k s) <= length s)%nat.
Proof.
  induction k as [|k IH]; intros s; cbn [parent_loop]; auto.
  destruct s as [|c s]; [cbn; destruct k; cbn; lia|].
  destruct (next_back (c :: s)) as [o rest] eqn:E. apply next_back_shrinks in E; [|easy].
  destruct o as [[| |m]|]; try lia. specialize (IH rest). lia.
Qed.

Lemma parent_shorter s q : parent s = Some q -> (length q < length s)%nat.
Proof.
  unfold parent. destruct s as [|c s]; [easy|]. intros H.
  assert (q = parent_loop (length (c :: s)) (c :: s)) as -> by congruence. clear H.
  cbn [length parent_loop].
  destruct (next_back (c :: s)) as [o rest] eqn:E. apply next_back_shrinks in E; [|easy]. cbn [length] in E.
  destruct o as [[| |m]|]; try lia. pose proof (parent_loop_le (length s) rest). lia.
Qed.

(** The strings met by the loop over [parent()]. *)
Inductive chain : path -> path -> Prop :=
| chain_here p : chain p (removelast (drop_dots p))
| chain_up p q : chain (removelast (drop_dots p)) q -> chain p q.

Lemma chain_prefix p q : chain p q -> p <> [] -> below q p.
Proof.
  intros H. induction H as [p|p q H IH]; intros Hp.
  - destruct (drop_dots_prefix p) as [t Ht]. destruct (drop_dots p) as [|x l _] using rev_ind.
    + destruct t as [|y t]; [easy|]. exists y, t. exact Ht.
    + rewrite removelast_last. exists x, t. rewrite Ht. rewrite <- app_assoc. reflexivity.
  - destruct (list_eq_dec (list_eq_dec N.eq_dec) (removelast (drop_dots p)) []) as [E|E].
    + rewrite E in H. assert (q = []) as ->. { clear - H. remember [] as e. induction H; subst; auto. }
      destruct p as [|x p]; [easy|]. exists x, p. reflexivity.
    + destruct (IH E) as (x & t & E2). destruct (drop_dots_prefix p) as [u Hu].
      destruct (drop_dots p) as [|z l _] using rev_ind; [easy|]. rewrite removelast_last in *.
      exists x, (t ++ z :: u). rewrite Hu, E2. rewrite <- !app_assoc. reflexivity.
Qed.

Lemma chain_dotless p q : dotless p -> below q p -> chain p q.
Proof.
  intros Hd (x & t & E). subst. induction t as [|y t IH] using rev_ind.
  - replace q with (removelast (drop_dots (q ++ [x]))) at 2; [constructor|].
    rewrite drop_dots_dotless by auto. apply removelast_last.
  - apply chain_up. rewrite drop_dots_dotless by auto.
    replace (q ++ x :: t ++ [y]) with ((q ++ x :: t) ++ [y]) in * by now rewrite <- app_assoc.
    rewrite removelast_last. apply IH. now apply dotless_app in Hd.
Qed.

Lemma chain_trans p q r : chain p q -> chain q r -> chain p r.
Proof. induction 1; intros; [now apply chain_up|]. apply chain_up. auto. Qed.

Section Parents.
  Variables (test : bytes -> bool) (T : path -> Prop).
  Hypothesis Htest : forall s, test s = true <-> T (pieces s).

  Lemma any_parent_sound k : forall s, any_parent k test s = true -> exists q, chain (pieces s) q /\ T q.
  Proof.
    induction k as [|k IH]; intros s; cbn [any_parent]; [easy|].
    destruct (parent s) as [r|] eqn:E; [|easy].
    pose proof (parent_pieces _ _ E) as Hp. destruct (test r) eqn:Et.
    - intros _. apply Htest in Et. rewrite Hp in Et. eexists. split; [constructor|exact Et].
    - intros H. destruct (IH _ H) as (q & Hq & HT). exists q. split; auto. apply chain_up. now rewrite <- Hp.
  Qed.

  Lemma any_parent_complete k : forall s q, (length s < k)%nat -> pieces s <> [] -> chain (pieces s) q -> T q ->
    any_parent k test s = true.
  Proof.
    induction k as [|k IH]; intros s q Hk Hs Hc HT; [lia|]. cbn [any_parent].
    destruct (parent s) as [r|] eqn:E.
    2: { apply parent_none in E. now subst. }
    pose proof (parent_pieces _ _ E) as Hp. destruct (test r) eqn:Et; auto.
    inversion Hc as [p Ep Eq|p q' Hc' Ep Eq]; subst.
    - rewrite <- Hp in HT. apply Htest in HT. congruence.
    - rewrite <- Hp in Hc'. destruct (list_eq_dec (list_eq_dec N.eq_dec) (pieces r) []) as [En|En].
      + rewrite En in Hc'. assert (q = []) as ->. { clear - Hc'. remember [] as e. induction Hc'; subst; auto. }
        rewrite <- En in HT. apply Htest in HT. congruence.
      + apply (IH r q); auto. apply parent_shorter in E. lia.
  Qed.
End Parents.

Lemma contains_spec files s : contains files s = true <-> exists f, In f files /\ pieces f = pieces s.
Proof.
  unfold contains. rewrite existsb_exists. split; intros (f & H & E); exists f; split; auto;
    [symmetry|]; apply path_eqb_pieces; auto.
Qed.

Section Select.
  Variable cfg : config.

  (** Exactly what the code selects (paths as lists of names). *)
  Definition sel (p : path) (dir : bool) : Prop :=
    x_files cfg = [] \/
    exists f, In f (x_files cfg) /\
      (pieces f = p \/ (x_recurse cfg = true /\ chain p (pieces f)) \/ (dir = true /\ chain (pieces f) p)).

  Lemma should_extract_sel s dir : pieces s <> [] -> (should_extract cfg s dir = true <-> sel (pieces s) dir).
  Proof.
    intros Hs. unfold should_extract, sel.
    destruct (x_files cfg) as [|f0 fs] eqn:Ef; [tauto|]. rewrite !orb_true_iff, !andb_true_iff, contains_spec.
    rewrite <- Ef. assert (Hne : x_files cfg <> []) by (rewrite Ef; easy). clear f0 fs Ef. split.
    - intros [[(f & Hf & E)|[Hr H]]|[Hd H]]; right.
      + exists f. auto.
      + apply (any_parent_sound _ (fun q => exists f, In f (x_files cfg) /\ pieces f = q)) in H; [|intros; apply contains_spec].
        destruct H as (q & Hq & f & Hf & <-). exists f. auto.
      + apply existsb_exists in H as (f & Hf & H). apply (any_parent_sound _ (fun q => pieces s = q)) in H; [|intros; apply path_eqb_pieces].
        destruct H as (q & Hq & <-). exists f. auto.
    - intros [E|(f & Hf & [E|[[Hr H]|[Hd H]]])].
      + easy.
      + left. left. eauto.
      + left. right. split; auto. eapply (any_parent_complete _ (fun q => exists f, In f (x_files cfg) /\ pieces f = q)); eauto; try lia.
        intros; apply contains_spec.
      + right. split; auto. apply existsb_exists. exists f. split; auto.
        eapply (any_parent_complete _ (fun q => pieces s = q)); eauto; try lia.
        { intros; apply path_eqb_pieces. }
        intros En. rewrite En in H. apply Hs. clear - H. remember [] as e. induction H; subst; auto.
  Qed.

  Lemma sel_file p dir : sel p false -> sel p dir.
  Proof. unfold sel. intros [H|(f & Hf & H)]; auto. right. exists f. intuition congruence. Qed.

  (** Everything above a selected entry is selected. *)
  Lemma sel_up p q dir : sel p dir -> dotless p -> q <> [] -> below q p -> sel q true.
  Proof.
    intros [H|(f & Hf & H)] Hd Hq Hb; [now left|]. right. exists f. split; auto.
    pose proof (chain_dotless _ _ Hd Hb) as Hc.
    destruct H as [E|[[Hr H]|[_ H]]].
    - right. right. split; auto. now rewrite E.
    - assert (Hp : p <> []) by (destruct Hb as (x & t & ->); now destruct q).
      pose proof (chain_prefix _ _ H Hp) as (y & u & E1). destruct Hb as (x & t & E2).
      assert (Hdf : dotless (pieces f)) by (rewrite E1 in Hd; now apply dotless_app in Hd).
      assert (Hdq : dotless q) by (rewrite E2 in Hd; now apply dotless_app in Hd).
      rewrite E1 in E2. clear - E2 Hr Hdf Hdq. revert E2.
      assert (G : forall a c x t y u, a ++ y :: u = c ++ x :: t -> a = c \/ below a c \/ below c a).
      { clear. induction a as [|z a IH]; intros [|w c] x t y u E; auto.
        - right. left. exists w, c. reflexivity.
        - right. right. exists z, a. reflexivity.
        - cbn in E. injection E as <- E. destruct (IH _ _ _ _ _ E) as [->|[(m & n & ->)|(m & n & ->)]]; auto.
          + right. left. exists m, n. reflexivity.
          + right. right. exists m, n. reflexivity. }
      intros E2. apply G in E2 as [E|[H|H]]; auto.
      + right. left. split; auto. now apply chain_dotless.
      + right. right. split; auto. now apply chain_dotless.
    - right. right. split; auto. eapply chain_trans; eauto.
  Qed.

  (** With listed paths free of ".", it is the declared selection. *)
  Lemma sel_selected p dir : (forall f, In f (x_files cfg) -> dotless (pieces f)) -> dotless p -> p <> [] ->
    (sel p dir <-> selected (x_files cfg) (x_recurse cfg) p dir).
  Proof.
    intros Hf Hd Hp. unfold sel, selected. split; (intros [H|(f & Hin & H)]; [now left|right; exists f; split; auto]);
      destruct H as [H|[[Hr H]|[Hr H]]]; auto.
    - right. left. split; auto. now apply chain_prefix.
    - right. right. split; auto. apply chain_prefix; auto. intros E. rewrite E in H. apply Hp.
      clear - H. remember [] as e. induction H; subst; auto.
    - right. left. split; auto. now apply chain_dotless.
    - right. right. split; auto. apply chain_dotless; auto.
  Qed.
End Select.
