(** The recorded walk. *)
From Verif Require Export SpecWalk WalkProofs.

Inductive sub {A} : list A -> list A -> Prop :=
| sub_nil l : sub [] l
| sub_take x l1 l2 : sub l1 l2 -> sub (x :: l1) (x :: l2)
| sub_skip x l1 l2 : sub l1 l2 -> sub l1 (x :: l2).

Lemma sub_refl {A} (l : list A) : sub l l.
Proof. induction l; constructor; auto. Qed.
Lemma sub_app {A} (a1 a2 b1 b2 : list A) : sub a1 a2 -> sub b1 b2 -> sub (a1 ++ b1) (a2 ++ b2).
Proof.
  intros H Hb. induction H as [l|x l1 l2 H IH|x l1 l2 H IH]; cbn.
  - induction l; cbn; auto. now constructor.
  - now constructor.
  - now constructor.
Qed.
Lemma sub_in {A} (l1 l2 : list A) x : sub l1 l2 -> In x l1 -> In x l2.
Proof. induction 1; cbn; intuition. Qed.
Lemma sub_map {A B} (f : A -> B) l1 l2 : sub l1 l2 -> sub (map f l1) (map f l2).
Proof. induction 1; cbn; constructor; auto. Qed.
Lemma sub_sorted {A} (R : A -> A -> Prop) l1 l2 : sub l1 l2 -> StronglySorted R l2 -> StronglySorted R l1.
Proof.
  induction 1 as [l|x l1 l2 H IH|x l1 l2 H IH]; intros Hs; [constructor| |].
  - apply StronglySorted_inv in Hs as [Hs F]. constructor; auto. apply Forall_forall. intros y Hy.
    rewrite Forall_forall in F. apply F. eapply sub_in; eauto.
  - apply StronglySorted_inv in Hs as [Hs _]. auto.
Qed.

Section Keep.
  Variable keep : N -> bool.

  Fixpoint flatk (d : path) (f : forest) : list (N * path) :=
    match f with
    | FNil => []
    | FCons i r kids rest =>
        (i, d ++ [r_name r]) :: (if keep i then flatk (d ++ [r_name r]) kids else []) ++ flatk d rest
    end.

  Lemma flatk_sub f : forall d, sub (flatk d f) (flat d f).
  Proof.
    induction f as [|i r kids IHk rest IHr]; intros d; cbn; constructor.
    apply sub_app; auto. destruct (keep i); auto. constructor.
  Qed.

  Variable a : archive.
  Hypothesis Hwf : wf a.
  Local Notation recs := (a_recs a).

  Lemma reached_deeper d n p i : apath a i (d ++ [n]) -> (exists x t, p = (d ++ [n]) ++ x :: t) ->
    (reached a keep d p <-> keep i = true /\ reached a keep (d ++ [n]) p).
  Proof.
    intros Hi (x & t & Hp). split.
    - intros H. split.
      + apply (H [n] x t i); auto; easy.
      + intros q y u j Hq Hpq Hj. replace ((d ++ [n]) ++ q) with (d ++ n :: q) in * by now rewrite <- app_assoc. apply (H (n :: q) y u j); auto; easy.
    - intros [Hk H] q y u j Hq Hpq Hj. destruct q as [|n' q]; [easy|].
      assert (n' = n).
      { rewrite Hp in Hpq. rewrite <- !app_assoc in Hpq. apply app_inv_head in Hpq. cbn in Hpq. congruence. }
      subst n'. destruct q as [|z q].
      + assert (j = i) by (eapply apath_inj; eauto). congruence.
      + replace (d ++ n :: z :: q) with ((d ++ [n]) ++ z :: q) in * by now rewrite <- app_assoc.
        apply (H (z :: q) y u j); auto; easy.
  Qed.

  Lemma reached_top d n : reached a keep d (d ++ [n]).
  Proof.
    intros q x t j Hq Hp _. exfalso. rewrite <- app_assoc in Hp. apply app_inv_head in Hp.
    destruct q as [|y q]; [easy|]. destruct q; discriminate Hp.
  Qed.

  Lemma flatk_in lo hi f : forest_of a lo hi f -> forall j d, brothers a j lo hi -> apdir a j d ->
    forall i p, In (i, p) (flatk d f) <-> In (i, p) (flat d f) /\ reached a keep d p.
  Proof.
    induction 1 as [lo|lo hi r rest Hlt Hr Hnd Hrest IH|lo hi r first nb kids rest Hlt Hr Hp Hkids IHk Hrest IHr];
      intros j d Hb Hd i p; cbn [flat flatk]; [easy| |].
    - assert (Hb' : brothers a j (lo + 1) hi) by (intros k Hk; apply Hb; lia).
      assert (E : (if keep lo then @nil (N * path) else []) = []) by now destruct (keep lo).
      rewrite E. cbn [app flat In]. rewrite (IH j d Hb' Hd). split.
      + intros [H|H]; [|tauto]. injection H as <- <-. split; [now left|]. apply reached_top.
      + tauto.
    - destruct (Hb lo) as (r' & Hr' & Hpar); [lia|]. rewrite Hr in Hr'. injection Hr' as <-.
      assert (Hlo : apath a lo (d ++ [r_name r])) by (apply apath_intro; auto; now rewrite Hpar).
      assert (Hb' : brothers a j (lo + 1) hi) by (intros k Hk; apply Hb; lia).
      assert (Hbk := brothers_dir a Hwf _ _ _ _ Hr Hp).
      assert (Hdk : apdir a (lo + 1) (d ++ [r_name r])) by (right; eauto).
      cbn [In]. rewrite !in_app_iff, (IHr j d Hb' Hd).
      assert (Hkid : In (i, p) (flat (d ++ [r_name r]) kids) -> exists x t, p = (d ++ [r_name r]) ++ x :: t).
      { intros Hin. apply (flat_in a Hwf _ _ _ Hkids _ _ Hbk Hdk) in Hin as (_ & k & q & _ & _ & t & ->).
        exists q, t. now rewrite <- !app_assoc. }
      assert (Hk : In (i, p) (if keep lo then flatk (d ++ [r_name r]) kids else []) <->
                   In (i, p) (flat (d ++ [r_name r]) kids) /\ reached a keep d p).
      { split.
        - intros Hin. destruct (keep lo) eqn:Ek; [|easy]. rewrite (IHk _ _ Hbk Hdk) in Hin. destruct Hin as [H1 H2].
          split; auto. apply (reached_deeper d (r_name r) p lo); auto.
        - intros [H1 H2]. apply (reached_deeper d (r_name r) p lo) in H2 as [-> H2]; auto.
          now rewrite (IHk _ _ Hbk Hdk). }
      rewrite Hk. split.
      + intros [H|H]; [|tauto]. injection H as <- <-. split; [now left|]. apply reached_top.
      + tauto.
  Qed.

  (** The recorded events. *)
  Lemma walk_recorded lo hi f : forest_of a lo hi f -> forall j d, brothers a j lo hi -> apdir a j d ->
    exists evs, (forall c, walk_forest full_builder a (recorder keep) f c = (c ++ evs, Ok tt)) /\
      listing a keep d evs /\
      Forall2 (fun e ip => exists nd, astored a (fst ip) (snd ip) nd /\ shows a e (fst ip) (snd ip) nd)
              (visits evs) (flatk d f).
  Proof.
    induction 1 as [lo|lo hi r rest Hlt Hr Hnd Hrest IH|lo hi r first nb kids rest Hlt Hr Hp Hkids IHk Hrest IHr];
      intros j d Hb Hd; cbn [walk_forest flatk].
    - exists []. split; [intros c; now rewrite app_nil_r|]. split; constructor.
    - destruct (Hb lo) as (r' & Hr' & Hpar); [lia|]. rewrite Hr in Hr'. injection Hr' as <-.
      assert (Hlo : apath a lo (d ++ [r_name r])) by (apply apath_intro; auto; now rewrite Hpar).
      assert (Hb' : brothers a j (lo + 1) hi) by (intros k Hk; apply Hb; lia).
      destruct (IH j d Hb' Hd) as (evs & E1 & E2 & E3).
      assert (E : (if keep lo then @nil (N * path) else []) = []) by now destruct (keep lo).
      rewrite E. cbn [app].
      destruct (node_of_rec r) as [nd|] eqn:En.
      2: { unfold node_of_rec in En. destruct (r_payload r) eqn:Ep; try discriminate En.
           now apply (wf_variant _ Hwf _ _ variant) in Hr. }
      assert (Hst : astored a lo (d ++ [r_name r]) nd) by (exists r; auto).
      destruct (create_entry_full a Hwf _ _ _ _ Hr Hlo En) as (e & He & Hsh). rewrite He.
      destruct e as [x|x|rg x].
      + exists (VisitFile x :: evs). split.
        { intros c. cbn [andthen recorder on_file]. rewrite E1. now rewrite <- app_assoc. }
        split; [eapply l_file; eauto|]. cbn [visits]. constructor; auto. eauto.
      + exists (VisitLink x :: evs). split.
        { intros c. cbn [andthen recorder on_link]. rewrite E1. now rewrite <- app_assoc. }
        split; [eapply l_link; eauto|]. cbn [visits]. constructor; auto. eauto.
      + exfalso. pose proof (create_entry_dir a Hwf full_builder _ _ _ Hr He) as [_ (f & n0 & Hx)]. now apply Hnd in Hx.
    - destruct (Hb lo) as (r' & Hr' & Hpar); [lia|]. rewrite Hr in Hr'. injection Hr' as <-.
      assert (Hlo : apath a lo (d ++ [r_name r])) by (apply apath_intro; auto; now rewrite Hpar).
      assert (Hb' : brothers a j (lo + 1) hi) by (intros k Hk; apply Hb; lia).
      assert (Hbk := brothers_dir a Hwf _ _ _ _ Hr Hp).
      assert (Hdk : apdir a (lo + 1) (d ++ [r_name r])) by (right; eauto).
      destruct (IHr j d Hb' Hd) as (evs & E1 & E2 & E3).
      destruct (IHk _ _ Hbk Hdk) as (body & K1 & K2 & K3).
      assert (En : node_of_rec r = Some (KDir, meta_of_rec r)) by (unfold node_of_rec; now rewrite Hp).
      assert (Hst : astored a lo (d ++ [r_name r]) (KDir, meta_of_rec r)) by (exists r; auto).
      destruct (create_entry_full a Hwf _ _ _ _ Hr Hlo En) as (e & He & Hsh). rewrite He.
      destruct e as [x|x|rg x]; try (destruct x as [[? ?] ?]; now destruct Hsh) ; try (destruct x; now destruct Hsh).
      assert (Hsx : rg = snd x /\ c_idx (fst x) = lo).
      { destruct x as [c rg']. cbn in Hsh. destruct Hsh as (Hc & -> & _). split; auto. apply Hc. }
      destruct Hsx as [-> Hidx].
      assert (Hvis : forall b1 b2, visits (b1 ++ b2) = visits b1 ++ visits b2).
      { induction b1 as [|[?|?|?|?] b1 IHb]; intros b2; cbn; auto; now rewrite IHb. }
      destruct (keep lo) eqn:Ek.
      + exists (Enter x :: body ++ Exit x :: evs). split.
        { intros c. cbn [andthen recorder on_enter on_exit]. rewrite Hidx, Ek. rewrite K1. cbn [andthen].
          rewrite E1. cbn [app]. f_equal. rewrite <- !app_assoc. reflexivity. }
        split. { eapply l_dir; eauto; try constructor; congruence. }
        cbn [visits]. rewrite Hvis. cbn [visits]. constructor; [cbn; eauto|]. now apply Forall2_app.
      + exists (Enter x :: [] ++ Exit x :: evs). split.
        { intros c. cbn [andthen recorder on_enter on_exit]. rewrite Hidx, Ek. cbn [andthen].
          rewrite E1. cbn [app]. f_equal. rewrite <- !app_assoc. reflexivity. }
        split. { eapply l_dir; eauto; try constructor; congruence. }
        cbn [visits app]. constructor; [cbn; eauto|]. auto.
  Qed.

  Theorem walk_reports : exists evs l,
    run full_builder a (recorder keep) [] = (evs, Ok tt) /\
    listing a keep [] evs /\
    Forall2 (fun e ip => exists nd, astored a (fst ip) (snd ip) nd /\ shows a e (fst ip) (snd ip) nd) (visits evs) l /\
    StronglySorted path_lt (map snd l) /\
    (forall i p, In (i, p) l <-> apath a i p /\ reached a keep [] p).
  Proof.
    destruct (run_forest a Hwf) as (f & Hf & E).
    assert (Hd : apdir a 0 []) by now left.
    destruct (walk_recorded _ _ _ Hf 0 [] (root_brothers a Hwf) Hd) as (evs & E1 & E2 & E3).
    exists evs, (flatk [] f). split.
    { rewrite E. cbn [recorder on_start andthen on_stop]. rewrite E1. reflexivity. }
    split; auto. split; auto. destruct (root_flat a Hwf _ Hf) as [H1 H2]. split.
    - eapply sub_sorted; [apply sub_map, flatk_sub|exact H2].
    - intros i p. rewrite (flatk_in _ _ _ Hf 0 [] (root_brothers a Hwf) Hd), H1. tauto.
  Qed.

  Theorem walk_dir_reports i d nd e : astored a i d nd -> create_entry full_builder a i = Ok e ->
    match e with
    | GDir rg _ => exists evs l,
        run_from_range full_builder a (recorder keep) (walk_fuel a) rg [] = (evs, Ok tt) /\
        listing a keep d evs /\
        Forall2 (fun e ip => exists nd, astored a (fst ip) (snd ip) nd /\ shows a e (fst ip) (snd ip) nd) (visits evs) l /\
        StronglySorted path_lt (map snd l) /\
        (forall k p, In (k, p) l <-> apath a k p /\ (exists x t, p = d ++ x :: t) /\ reached a keep d p)
    | _ => fst nd <> KDir
    end.
  Proof.
    intros (r & Hr & Hp & Hn) He.
    pose proof (create_entry_dir a Hwf full_builder _ _ _ Hr He) as Hdir.
    destruct e as [x|x|rg x].
    1,2: intros Ek; unfold node_of_rec in Hn; destruct (r_payload r) eqn:Ep; try discriminate Hn; injection Hn as <-;
       try discriminate Ek; now apply (Hdir first nb).
    destruct Hdir as [Hrg (first & nb & Hpay)].
    destruct (wf_dir_u32 a Hwf _ _ _ _ Hr Hpay) as [U1 U2].
    assert (rg = (first, nb)) as ->.
    { unfold create_entry in He. rewrite (rec_at_ok _ _ _ Hr) in He. cbn [bind] in He. rewrite Hpay in He.
      destruct (b_dir full_builder i r); try discriminate He. cbn [bind] in He. injection He as <- _. now rewrite U1, U2. }
    destruct Hrg as [Hb _]. cbn [fst snd] in Hb.
    destruct (run_from_range_forest a Hwf (walk_fuel a) first nb Hb) as (f & Hf & E); [unfold walk_fuel; lia|].
    assert (Hdk : apdir a (i + 1) d) by (right; eauto).
    assert (Hbk := brothers_dir a Hwf _ _ _ _ Hr Hpay).
    destruct (walk_recorded _ _ _ Hf _ _ Hbk Hdk) as (evs & E1 & E2 & E3).
    exists evs, (flatk d f). split.
    { rewrite E. cbn [recorder on_start andthen on_stop]. rewrite E1. reflexivity. }
    split; auto. split; auto. destruct (dir_flat a Hwf _ _ _ _ _ _ Hr Hpay Hp Hf) as [H1 H2]. split.
    - eapply sub_sorted; [apply sub_map, flatk_sub|exact H2].
    - intros k p. rewrite (flatk_in _ _ _ Hf _ _ Hbk Hdk), H1. tauto.
  Qed.
End Keep.
