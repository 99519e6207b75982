(** Facts for C93. *)
From Verif Require Export SpecPyHost PythonFacts CreateHostFacts HostProofs.

Section PyHost.
  Context (J : jbk) (fuel : nat) (s : bytes) (dir : path) (n : bytes).

  (** What holds whatever the others do. *)
  Record pinv (x : pyhost) : Prop := {
    pi_given : forall q i, h_names (ph_fs x) q = Some (HFile i) -> i < h_next (ph_fs x);
    pi_temp : forall q i, In (q, i) (ph_temps x) -> h_names (ph_fs x) q = Some (HFile i) /\
      (forall p, h_names (ph_fs x) p = Some (HFile i) -> p = q) /\ exists k, q = dir ++ [k] /\ k <> n;
    pi_stage : match ph_stage x with
               | Closing t d r => (exists dir', t = dir' ++ [n]) /\ py_whole J fuel n (ph_calls x) d
               | Closed _ => ph_temps x = []
               | Working => True
               end }.

  Lemma left_whole h exc st os c st' a : py_run fuel st_fresh h = (st, [], os) -> py_creator st = Some c ->
    py_step fuel st (PyExit exc) = (st', Some a, Ok tt) -> py_whole J fuel n (h ++ [PyExit exc]) (jb_bytes J OneFile n c n).
  Proof.
    intros Hr Hc Hs. destruct (situations h) as [H|[(l & H)|(l & H)]].
    - destruct (fresh_run fuel h H) as (os' & E & _). assert (st = st_fresh) as -> by congruence. cbn in Hs. discriminate Hs.
    - destruct (in_block_run fuel h l H) as (os' & E). assert (st = PythonFacts.st_open (filled fuel l)) as -> by congruence. cbn in Hc. injection Hc as <-.
      exists l, a. split; [exists h, exc, []; auto|]. split; [|reflexivity].
      cbn [py_step py_exit PythonFacts.st_open py_started py_creator] in Hs. destruct (finalize (filled fuel l)) as [a'|]; [|discriminate Hs]. now injection Hs as _ <-.
    - destruct (block_left_run fuel h l H) as (a' & os' & _ & E). congruence.
  Qed.

  Lemma pinv_start f : inodes_given f -> pinv (py_start f).
  Proof. intros H. constructor; cbn; auto. intros q i []. Qed.

  Lemma pinv_others x y : pinv x -> py_others x y -> pinv y.
  Proof.
    intros [H1 H2 H3] O. destruct O as [f ts h g f' (A & _ & B)]. constructor; cbn [ph_fs ph_temps ph_stage ph_calls] in *; auto.
    intros q i H. destruct (A q i H) as (A1 & A2 & A3). destruct (H2 q i H) as (K1 & K2 & K3). split; [congruence|]. split; auto.
  Qed.

  Lemma temp_inode x q q' i : pinv x -> In (q, i) (ph_temps x) -> In (q', i) (ph_temps x) -> q = q'.
  Proof. intros I H H'. destruct (pi_temp _ I q i H) as (_ & K & _). symmetry. apply K, (pi_temp _ I q' i H'). Qed.

  Lemma pinv_own x y : pinv x -> py_own J fuel s dir n x y -> pinv y.
  Proof.
    intros I O. pose proof I as I0. destruct I as [H1 H2 H3].
    destruct O as [f ts h k st os st' r Hr Hs Hw|f ts h exc st os st' a c w t Hr Hc Hs Ht|f ts h g k Hg Hk Hfree|f ts h g q i d Hin|f ts h t d q i Hin Hd Hnd|f ts h g q i Hin|f h t d r|f h|f h k r];
      cbn [ph_fs ph_temps ph_stage ph_calls] in *.
    - constructor; auto.
    - constructor; cbn [ph_fs ph_temps ph_stage ph_calls]; auto. split.
      + destruct Ht as [->|(_ & dir' & _ & ->)]; eauto.
      + eapply left_whole; eauto.
    - constructor; cbn [ph_fs ph_temps ph_stage ph_calls].
      + intros q i. unfold make_temp, touch, set_data, bump, set_name. cbn [h_names h_next]. destruct (path_eqb' q (dir ++ [k])).
        * intros H. injection H as <-. lia.
        * intros H. apply H1 in H. lia.
      + intros q i [H|H].
        * injection H as <- <-. unfold make_temp, touch, set_data, bump, set_name. cbn [h_names]. rewrite path_eqb'_refl. split; [reflexivity|]. split; [|eauto].
          intros p. destruct (path_eqb' p (dir ++ [k])) eqn:E; [intros _; now apply path_eqb'_spec|]. intros H. apply H1 in H. lia.
        * destruct (H2 q i H) as (K1 & K2 & K3). assert (q <> dir ++ [k]) by congruence. unfold make_temp, touch, set_data, bump, set_name. cbn [h_names].
          rewrite path_eqb'_neq by auto. split; auto. split; auto. intros p. destruct (path_eqb' p (dir ++ [k])); [intros E; injection E as <-; apply H1 in K1; lia|apply K2].
      + destruct g as [|t d r|o]; auto. now destruct (Hg o).
    - constructor; auto.
    - constructor; cbn [ph_fs ph_temps ph_stage ph_calls]; auto.
      + intros p j. unfold rename_file, set_name. cbn [h_names h_next]. destruct (path_eqb' p t); [apply H1|]. destruct (path_eqb' p q); [intros E; discriminate E|apply H1].
      + intros p j H. apply in_without in H as [H Hp]. destruct (H2 p j H) as (K1 & K2 & k & -> & Hk). destruct (H2 q i Hin) as (L1 & L2 & _).
        destruct H3 as [[dir' ->] _]. assert (Hpt : dir ++ [k] <> dir' ++ [n]) by (intros E; apply app_inj_tail in E as [_ E]; contradiction).
        assert (Hij : j <> i) by (intros ->; apply Hp; now apply L2).
        unfold rename_file, set_name. cbn [h_names]. rewrite (path_eqb'_neq _ _ Hpt), (path_eqb'_neq _ _ Hp). split; auto. split; [|eauto].
        intros p. destruct (path_eqb' p (dir' ++ [n])); [intros E; congruence|]. destruct (path_eqb' p q); [intros E; discriminate E|apply K2].
    - constructor; cbn [ph_fs ph_temps ph_stage ph_calls].
      + intros p j. unfold set_name. cbn [h_names h_next]. destruct (path_eqb' p q); [intros E; discriminate E|apply H1].
      + intros p j H. apply in_without in H as [H Hp]. destruct (H2 p j H) as (K1 & K2 & K3).
        unfold set_name. cbn [h_names]. rewrite (path_eqb'_neq _ _ Hp). split; auto. split; [|exact K3].
        intros p'. destruct (path_eqb' p' q); [intros E; discriminate E|apply K2].
      + destruct g as [|t d r|o]; auto. rewrite H3 in Hin. destruct Hin.
    - constructor; cbn [ph_fs ph_temps ph_stage ph_calls]; auto.
    - constructor; cbn [ph_fs ph_temps ph_stage ph_calls]; auto.
    - constructor; cbn [ph_fs ph_temps ph_stage ph_calls]; auto.
  Qed.

  Lemma pinv_life f0 x : inodes_given f0 -> py_life J fuel s dir n f0 x -> pinv x.
  Proof. intros H L. induction L as [|x y _ IH O|x y _ IH O]; [now apply pinv_start|eapply pinv_own; eauto|eapply pinv_others; eauto]. Qed.
  Lemma quiet_life f0 x : py_quiet J fuel s dir n f0 x -> py_life J fuel s dir n f0 x.
  Proof. induction 1 as [|x y _ IH O]; [constructor|eapply life_own; eauto]. Qed.

  (** What one step changes. *)
  Lemma own_changes x y p : pinv x -> py_own J fuel s dir n x y ->
    unchanged (ph_fs x) (ph_fs y) p \/
    (exists i k, p = dir ++ [k] /\ k <> n /\ (In (p, i) (ph_temps x) \/ (In (p, i) (ph_temps y) /\ h_names (ph_fs x) p = None))) \/
    (exists dir' d, p = dir' ++ [n] /\ ph_stage x = Closing p d false /\ has_file (ph_fs y) p d).
  Proof.
    intros [H1 H2 H3] O.
    destruct O as [f ts h k st os st' r Hr Hs Hw|f ts h exc st os st' a c w t Hr Hc Hs Ht|f ts h g k Hg Hk Hfree|f ts h g q i d Hin|f ts h t d q i Hin Hd Hnd|f ts h g q i Hin|f h t d r|f h|f h k r];
      cbn [ph_fs ph_temps ph_stage ph_calls] in *; try (left; split; [reflexivity|auto]; fail).
    - destruct (path_eqb' p (dir ++ [k])) eqn:E.
      + apply path_eqb'_spec in E. subst p. right. left. exists (h_next f), k. split; auto. split; auto. right. split; [now left|exact Hfree].
      + left. unfold make_temp, touch, set_data, bump, set_name. split; cbn [h_names h_data h_mtime h_next]; [now rewrite E|].
        intros i H. apply H1 in H. assert (i =? h_next f = false) as -> by (apply N.eqb_neq; lia). auto.
    - destruct (H2 q i Hin) as (K1 & K2 & k & -> & Hk). destruct (list_eq_dec (list_eq_dec N.eq_dec) p (dir ++ [k])) as [->|E].
      + right. left. exists i, k. auto.
      + left. split; [reflexivity|]. intros j Hj. unfold touch, set_data. cbn [h_data h_mtime].
        assert (j =? i = false) as -> by (apply N.eqb_neq; intros ->; apply E; now apply K2). auto.
    - destruct H3 as [[dir' ->] Hw]. destruct (H2 q i Hin) as (K1 & K2 & k & -> & Hk).
      destruct (path_eqb' p (dir' ++ [n])) eqn:E.
      + apply path_eqb'_spec in E. subst p. right. right. exists dir', d. split; auto. split; auto.
        exists i. unfold rename_file, set_name. cbn [h_names h_data]. rewrite path_eqb'_refl. auto.
      + destruct (path_eqb' p (dir ++ [k])) eqn:E'.
        * apply path_eqb'_spec in E'. subst p. right. left. exists i, k. auto.
        * left. unfold rename_file, set_name. split; cbn [h_names h_data h_mtime]; [now rewrite E, E'|auto].
    - destruct (H2 q i Hin) as (K1 & K2 & k & -> & Hk). destruct (path_eqb' p (dir ++ [k])) eqn:E'.
      + apply path_eqb'_spec in E'. subst p. right. left. exists i, k. auto.
      + left. unfold set_name. split; cbn [h_names h_data h_mtime]; [now rewrite E'|auto].
  Qed.

  (** While nobody else changes the host. *)
  Record qinv (f0 : hostfs) (x : pyhost) : Prop := {
    qi_next : h_next f0 <= h_next (ph_fs x);
    qi_old : forall i, i < h_next f0 -> h_data (ph_fs x) i = h_data f0 i /\ h_mtime (ph_fs x) i = h_mtime f0 i;
    qi_temp : forall q i, In (q, i) (ph_temps x) -> h_names f0 q = None /\ h_next f0 <= i;
    qi_rest : exists t, match ph_stage x with
                        | Closing u d r => u = t /\ (r = true -> h_names f0 t <> Some HDir /\ exists i, h_names (ph_fs x) t = Some (HFile i) /\ h_data (ph_fs x) i = d /\ h_next f0 <= i /\ forall q, ~ In (q, i) (ph_temps x))
                        | Closed (Some (Ok tt)) => (exists dir', t = dir' ++ [n]) /\ exists d, has_file (ph_fs x) t d /\ py_whole J fuel n (ph_calls x) d
                        | _ => True
                        end /\
        forall p, (forall i, ~ In (p, i) (ph_temps x)) ->
          (match ph_stage x with Closing _ _ true => p <> t | Closed (Some (Ok tt)) => p <> t | _ => True end) ->
          h_names (ph_fs x) p = h_names f0 p }.

  Lemma whole_more h d k : py_whole J fuel n h d -> py_whole J fuel n (h ++ [k]) d.
  Proof.
    intros (l & a & (h0 & exc & h3 & -> & Hb) & H2 & H3). exists l, a. split; [|auto]. exists h0, exc, (h3 ++ [k]). split; [|exact Hb].
    rewrite <- app_assoc. reflexivity.
  Qed.

  Lemma qinv_own f0 x y : inodes_given f0 -> pinv x -> qinv f0 x -> py_own J fuel s dir n x y -> qinv f0 y.
  Proof.
    intros Hino [P1 P2 P3] [Q1 Q2 Q3 (t0 & Q4 & Q5)] O.
    destruct O as [f ts h k st os st' r Hr Hs Hw|f ts h exc st os st' a c w t Hr Hc Hs Ht|f ts h g k Hg Hk Hfree|f ts h g q i d Hin|f ts h t d q i Hin Hd Hnd|f ts h g q i Hin|f h t d r|f h|f h k r];
      cbn [ph_fs ph_temps ph_stage ph_calls] in *.
    - constructor; cbn [ph_fs ph_temps ph_stage ph_calls]; auto. exists t0. auto.
    - constructor; cbn [ph_fs ph_temps ph_stage ph_calls]; auto. exists t. split; [split; [reflexivity|intros H; discriminate H]|]. intros p Hp _. now apply Q5.
    - assert (Hdk : forall p, path_eqb' p (dir ++ [k]) = false -> h_names (make_temp f (dir ++ [k])) p = h_names f p).
      { intros p E. unfold make_temp, touch, set_data, bump, set_name. cbn [h_names]. now rewrite E. }
      assert (Hdd : forall i, i <> h_next f -> h_data (make_temp f (dir ++ [k])) i = h_data f i /\ h_mtime (make_temp f (dir ++ [k])) i = h_mtime f i).
      { intros i E. unfold make_temp, touch, set_data, bump, set_name. cbn [h_data h_mtime h_next]. apply N.eqb_neq in E. now rewrite E. }
      assert (Hfree0 : h_names f0 (dir ++ [k]) = None).
      { rewrite <- (Q5 (dir ++ [k])); [exact Hfree| |].
        - intros i H. destruct (P2 _ _ H) as (K & _). congruence.
        - destruct g as [|u d [|]|[[[]| | |]|]]; auto.
          + destruct P3 as [[dir' ->] _]. destruct Q4 as [<- _]. intros E. apply app_inj_tail in E as [_ E]. contradiction.
          + now destruct (Hg (Some (Ok tt))). }
      constructor; cbn [ph_fs ph_temps ph_stage ph_calls].
      + unfold make_temp, touch, set_data, bump, set_name. cbn [h_next]. lia.
      + intros i Hi. destruct (Hdd i ltac:(lia)) as [-> ->]. auto.
      + intros q i [H|H]; [injection H as <- <-; split; [exact Hfree0|exact Q1]|auto].
      + exists t0. split.
        * destruct g as [|u d r|o]; auto; [|now destruct (Hg o)]. destruct Q4 as [-> Q4]. split; auto. intros ->. destruct (Q4 eq_refl) as (K0 & i & K1 & K2 & K3 & K4). split; [exact K0|]. exists i.
          pose proof (P1 _ _ K1) as Hlt. destruct P3 as [[dir' ->] _].
          rewrite Hdk by (apply path_eqb'_neq; intros E; apply app_inj_tail in E as [_ E]; congruence). destruct (Hdd i ltac:(lia)) as [-> _].
          split; auto. split; auto. split; auto. intros q [H|H]; [injection H as _ H; lia|now apply (K4 q)].
        * intros p Hp Hst. assert (p <> dir ++ [k]) by (intros ->; apply (Hp (h_next f)); now left). rewrite Hdk by now apply path_eqb'_neq.
          apply Q5; [intros i H'; apply (Hp i); now right|]. destruct g as [|u d [|]|[[[]| | |]|]]; auto.
    - assert (Hdd : forall j, j <> i -> h_data (touch (set_data f i d) i) j = h_data f j /\ h_mtime (touch (set_data f i d) i) j = h_mtime f j).
      { intros j E. unfold touch, set_data. cbn [h_data h_mtime]. apply N.eqb_neq in E. now rewrite E. }
      destruct (Q3 q i Hin) as [_ Hi]. constructor; cbn [ph_fs ph_temps ph_stage ph_calls]; auto.
      + intros j Hj. destruct (Hdd j ltac:(lia)) as [-> ->]. auto.
      + exists t0. split; [|exact Q5]. destruct g as [|u d' r|[[[]| | |]|]]; auto.
        * destruct Q4 as [-> Q4]. split; auto. intros ->. destruct (Q4 eq_refl) as (K0 & j & K1 & K2 & K3 & K4). split; [exact K0|]. exists j. split; auto.
          split; [|auto]. destruct (Hdd j) as [-> _]; [|exact K2]. intros ->. now apply (K4 q).
        * rewrite P3 in Hin. destruct Hin.
    - destruct Q4 as [<- _]. destruct P3 as [[dir' ->] Hwh]. destruct (P2 q i Hin) as (K1 & K2 & k & -> & Hk).
      assert (Hne : dir ++ [k] <> dir' ++ [n]) by (intros E; apply app_inj_tail in E as [_ E]; contradiction).
      constructor; cbn [ph_fs ph_temps ph_stage ph_calls]; auto.
      + intros p j H. apply in_without in H as [H _]. eauto.
      + exists (dir' ++ [n]). split.
        * split; auto. intros _. split.
          { rewrite <- (Q5 (dir' ++ [n])); [exact Hnd| |exact Logic.I]. intros j H. destruct (P2 _ _ H) as (_ & _ & k' & E & Hk'). apply app_inj_tail in E as [_ E]. congruence. }
          exists i. unfold rename_file, set_name. cbn [h_names h_data]. rewrite path_eqb'_refl. split; auto. split; auto. split; [now apply (Q3 _ _ Hin)|].
          intros p H. apply in_without in H as [H Hp]. apply Hp. now apply K2, (P2 p i H).
        * intros p Hp Hpt. unfold rename_file, set_name. cbn [h_names]. rewrite (path_eqb'_neq _ _ Hpt). destruct (path_eqb' p (dir ++ [k])) eqn:E.
          { apply path_eqb'_spec in E. subst p. symmetry. apply (Q3 _ _ Hin). }
          apply Q5; auto. intros j Hj. apply (Hp j). apply in_without. split; auto. intros ->. rewrite path_eqb'_refl in E. discriminate E.
    - destruct (P2 q i Hin) as (K1 & K2 & k & -> & Hk).
      constructor; cbn [ph_fs ph_temps ph_stage ph_calls]; auto.
      + intros p j H. apply in_without in H as [H _]. eauto.
      + exists t0. split.
        * destruct g as [|u d' r|[[[]| | |]|]]; auto.
          { destruct Q4 as [-> Q4]. split; auto. intros ->. destruct (Q4 eq_refl) as (K0 & j & L1 & L2 & L3 & L4). split; [exact K0|]. exists j. unfold set_name. cbn [h_names h_data].
            destruct P3 as [[dir' ->] _]. rewrite path_eqb'_neq by (intros E; apply app_inj_tail in E as [_ E]; congruence). split; auto. split; auto. split; auto.
            intros p H. apply in_without in H as [H _]. now apply (L4 p). }
          { rewrite P3 in Hin. destruct Hin. }
        * intros p Hp Hpt. unfold set_name. cbn [h_names]. destruct (path_eqb' p (dir ++ [k])) eqn:E.
          { apply path_eqb'_spec in E. subst p. symmetry. apply (Q3 _ _ Hin). }
          apply Q5; auto. intros j Hj. apply (Hp j). apply in_without. split; auto. intros ->. rewrite path_eqb'_refl in E. discriminate E.
    - destruct Q4 as [<- Q4]. constructor; cbn [ph_fs ph_temps ph_stage ph_calls]; auto. exists t. destruct r.
      + split; [|exact Q5]. destruct P3 as [Pt Hwh]. split; [exact Pt|]. destruct (Q4 eq_refl) as (_ & i & L1 & L2 & _). exists d. split; [exists i; auto|exact Hwh].
      + split; [exact Logic.I|exact Q5].
    - constructor; cbn [ph_fs ph_temps ph_stage ph_calls]; auto. exists t0. split; [exact Logic.I|exact Q5].
    - constructor; cbn [ph_fs ph_temps ph_stage ph_calls]; auto. exists t0. split; [|exact Q5]. destruct r as [[]| | |]; auto.
      destruct Q4 as (Qt & d & L1 & L2). split; [exact Qt|]. exists d. split; [exact L1|now apply whole_more].
  Qed.

  Lemma qinv_quiet f0 x : inodes_given f0 -> py_quiet J fuel s dir n f0 x -> qinv f0 x.
  Proof.
    intros H L. induction L as [|x y L IH O].
    - constructor; cbn; auto; [lia|intros q i []|]. exists []. split; auto.
    - eapply qinv_own; eauto. eapply pinv_life; eauto. now apply quiet_life.
  Qed.
End PyHost.
