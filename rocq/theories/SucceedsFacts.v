(** When a sequence of paths is accepted. *)
From Verif Require Export SpecSucceeds ClashFacts.

Local Ltac bad := let H := fresh in intros H; discriminate H.

Lemma is_prefix_iff : forall q p, is_prefix q p = true <-> exists r, p = q ++ r.
Proof.
  induction q as [|x q IH]; intros p; cbn [is_prefix app]; [split; eauto|]. destruct p as [|y p]; [split; [bad|intros [r H]; discriminate H]|].
  destruct (list_eq_dec N.eq_dec x y) as [->|Hne].
  - rewrite IH. split; intros [r H]; exists r; [now rewrite H|now injection H].
  - split; [bad|]. intros [r H]. injection H as H _. congruence.
Qed.

Definition is_kdir (k : kind) : bool := match k with KDir => true | _ => false end.

Section Seq.
  Variables (w : world) (pre : bytes).

  (** The map after the paths of [S]. *)
  Record inv (S : list (bytes * bool)) (m : pmap) : Prop := {
    in_root : m [] = None;
    in_here : forall s f p, In (s, f) S -> stands_for s (pieces pre ++ p) -> p <> [] -> archivable w f s ->
      exists nd, m p = Some nd /\ (plain w f s <-> is_dir_node nd = false);
    in_above : forall s f p t, In (s, f) S -> stands_for s (pieces pre ++ p ++ t) -> p <> [] -> t <> [] -> exists nd, m p = Some nd /\ is_dir_node nd = true;
    in_from : forall p nd, m p = Some nd ->
      (exists s f, In (s, f) S /\ stands_for s (pieces pre ++ p) /\ archivable w f s /\ (plain w f s <-> is_dir_node nd = false)) \/
      (is_dir_node nd = true /\ exists s f t, In (s, f) S /\ t <> [] /\ stands_for s (pieces pre ++ p ++ t)) }.

  (** One step of the map. *)
  Lemma step m e d x k : closed m -> dir_of (e_path e) = d -> e_kind e = Ok k ->
    ((x <> b ".." -> last_of (e_path e) = Some x) /\ (x = b ".." -> last_of (e_path e) = None)) ->
    let (m', o) := spec_add_entry m e in
    (o = Ok tt <-> blocked m d = false /\ forall k0, k = Some k0 -> x <> b ".." /\ forall old, m (d ++ [x]) = Some old -> is_kdir k0 = true /\ is_dir_node old = true) /\
    (o = Ok tt ->
      (forall q nd, m q = Some nd -> m' q = Some nd) /\
      (forall q, q <> [] -> (exists r, d = q ++ r) -> exists nd, m' q = Some nd /\ is_dir_node nd = true) /\
      (forall k0, k = Some k0 -> exists nd, m' (d ++ [x]) = Some nd /\ is_dir_node nd = is_kdir k0) /\
      (forall q nd, m' q = Some nd -> m q = Some nd \/ (q = d ++ [x] /\ exists k0, k = Some k0 /\ is_dir_node nd = is_kdir k0) \/
         (q <> [] /\ (exists r, d = q ++ r) /\ is_dir_node nd = true))).
  Proof.
    intros Hcl Hd Hk [Hx1 Hx2]. unfold spec_add_entry, spec_add. rewrite Hd, Hk. destruct (blocked m d) eqn:Eb.
    { split; [split; [bad|intros [H _]; discriminate H]|bad]. }
    assert (Hdirs : forall q, q <> [] -> (exists r, d = q ++ r) -> exists nd, with_dirs m d q = Some nd /\ is_dir_node nd = true).
    { intros q Hq Hr. apply is_prefix_iff in Hr. unfold with_dirs. destruct (m q) as [nd|] eqn:Eq.
      - exists nd. split; [reflexivity|]. rewrite blocked_false in Eb. eapply Eb; eauto.
      - destruct q as [|y q]; [now destruct Hq|]. rewrite Hr. exists implicit_dir. split; reflexivity. }
    assert (Hfrom : forall q nd, with_dirs m d q = Some nd -> m q = Some nd \/ (q <> [] /\ (exists r, d = q ++ r) /\ is_dir_node nd = true)).
    { intros q nd. unfold with_dirs. destruct (m q) as [nd0|] eqn:Eq; [auto|]. destruct q as [|y q]; [bad|]. destruct (is_prefix (y :: q) d) eqn:Ep; [|bad].
      intros H. injection H as <-. right. split; [discriminate|]. split; [now apply is_prefix_iff|reflexivity]. }
    assert (Hkeep : forall q nd, m q = Some nd -> with_dirs m d q = Some nd) by (intros q nd H; unfold with_dirs; now rewrite H).
    destruct k as [k0|].
    2:{ split; [split; [intros _; split; [reflexivity|intros k0 H; discriminate H]|reflexivity]|]. intros _.
        split; [exact Hkeep|]. split; [exact Hdirs|]. split; [intros k0 H; discriminate H|]. intros q nd H. destruct (Hfrom q nd H); auto. }
    destruct (bytes_eqb_spec x (b "..")) as [Ex|Ex].
    { rewrite (Hx2 Ex). split; [split; [bad|]|bad]. intros [_ H]. destruct (H k0 eq_refl) as [H0 _]. contradiction. }
    rewrite (Hx1 Ex). destruct (m (d ++ [x])) as [old|] eqn:Eo.
    - destruct k0 as [|z a|t]; [|split; [split; [bad|]|bad]; intros [_ H]; destruct (H _ eq_refl) as [_ H1]; destruct (H1 old eq_refl) as [H2 _]; discriminate H2..].
      destruct (is_dir_node old) eqn:Ed.
      + split; [split; [|reflexivity]|].
        * intros _. split; [reflexivity|]. intros k0 H. injection H as <-. split; [exact Ex|]. intros o H. injection H as <-. split; [reflexivity|exact Ed].
        * intros _. split; [auto|]. split; [|split].
          -- intros q Hq Hr. apply is_prefix_iff in Hr. destruct (Hcl d x) with (q := q) as [mt Hm]; [congruence|exact Hq|exact Hr|]. exists (KDir, mt). split; [exact Hm|reflexivity].
          -- intros k0 H. injection H as <-. exists old. split; [exact Eo|exact Ed].
          -- intros q nd H. now left.
      + split; [split; [bad|]|bad]. intros [_ H]. destruct (H _ eq_refl) as [_ H1]. destruct (H1 old eq_refl) as [_ H2]. congruence.
    - split; [split; [|reflexivity]|].
      + intros _. split; [reflexivity|]. intros k1 _. split; [exact Ex|]. intros o H. discriminate H.
      + intros _. unfold update. split; [|split; [|split]].
        * intros q nd H. destruct (path_beq_spec q (d ++ [x])) as [->|_]; [congruence|]. now apply Hkeep.
        * intros q Hq Hr. destruct (path_beq_spec q (d ++ [x])) as [->|_]; [|now apply Hdirs].
          exfalso. destruct Hr as [r Hr]. apply (f_equal (@length _)) in Hr. rewrite !app_length in Hr. cbn in Hr. lia.
        * intros k1 H. injection H as <-. destruct (path_beq_spec (d ++ [x]) (d ++ [x])) as [_|H]; [|now destruct H]. eexists. split; [reflexivity|]. destruct k0; reflexivity.
        * intros q nd. destruct (path_beq_spec q (d ++ [x])) as [->|_].
          -- intros H. injection H as <-. right. left. split; [reflexivity|]. exists k0. split; [reflexivity|]. destruct k0; reflexivity.
          -- intros H. destruct (Hfrom q nd H); auto.
  Qed.

  Notation apart s f s0 f0 := (~ blocks w pre s0 f0 s f /\ ~ blocks w pre s f s0 f0).

  Lemma plain_archivable f s : plain w f s -> archivable w f s.
  Proof. intros (q & n & H1 & _ & H2). exists q, n. auto. Qed.

  (** The prefix itself is skipped. *)
  Lemma skip_inv S m s f : inv S m -> stands_for s (pieces pre) -> inv (S ++ [(s, f)]) m.
  Proof.
    intros [H0 H1 H2 H3] Hst. split; [exact H0| | |].
    - intros s' f' p Hin Hs Hp Har. apply in_app_iff in Hin as [Hin|[Hin|[]]]; [now apply (H1 s' f')|]. injection Hin as <- <-.
      exfalso. apply Hp. pose proof (stands_inj s _ _ Hst Hs) as E. apply (f_equal (@length _)) in E. rewrite app_length in E. destruct p; [reflexivity|]. cbn in E. lia.
    - intros s' f' p t Hin Hs Hp Ht. apply in_app_iff in Hin as [Hin|[Hin|[]]]; [now apply (H2 s' f' p t)|]. injection Hin as <- <-.
      exfalso. apply Hp. pose proof (stands_inj s _ _ Hst Hs) as E. apply (f_equal (@length _)) in E. rewrite !app_length in E. destruct p; [reflexivity|]. cbn in E. lia.
    - intros p nd Hm. destruct (H3 p nd Hm) as [(s' & f' & A & B)|(A & s' & f' & t & B & C)].
      + left. exists s', f'. split; [apply in_app_iff; now left|exact B].
      + right. split; [exact A|]. exists s', f', t. split; [apply in_app_iff; now left|exact C].
  Qed.
  Lemma prefix_apart s f s0 f0 : stands_for s (pieces pre) -> apart s f s0 f0.
  Proof.
    intros Hst. split; intros (_ & p & r & Hp & H1 & H2 & _).
    - pose proof (stands_inj s _ _ Hst H2) as E. apply (f_equal (@length _)) in E. rewrite !app_length in E. destruct p; [now destruct Hp|]. cbn in E. lia.
    - pose proof (stands_inj s _ _ Hst H1) as E. apply (f_equal (@length _)) in E. rewrite !app_length in E. destruct p; [now destruct Hp|]. cbn in E. lia.
  Qed.

  Lemma one_path_iff S m c s f c' r : cinv (cr_entries c) -> represents (cr_entries c) m -> inv S m ->
    add_entry_from_path w pre s f c = (c', r) ->
    (r = Ok tt <-> fit w pre s f /\ forall s0 f0, In (s0, f0) S -> apart s f s0 f0) /\
    (r = Ok tt -> exists m', cinv (cr_entries c') /\ represents (cr_entries c') m' /\ inv (S ++ [(s, f)]) m').
  Proof.
    intros Hci Hre Hinv Hadd. pose proof Hadd as Hadd0. unfold add_entry_from_path in Hadd.
    destruct (is_abs s) eqn:Ha.
    { rewrite from_path_abs in Hadd by auto. injection Hadd as <- <-. split; [split; [bad|]|bad]. intros [(p & [Hs _] & _) _]. congruence. }
    destruct (forallb utf8 (filter not_dot (pieces s))) eqn:Hu.
    2:{ rewrite from_path_bad in Hadd by auto. injection Hadd as <- <-. split; [split; [bad|]|bad]. intros [(p & [_ Hs] & Hf & _) _].
        assert (forallb utf8 (filter not_dot (pieces s)) = true); [|congruence]. rewrite Hs. apply forallb_forall. now apply Forall_forall. }
    assert (Hutf : Forall (fun n => utf8 n = true) (filter not_dot (pieces s))) by (apply Forall_forall, forallb_forall; exact Hu).
    assert (Hfp : exists x, from_path s = Ok x /\ pieces x = filter not_dot (pieces s)).
    { destruct s as [|c0 s0] eqn:Es; [exists []; split; reflexivity|]. rewrite <- Es in *. assert (Hs : s <> []) by (now rewrite Es).
      destruct (from_path_ok s Hs Ha Hu) as [H1 H2]. eauto. }
    destruct Hfp as (x & Hx & Hpx). rewrite Hx in Hadd. pose proof (strip_prefix_pieces x pre) as Hsp. rewrite Hpx in Hsp.
    destruct (strip_prefix x pre) as [ap|] eqn:Eap.
    2:{ injection Hadd as <- <-. split; [split; [bad|]|bad]. intros [(p & [_ Hs] & _) _]. rewrite Hs in Hsp. exfalso. now apply (Hsp p). }
    assert (Hst : stands_for s (pieces pre ++ pieces ap)) by (split; auto).
    assert (Hq : pieces ap = [] -> nonempty ap = false).
    { intros E. destruct (list_eq_dec N.eq_dec s []) as [->|Hs].
      - cbn in Hx. injection Hx as <-. unfold strip_prefix in Eap. destruct (components pre); cbn in Eap; [|discriminate Eap]. injection Eap as <-. reflexivity.
      - destruct (one_path s pre (pieces ap) Hs Ha Hu (proj2 Hst)) as (x' & a' & P1 & P2 & P3 & P4). assert (x' = x) by congruence. subst x'. assert (a' = ap) by congruence. subst a'. now rewrite (P4 E). }
    destruct (list_eq_dec (list_eq_dec N.eq_dec) (pieces ap) []) as [Hp|Hp].
    { rewrite (Hq Hp) in Hadd. injection Hadd as <- <-. rewrite Hp, app_nil_r in Hst. split.
      - split; [|reflexivity]. intros _. split; [|intros s0 f0 _; now apply prefix_apart].
        exists []. rewrite app_nil_r. split; [exact Hst|]. split; [rewrite <- (proj2 Hst); exact Hutf|]. intros H. now destruct H.
      - intros _. exists m. split; [exact Hci|]. split; [exact Hre|]. now apply skip_inv. }
    assert (Hna : nonempty ap = true) by (destruct ap; [now destruct Hp|reflexivity]). rewrite Hna in Hadd.
    set (p := pieces ap) in *. clearbody p.
    assert (Hfit : fit w pre s f -> exists q n, look_str w f s = At q n /\
       ((exists i, n = HFile i /\ at_special (w_attr w q) = true) \/
        ((forall i, n = HFile i -> at_special (w_attr w q) = false /\ at_readable (w_attr w q) = true) /\ forall d, p <> d ++ [b ".."]))).
    { intros (p' & H1 & _ & H2). assert (p' = p) as -> by (apply (app_inv_head (pieces pre)); now apply (stands_inj s)). now apply H2. }
    assert (Hno : r <> Ok tt -> (fit w pre s f -> False) -> (r = Ok tt <-> fit w pre s f /\ forall s0 f0, In (s0, f0) S -> apart s f s0 f0) /\
      (r = Ok tt -> exists m', cinv (cr_entries c') /\ represents (cr_entries c') m' /\ inv (S ++ [(s, f)]) m')).
    { intros H1 H2. split; [split; [intros H; contradiction|intros [H _]; now destruct (H2 H)]|intros H; contradiction]. }
    destruct (look_str w f s) as [q n|q|e0] eqn:El.
    2,3: (apply Hno; [|intros H; destruct (Hfit H) as (q' & n & H1 & _); discriminate H1];
          unfold new_from_path in Hadd; destruct (detect_kind w s f) as [[k q']| | |] eqn:Ed; cbn [bind] in Hadd;
          [destruct (detected _ _ _ _ _ Ed) as (n & H1 & _); rewrite El in H1; discriminate H1|injection Hadd as <- <-; discriminate..]).
    assert (Hs : s <> []) by (intros ->; discriminate El).
    assert (Hrd : (exists i, n = HFile i /\ at_special (w_attr w q) = false /\ at_readable (w_attr w q) = false) \/
                  (forall i, n = HFile i -> at_special (w_attr w q) = false -> at_readable (w_attr w q) = true)).
    { destruct n as [|i|t mt]; [right; intros i H; discriminate H| |right; intros i H; discriminate H]. destruct (at_special (w_attr w q)) eqn:E1; [right; intros i' _ H; discriminate H|]. destruct (at_readable (w_attr w q)) eqn:E2; [right; auto|left; exists i; auto]. }
    destruct Hrd as [(i & -> & Hs0 & Hr0)|Hread].
    { apply Hno.
      - unfold new_from_path in Hadd. rewrite (detect_look w s pre p Hs Ha Hu (proj2 Hst) f q (HFile i) El) in Hadd. cbn [bind kind_at] in Hadd. rewrite Hs0, Hr0 in Hadd. injection Hadd as <- <-. discriminate.
      - intros H. destruct (Hfit H) as (q' & n & H1 & [(i' & H2 & H3)|[H2 _]]); injection H1 as <- <-; [congruence|]. destruct (H2 i eq_refl). congruence. }
    clear Hno Hadd Hq Hna Hsp Eap. destruct (AddSession.one_entry w s pre p Hs Ha Hu (proj2 Hst) f q n c Hp El Hread) as (e & ext & E & Ep & Hk).
    rewrite E in Hadd0. clear E.
    pose proof (dotless_filter s _ _ (proj2 Hst)) as Hdot.
    destruct (rev p) as [|x0 d'] eqn:Erev. { exfalso. apply Hp. rewrite <- (rev_involutive p), Erev. reflexivity. }
    assert (Epd : p = rev d' ++ [x0]) by (rewrite <- (rev_involutive p), Erev; reflexivity). set (d := rev d') in *. clearbody d. clear Erev d'. rewrite Epd in Ep.
    destruct (dotless_split (e_path e) d x0 Ep) as [Hd Hlast]; [now rewrite <- Epd|].
    assert (Hlast2 : x0 = b ".." -> last_of (e_path e) = None).
    { intros ->. unfold last_of. rewrite Ep, drop_dots_dotless, rev_app_distr by (now rewrite <- Epd). reflexivity. }
    assert (Hkk : exists k, e_kind e = Ok k /\ match k with
        | None => exists i, n = HFile i /\ at_special (w_attr w q) = true
        | Some k0 => (forall i, n = HFile i -> at_special (w_attr w q) = false) /\ (is_kdir k0 = true <-> n = HDir) end).
    { destruct Hk as [(Hk & _ & Hi)|(k & Hk & Hm & Hi)]; [exists None; auto|]. exists (Some k). split; [exact Hk|]. split; [exact Hi|].
      destruct Hm as (_ & _ & _ & _ & Hm). cbn [fst] in Hm. destruct n as [|i|t mt]; [subst k; tauto|destruct Hm as (a & -> & _); split; bad|subst k; split; bad]. }
    destruct Hkk as (k & Hke & Hkn). clear Hk.
    pose proof (step m e d x0 k (represents_closed _ _ Hci Hre) Hd Hke (conj Hlast Hlast2)) as Hstep.
    pose proof (add_entry_sim (cr_entries c) m e Hci Hre) as Hsim. destruct (add_entry (cr_entries c) e) as [st o]. destruct (spec_add_entry m e) as [m' o'].
    destruct Hsim as (Hci' & Hre' & <-). injection Hadd0 as <- <-. cbn [cr_entries]. destruct Hstep as [Hiff Hok]. rewrite <- Epd in *.
    assert (Har : k <> None <-> archivable w f s).
    { split.
      - intros Hk. destruct k as [k0|]; [|now destruct Hk]. exists q, n. split; [exact El|apply Hkn].
      - intros (q' & n' & H1 & H2) ->. rewrite El in H1. injection H1 as <- <-. destruct Hkn as (i & -> & H3). rewrite (H2 i eq_refl) in H3. discriminate H3. }
    assert (Hpl : plain w f s <-> exists k0, k = Some k0 /\ is_kdir k0 = false).
    { split.
      - intros Hpl. pose proof Hpl as (q' & n' & H1 & H2 & _). rewrite El in H1. injection H1 as <- <-.
        destruct k as [k0|]; [|exfalso; apply (proj2 Har (plain_archivable _ _ Hpl)); reflexivity]. exists k0. split; [reflexivity|].
        destruct (is_kdir k0) eqn:Ek; [|reflexivity]. exfalso. apply H2. now apply Hkn.
      - intros (k0 & -> & Hk0). exists q, n. split; [exact El|]. split; [|apply Hkn]. intros ->. assert (is_kdir k0 = true) by (now apply Hkn). congruence. }
    destruct Hinv as [I0 I1 I2 I3].
    split.
    - rewrite Hiff. split.
      + intros [Hb Hk0]. split.
        * exists p. split; [exact Hst|]. split; [rewrite <- (proj2 Hst); exact Hutf|]. intros _. exists q, n. split; [exact El|].
          destruct k as [k0|]; [right|left; exact Hkn]. destruct (Hk0 k0 eq_refl) as [Hx0 _]. split.
          -- intros i Hi. pose proof (proj1 Hkn i Hi) as G. split; [exact G|]. now apply (Hread i).
          -- intros d0 H0. rewrite Epd in H0. apply app_inj_tail in H0 as [_ H0]. contradiction.
        * rewrite blocked_false in Hb. intros s0 f0 Hin. split; intros (Hpl0 & p0 & r0 & Hp0 & Hs0 & Hs1 & Har0).
          -- assert (p = p0 ++ r0) as Ep0 by (apply (app_inv_head (pieces pre)); now apply (stands_inj s)).
             destruct (I1 s0 f0 p0 Hin Hs0 Hp0 (plain_archivable _ _ Hpl0)) as (nd & Hm & Hnd). apply Hnd in Hpl0.
             destruct (list_eq_dec (list_eq_dec N.eq_dec) r0 []) as [-> |Hr0].
             ++ rewrite app_nil_r in Ep0. subst p0. destruct k as [k0|]; [|now apply (proj2 Har (Har0 eq_refl))]. destruct (Hk0 k0 eq_refl) as [_ H1]. destruct (H1 nd Hm). congruence.
             ++ destruct (exists_last Hr0) as (r1 & y & ->). rewrite Epd, app_assoc in Ep0. apply app_inj_tail in Ep0 as [Ed _].
                assert (is_dir_node nd = true); [|congruence]. apply (Hb p0 nd Hp0); [apply is_prefix_iff; eauto|exact Hm].
          -- assert (p0 = p) as -> by (apply (app_inv_head (pieces pre)); now apply (stands_inj s)).
             apply Hpl in Hpl0 as (k0 & -> & Hkd). destruct (Hk0 k0 eq_refl) as [_ H1].
             destruct (list_eq_dec (list_eq_dec N.eq_dec) r0 []) as [-> |Hr0].
             ++ rewrite app_nil_r in Hs1. destruct (I1 s0 f0 p Hin Hs1 Hp0 (Har0 eq_refl)) as (nd & Hm & _). destruct (H1 nd Hm). congruence.
             ++ destruct (I2 s0 f0 p r0 Hin Hs1 Hp0 Hr0) as (nd & Hm & _). destruct (H1 nd Hm). congruence.
      + intros [Hf Hap]. split.
        * destruct (blocked m d) eqn:Eb; [|reflexivity]. exfalso. apply blocked_true in Eb as (q0 & nd & Hq0 & Hpre & Hm & Hnd). apply is_prefix_iff in Hpre as [r0 Hr0].
          destruct (I3 q0 nd Hm) as [(s0 & f0 & J1 & J2 & J3 & J4)|[J1 _]]; [|congruence]. apply J4 in Hnd. destruct (Hap s0 f0 J1) as [Hap1 _]. apply Hap1.
          split; [exact Hnd|]. exists q0, (r0 ++ [x0]). split; [exact Hq0|]. split; [exact J2|]. split; [|intros H0; apply app_eq_nil in H0 as [_ H0]; discriminate H0].
          rewrite (app_assoc q0), <- Hr0, <- Epd. exact Hst.
        * intros k0 ->. split.
          -- intros ->. destruct (Hfit Hf) as (q' & n' & H1 & [(i & -> & H2)|[_ H2]]); [injection H1 as <- ->; rewrite (proj1 Hkn i eq_refl) in H2; discriminate H2|]. now apply (H2 d).
          -- intros old Hold. destruct (is_dir_node old) eqn:Eo.
             ++ split; [|reflexivity]. destruct (is_kdir k0) eqn:Ek; [reflexivity|exfalso]. assert (Hpl1 : plain w f s) by (apply Hpl; eauto).
                destruct (I3 p old Hold) as [(s0 & f0 & J1 & J2 & J3 & _)|(_ & s0 & f0 & t & J1 & J2 & J3)]; destruct (Hap s0 f0 J1) as [_ Hap2]; apply Hap2; (split; [exact Hpl1|]).
                ** exists p, []. rewrite app_nil_r. auto.
                ** exists p, t. split; [exact Hp|]. split; [exact Hst|]. split; [exact J3|]. intros H0. contradiction.
             ++ exfalso. destruct (I3 p old Hold) as [(s0 & f0 & J1 & J2 & J3 & J4)|[J1 _]]; [|congruence]. destruct (Hap s0 f0 J1) as [Hap1 _]. apply Hap1.
                split; [now apply J4|]. exists p, []. rewrite app_nil_r. split; [exact Hp|]. split; [exact J2|]. split; [exact Hst|]. intros _. apply Har. discriminate.
    - intros Hot. destruct (proj1 Hiff Hot) as [Hb Hk0]. destruct (Hok Hot) as (M1 & M2 & M3 & M4). exists m'. split; [exact Hci'|]. split; [exact Hre'|].
      split.
      + destruct (m' []) as [nd|] eqn:E0; [|reflexivity]. exfalso. destruct (M4 [] nd E0) as [H0|[[H0 _]|[H0 _]]]; [congruence|rewrite Epd in H0; destruct d; discriminate H0|now destruct H0].
      + intros s0 f0 p0 Hin Hs0 Hp0 Har0. apply in_app_iff in Hin as [Hin|[Hin|[]]].
        * destruct (I1 s0 f0 p0 Hin Hs0 Hp0 Har0) as (nd & Hm & Hnd). exists nd. auto.
        * injection Hin as <- <-. assert (p0 = p) as -> by (apply (app_inv_head (pieces pre)); now apply (stands_inj s)).
          destruct k as [k0|]; [|exfalso; now apply (proj2 Har Har0)]. destruct (M3 k0 eq_refl) as (nd & Hm & Hnd). exists nd. split; [exact Hm|]. rewrite Hpl, Hnd. split; [intros (k1 & H1 & H2); congruence|intros H; eauto].
      + intros s0 f0 p0 t Hin Hs0 Hp0 Ht. apply in_app_iff in Hin as [Hin|[Hin|[]]].
        * destruct (I2 s0 f0 p0 t Hin Hs0 Hp0 Ht) as (nd & Hm & Hnd). exists nd. auto.
        * injection Hin as <- <-. assert (p = p0 ++ t) as Ept by (apply (app_inv_head (pieces pre)); now apply (stands_inj s)).
          destruct (exists_last Ht) as (r1 & y & ->). rewrite Epd, app_assoc in Ept. apply app_inj_tail in Ept as [Ed _]. apply M2; eauto.
      + intros p0 nd H0. destruct (M4 p0 nd H0) as [H1|[(-> & k0 & -> & Hnd)|(Hp0 & (r0 & Hr0) & Hnd)]].
        * destruct (I3 p0 nd H1) as [(s' & f' & A & B)|(A & s' & f' & t & B & C)].
          -- left. exists s', f'. split; [apply in_app_iff; now left|exact B].
          -- right. split; [exact A|]. exists s', f', t. split; [apply in_app_iff; now left|exact C].
        * left. exists s, f. split; [apply in_app_iff; right; now left|]. split; [exact Hst|]. split; [apply Har; discriminate|].
          rewrite Hpl, Hnd. split; [intros (k1 & H2 & H3); congruence|intros H; eauto].
        * right. split; [exact Hnd|]. exists s, f, (r0 ++ [x0]). split; [apply in_app_iff; right; now left|]. split; [now destruct r0|].
          rewrite (app_assoc p0), <- Hr0, <- Epd. exact Hst.
  Qed.
End Seq.

(** ** A sequence of paths *)
Section Each.
  Variables (w : world) (pre : bytes).
  Notation apart s f s0 f0 := (~ blocks w pre s0 f0 s f /\ ~ blocks w pre s f s0 f0).
  Definition clear (x y : bytes * bool) : Prop := ~ blocks w pre (fst x) (snd x) (fst y) (snd y) /\ ~ blocks w pre (fst y) (snd y) (fst x) (snd x).

  Lemma each_iff l0 : forall S m c c' r, cinv (cr_entries c) -> represents (cr_entries c) m -> inv w pre S m -> add_each w pre l0 c = (c', r) ->
    (r = Ok tt <-> Forall (fun x => fit w pre (fst x) (snd x)) l0 /\ (forall x y, In x S -> In y l0 -> clear x y) /\ ForallOrdPairs clear l0).
  Proof.
    induction l0 as [|[s f] l0 IH]; intros S m c c' r Hci Hre Hi; cbn [add_each].
    - intros H. injection H as <- <-. split; [|reflexivity]. intros _. split; [constructor|]. split; [intros x y _ []|constructor].
    - destruct (add_entry_from_path w pre s f c) as [c1 r1] eqn:E. destruct (one_path_iff w pre S m c s f c1 r1 Hci Hre Hi E) as [Hiff Hnext].
      assert (Hfail : r1 <> Ok tt -> ~ (Forall (fun x => fit w pre (fst x) (snd x)) ((s, f) :: l0) /\ (forall x y, In x S -> In y ((s, f) :: l0) -> clear x y) /\ ForallOrdPairs clear ((s, f) :: l0))).
      { intros Hr (H1 & H2 & _). apply Hr, Hiff. split; [exact (Forall_inv H1)|]. intros s0 f0 H0. destruct (H2 (s0, f0) (s, f) H0 (or_introl eq_refl)) as [G1 G2]. cbn [fst snd] in *. auto. }
      destruct r1 as [[]|e| |].
      + destruct (Hnext eq_refl) as (m' & H1 & H2 & H3). destruct (proj1 Hiff eq_refl) as [Hf Hap]. intros H. rewrite (IH _ m' c1 c' r H1 H2 H3 H). split.
        * intros (A & B & C). split; [constructor; [exact Hf|exact A]|]. split.
          -- intros [s0 f0] y Hx [<-|Hy]; [destruct (Hap s0 f0 Hx); split; assumption|]. apply B; [apply in_app_iff; now left|exact Hy].
          -- constructor; [|exact C]. apply Forall_forall. intros y Hy. apply B; [apply in_app_iff; right; now left|exact Hy].
        * intros (A & B & C). split; [exact (Forall_inv_tail A)|]. inversion C as [|? ? C1 C2]; subst. split; [|exact C2].
          intros x y Hx Hy. apply in_app_iff in Hx as [Hx|[<-|[]]]; [apply B; [exact Hx|now right]|]. rewrite Forall_forall in C1. now apply C1.
      + intros H. injection H as <- <-. split; [bad|]. intros G. exfalso. revert G. apply Hfail. discriminate.
      + intros H. injection H as <- <-. split; [bad|]. intros G. exfalso. revert G. apply Hfail. discriminate.
      + intros H. injection H as <- <-. split; [bad|]. intros G. exfalso. revert G. apply Hfail. discriminate.
  Qed.

  Lemma inv_empty : inv w pre [] empty_map.
  Proof. split; [reflexivity|intros s f p []|intros s f p t []|intros p nd H; discriminate H]. Qed.

  Lemma all_iff l0 c' r : add_each w pre l0 creator_empty = (c', r) ->
    (r = Ok tt <-> Forall (fun x => fit w pre (fst x) (snd x)) l0 /\ ForallOrdPairs clear l0).
  Proof.
    intros H. rewrite (each_iff l0 [] empty_map creator_empty c' r cinv_new represents_new inv_empty H). split; [intros (A & _ & B); auto|].
    intros [A B]. split; [exact A|]. split; [intros x y []|exact B].
  Qed.
End Each.

Lemma add_each_join w pre l2 : forall l1 c, add_each w pre (l1 ++ l2) c =
  match add_each w pre l1 c with (c1, Ok _) => add_each w pre l2 c1 | z => z end.
Proof.
  induction l1 as [|[s f] l1 IH]; intros c; cbn [app add_each]; [reflexivity|].
  destruct (add_entry_from_path w pre s f c) as [c1 [u|e| |]]; [apply IH|reflexivity..].
Qed.

Lemma pairs_app {A} (R : A -> A -> Prop) : forall l1 l2, ForallOrdPairs R (l1 ++ l2) <->
  ForallOrdPairs R l1 /\ ForallOrdPairs R l2 /\ forall x y, In x l1 -> In y l2 -> R x y.
Proof.
  induction l1 as [|a l1 IH]; intros l2; cbn [app].
  - split; [intros H; split; [constructor|]; split; [exact H|intros x y []]|intros (_ & H & _); exact H].
  - split.
    + intros H. inversion H as [|? ? H1 H2]; subst. apply IH in H2 as (A1 & A2 & A3). apply Forall_app in H1 as [H1 H1'].
      split; [constructor; auto|]. split; [exact A2|]. intros x y [<-|Hx] Hy; [rewrite Forall_forall in H1'; auto|auto].
    + intros (H & H2 & H3). inversion H as [|? ? H1 H1']; subst. constructor.
      * apply Forall_app. split; [exact H1|]. apply Forall_forall. intros y Hy. apply H3; [now left|exact Hy].
      * apply IH. split; [exact H1'|]. split; [exact H2|]. intros x y Hx Hy. apply H3; [now right|exact Hy].
Qed.
Lemma pairs_flat {A B} (R : B -> B -> Prop) (g : A -> list B) : forall l, ForallOrdPairs R (flat_map g l) <->
  (forall x, In x l -> ForallOrdPairs R (g x)) /\
  (forall i j x y a c, (i < j)%nat -> nth_error l i = Some x -> nth_error l j = Some y -> In a (g x) -> In c (g y) -> R a c).
Proof.
  induction l as [|x l IH]; cbn [flat_map].
  - split; [|constructor]. intros _. split; [intros x []|]. intros [|i] j x y a c _ H; discriminate H.
  - rewrite pairs_app, IH. split.
    + intros (H1 & (H2 & H3) & H4). split; [intros y [<-|Hy]; auto|]. intros i j y z a c Hij Hy Hz Ha Hc. destruct j as [|j]; [lia|]. cbn [nth_error] in Hz. destruct i as [|i]; cbn [nth_error] in Hy.
      * injection Hy as <-. apply H4; [exact Ha|]. apply in_flat_map. exists z. split; [eapply nth_error_In; eauto|exact Hc].
      * apply (H3 i j y z); auto. lia.
    + intros [H1 H2]. split; [apply H1; now left|]. split; [split|].
      * intros y Hy. apply H1. now right.
      * intros i j y z a c Hij Hy Hz. apply (H2 (S i) (S j) y z a c); [lia|exact Hy|exact Hz].
      * intros a c Ha Hc. apply in_flat_map in Hc as (z & Hz & Hc). apply In_nth_error in Hz as [j Hj]. apply (H2 0%nat (S j) x z a c); auto. lia.
Qed.
Lemma pairs_distinct {A} (R : A -> A -> Prop) : forall l, NoDup l -> (forall x y, In x l -> In y l -> x <> y -> R x y) -> ForallOrdPairs R l.
Proof.
  induction l as [|a l IH]; intros Hn H; [constructor|]. inversion Hn as [|? ? H1 H2]; subst. constructor.
  - apply Forall_forall. intros y Hy. apply H; [now left|now right|intros ->; contradiction].
  - apply IH; [exact H2|]. intros x y Hx Hy. apply H; now right.
Qed.
Lemma pairs_nth {A} (R : A -> A -> Prop) : forall l, ForallOrdPairs R l <-> forall i j x y, (i < j)%nat -> nth_error l i = Some x -> nth_error l j = Some y -> R x y.
Proof.
  intros l. pose proof (pairs_flat R (fun x => [x]) l) as H.
  assert (E : flat_map (fun x => [x]) l = l) by (induction l as [|a l IH]; [reflexivity|]; cbn [flat_map app]; f_equal; apply IH; apply (pairs_flat R (fun x => [x]) l)).
  rewrite E in H. rewrite H. split.
  - intros [_ H2] i j x y Hij Hx Hy. apply (H2 i j x y x y); auto; now left.
  - intros H2. split; [intros x _; repeat constructor|]. intros i j x y a c Hij Hx Hy [<-|[]] [<-|[]]. eauto.
Qed.

(** ** Walks *)
Definition entries_of (l : list witem) : list bytes := flat_map (fun i => match i with WEntry t => [t] | WFail => [] end) l.

Lemma str_inj s p q : Forall ordinary p -> Forall ordinary q -> str s p = str s q -> p = q.
Proof. intros Hp Hq E. apply (f_equal pieces) in E. rewrite !str_pieces in E by assumption. now apply app_inv_head in E. Qed.

Lemma str_proper s q : q <> [] -> Forall ordinary q -> str s q <> s.
Proof. intros Hq Hf E. apply (str_inj s q []) in E; [contradiction|exact Hf|constructor]. Qed.

Section Walks.
  Variables (w : world).
  Hypothesis Hnames : forall q names n, w_list w q = Some names -> In n names -> ordinary n.
  Hypothesis Hdist : forall q names, w_list w q = Some names -> NoDup names.

  Lemma walk_in_distinct fuel : forall d l, walk_in fuel w d = Some l ->
    NoDup (entries_of l) /\ forall t, In t (entries_of l) -> exists p, p <> [] /\ Forall ordinary p /\ t = str d p.
  Proof.
    induction fuel as [|k IH]; intros d l; cbn [walk_in]; [bad|]. destruct (read_dir w d) as [[q names]|] eqn:Er.
    2:{ intros H. injection H as <-. cbn. split; [constructor|intros t []]. }
    unfold read_dir in Er. destruct (look_str w true d) as [q0 [|i|t0 m0]|q0|e0]; try discriminate Er. destruct (w_list w q0) as [names0|] eqn:El; [|discriminate Er]. injection Er as -> ->.
    assert (Hone : forall n z, In n names ->
      match h_names (w_fs w) (q ++ [n]) with
      | Some HDir => match walk_in k w (path_join d n) with Some l => Some (WEntry (path_join d n) :: l) | None => None end
      | _ => Some [WEntry (path_join d n)]
      end = Some z -> NoDup (entries_of z) /\ forall t, In t (entries_of z) -> exists p, Forall ordinary p /\ t = str d (n :: p)).
    { intros n z Hn Hz. assert (Hdef : z = [WEntry (path_join d n)] -> NoDup (entries_of z) /\ forall t, In t (entries_of z) -> exists p, Forall ordinary p /\ t = str d (n :: p)).
      { intros ->. cbn. split; [constructor; [intros []|constructor]|]. intros t [<-|[]]. exists []. split; [constructor|reflexivity]. }
      destruct (h_names (w_fs w) (q ++ [n])) as [[|i|t m]|]; try (apply Hdef; now injection Hz). destruct (walk_in k w (path_join d n)) as [l'|] eqn:Ew; [|discriminate Hz]. injection Hz as <-.
      destruct (IH _ _ Ew) as [H1 H2]. change (entries_of (WEntry (path_join d n) :: l')) with (path_join d n :: entries_of l'). split.
      - constructor; [|exact H1]. intros Hin. destruct (H2 _ Hin) as (p & Hp & Hf & E). symmetry in E. now apply str_proper in E.
      - intros t [<-|Ht]; [exists []; split; [constructor|reflexivity]|]. destruct (H2 t Ht) as (p & _ & Hf & ->). exists p. split; [exact Hf|reflexivity]. }
    pose proof (Hdist q names El) as Hnd. pose proof (Hnames q names) as Ho. specialize (fun n => Ho n El). clear El. revert l. induction Hnd as [|n names Hni Hnd IHn]; intros l; cbn [opt_concat].
    - intros H. injection H as <-. split; [constructor|intros t []].
    - match goal with |- match ?x with _ => _ end = _ -> _ => destruct x as [z|] eqn:Ez; [|bad] end.
      match goal with |- match ?x with _ => _ end = _ -> _ => destruct x as [z'|] eqn:Ez'; [|bad] end.
      intros H. injection H as <-. destruct (Hone n z (or_introl eq_refl) Ez) as [A1 A2].
      assert (Hin' : forall t, In t (entries_of z') -> exists n' p, In n' names /\ Forall ordinary p /\ t = str d (n' :: p)).
      { intros t Ht. apply in_flat_map in Ht as (i & Hi & Ht). apply (opt_concat_in _ _ _ Ez') in Hi as (n' & z'' & Hn' & Hz'' & Hi).
        destruct (Hone n' z'' (or_intror Hn') Hz'') as [_ B]. destruct (B t) as (p & Hp & ->); [apply in_flat_map; eauto|]. exists n', p. auto. }
      destruct (IHn (fun n0 z0 H0 => Hone n0 z0 (or_intror H0)) (fun n0 H0 => Ho n0 (or_intror H0)) z' eq_refl) as [B1 _].
      unfold entries_of. rewrite flat_map_app. fold (entries_of z) (entries_of z'). split.
      + revert A1 A2. generalize (entries_of z) as u. induction u as [|t u IHu]; intros A1 A2; [exact B1|]. inversion A1 as [|? ? A3 A4]; subst. cbn [app]. constructor.
        * intros Hin. apply in_app_iff in Hin as [Hin|Hin]; [contradiction|]. destruct (A2 t (or_introl eq_refl)) as (p & Hp & ->). destruct (Hin' _ Hin) as (n' & p' & Hn' & Hp' & E).
          apply str_inj in E; [injection E as -> _; contradiction|constructor; [apply Ho; now left|exact Hp]|constructor; [apply Ho; now right|exact Hp']].
        * apply IHu; [exact A4|]. intros t' Ht'. apply A2. now right.
      + intros t Ht. apply in_app_iff in Ht as [Ht|Ht].
        * destruct (A2 t Ht) as (p & Hp & ->). exists (n :: p). split; [discriminate|]. split; [constructor; [apply Ho; now left|exact Hp]|reflexivity].
        * destruct (Hin' t Ht) as (n' & p & Hn' & Hp & ->). exists (n' :: p). split; [discriminate|]. split; [constructor; [apply Ho; now right|exact Hp]|reflexivity].
  Qed.

  Lemma before_fail_distinct : forall l, NoDup (entries_of l) -> NoDup (before_fail l).
  Proof.
    assert (Hin : forall t l, In t (before_fail l) -> In t (entries_of l)).
    { intros t. induction l as [|[x|] l IH]; cbn; [easy| |easy]. intros [H|H]; auto. }
    induction l as [|[x|] l IH]; cbn; intros H; [constructor| |constructor]. inversion H as [|? ? H1 H2]; subst. constructor; [|auto]. intros G. apply H1. now apply Hin.
  Qed.

  Variable (s : bytes).
  Hypothesis Hex : exists q n, look_str w true s = At q n.

  Lemma walk_distinct fuel rc l : walk fuel w s rc = Some l -> NoDup (before_fail l).
  Proof.
    intros H. apply before_fail_distinct. destruct (walk_cases w s Hex _ _ _ H) as [[-> _]|(q & l' & -> & Hl & Hw & ->)].
    - cbn. constructor; [intros []|constructor].
    - destruct (walk_in_distinct _ _ _ Hw) as [H1 H2]. change (entries_of (WEntry s :: l')) with (s :: entries_of l'). constructor; [|exact H1].
      intros Hin. destruct (H2 _ Hin) as (p & Hp & Hf & E). symmetry in E. now apply str_proper in E.
  Qed.

  Lemma walked_str rc t : walked w rc s t -> exists q, Forall ordinary q /\ t = str s q.
  Proof. intros H. destruct (walked_below w s Hnames rc t H) as [->|(q & _ & Hf & ->)]; [exists []; split; [constructor|reflexivity]|eauto]. Qed.

  Lemma walked_entered rc t : walked w rc s t -> forall q r, Forall ordinary (q ++ r) -> r <> [] -> t = str s (q ++ r) -> exists q', enters w s (str s q) q'.
  Proof.
    induction 1 as [|d q0 names n Hrc Hd IH He Hl Hn]; intros q r Hf Hr E.
    - exfalso. symmetry in E. apply str_proper in E; [contradiction| |exact Hf]. intros G. apply app_eq_nil in G as [_ G]. contradiction.
    - destruct (walked_str rc d Hd) as (p0 & Hp0 & ->). rewrite <- str_snoc in E. pose proof (Hnames _ _ _ Hl Hn) as Ho.
      apply str_inj in E; [|apply Forall_app; auto|exact Hf]. destruct (exists_last Hr) as (r1 & y & ->). rewrite app_assoc in E. apply app_inj_tail in E as [-> <-].
      destruct (list_eq_dec (list_eq_dec N.eq_dec) r1 []) as [-> |Hr1].
      + rewrite app_nil_r in He. eauto.
      + apply (IH q r1); [exact Hp0|exact Hr1|reflexivity].
  Qed.

  (** What is met in one walk is apart. *)
  Lemma walked_apart pre rc t1 f1 t2 f2 : walked w rc s t1 -> (f1 = true <-> t1 = s) -> walked w rc s t2 -> (f2 = true <-> t2 = s) -> t1 <> t2 -> ~ blocks w pre t1 f1 t2 f2.
  Proof.
    intros H1 Hf1 H2 Hf2 Hne ((q & n & Hl & Hnd & _) & p & r & Hp & Hs1 & Hs2 & _).
    destruct (walked_str rc t1 H1) as (q1 & Ho1 & E1). destruct (walked_str rc t2 H2) as (q2 & Ho2 & E2).
    assert (Hfil : forall u, Forall ordinary u -> filter not_dot u = u).
    { induction 1 as [|y u Hy _ IHu]; [reflexivity|]. cbn [filter]. assert (not_dot y = true) as ->; [|now rewrite IHu]. unfold not_dot. destruct Hy as (_ & _ & Hy & _). destruct (bytes_eqb_spec y (b ".")); [contradiction|reflexivity]. }
    destruct Hs1 as [_ Hs1], Hs2 as [_ Hs2]. rewrite E1, str_pieces, filter_app, (Hfil _ Ho1) in Hs1 by exact Ho1. rewrite E2, str_pieces, filter_app, (Hfil _ Ho2) in Hs2 by exact Ho2.
    rewrite (app_assoc (pieces pre)), <- Hs1, <- app_assoc in Hs2. apply app_inv_head in Hs2. subst q2.
    destruct (list_eq_dec (list_eq_dec N.eq_dec) r []) as [-> |Hr]; [rewrite app_nil_r in E2; congruence|].
    destruct (walked_entered rc t2 H2 q1 r Ho2 Hr E2) as (q' & He). rewrite <- E1 in He.
    destruct (list_eq_dec N.eq_dec t1 s) as [Et|Et].
    - apply enters_look in He. rewrite (proj2 Hf1 Et) in Hl. rewrite Hl in He. injection He as _ He. contradiction.
    - destruct He as [[He _]|He]; [contradiction|]. destruct f1; [now apply Et, Hf1|]. rewrite Hl in He. injection He as _ He. contradiction.
  Qed.
End Walks.
