(** One path; the two threads; create then extract. *)
From Verif Require Export AddTree ExtractSession WriteFacts.

(** ** One path *)
Lemma from_path_abs s : is_abs s = true -> from_path s = Err ENonRelative.
Proof. destruct s as [|c s]; [easy|]. cbn. now intros ->. Qed.

Lemma from_path_bad s : is_abs s = false -> forallb utf8 (filter not_dot (pieces s)) = false -> from_path s = Err ENonUtf8.
Proof.
  destruct s as [|c s]; [easy|]. unfold from_path. cbn [is_abs]. intros ->.
  change (fun p : bytes => negb (bytes_eqb p (b "."))) with not_dot. now intros ->.
Qed.

Section One.
  Variables (w : world) (s pre : bytes) (r : path).
  Hypothesis Hs : s <> [].
  Hypothesis Hrel : is_abs s = false.
  Hypothesis Hutf : forallb utf8 (filter not_dot (pieces s)) = true.
  Hypothesis Hpre : filter not_dot (pieces s) = pieces pre ++ r.

  Lemma one_path : exists p a, from_path s = Ok p /\ strip_prefix p pre = Some a /\ pieces a = r /\ (r = [] -> a = []).
  Proof.
    destruct (from_path_ok s Hs Hrel Hutf) as [H1 H2]. exists (join (filter not_dot (pieces s))).
    destruct (strip_join (filter not_dot (pieces s)) pre r) as (a & A1 & A2 & A3); auto.
    - rewrite <- H2. apply Forall_forall. intros n Hn. now apply in_pieces in Hn.
    - exists a. auto.
  Qed.

  Lemma detect_look follow q n : look_str w follow s = At q n -> detect_kind w s follow = Ok (kind_at w q n, q).
  Proof.
    unfold detect_kind. destruct follow.
    - intros H. assert (G : look_str w false s = At q n \/ exists q' t m, look_str w false s = At q' (HLink t m)).
      { unfold look_str in *. destruct s as [|c0 s0]; [easy|]. now apply namei_unfollowed in H. }
      destruct G as [G|(q' & t & m & G)]; rewrite G; cbn [looked_up bind].
      + destruct n; auto. rewrite H. reflexivity.
      + rewrite H. reflexivity.
    - intros ->. cbn. destruct n; reflexivity.
  Qed.

  Lemma detect_fails follow : (forall q n, look_str w follow s <> At q n) -> exists e, detect_kind w s follow = Err (EIo e).
  Proof.
    unfold detect_kind. intros H. destruct follow.
    - destruct (look_str w false s) as [q n|q|e] eqn:E; cbn [looked_up bind]; [|eauto|eauto].
      destruct n as [|i|t m].
      1,2: exfalso; assert (G : look_str w true s = look_str w false s); [|eapply H; rewrite G; exact E].
      1,2: unfold look_str in *; destruct s as [|c0 s0]; [easy|]; rewrite E; unfold look in *; revert E; generalize max_links (fst (opath_of w (c0 :: s0))) (snd (opath_of w (c0 :: s0))); clear; intros k cur c.
      1,2: revert cur c; induction k as [|k IH]; intros cur c; revert cur; (induction c as [|x c IHc]; intros cur E; [exact E|]);
        rewrite namei_eq in E; rewrite namei_eq;
        (destruct (bytes_eqb x (b ".")); [now apply IHc|]); (destruct (bytes_eqb x (b "..")); [now apply IHc|]);
        (destruct (h_names (w_fs w) (cur ++ [x])) as [[|j|u m]|] eqn:E'; [now apply IHc|exact E| |exact E]);
        (destruct c; [discriminate E|]); auto; now apply IH.
      destruct (look_str w true s) as [q' n'|q'|e] eqn:E'; cbn [looked_up bind]; eauto. exfalso. now apply (H q' n').
    - destruct (look_str w false s) as [q n|q|e] eqn:E; cbn [looked_up bind]; eauto. exfalso. now apply (H q n).
  Qed.

  (** The entry made of [s]. *)
  Lemma one_entry follow q n c : r <> [] -> look_str w follow s = At q n ->
    (forall i, n = HFile i -> at_special (w_attr w q) = false -> at_readable (w_attr w q) = true) ->
    exists e ext, add_entry_from_path w pre s follow c =
        (let (st, x) := add_entry (cr_entries c) e in (mkCreator st (cr_contents c ++ ext), x)) /\
      pieces (e_path e) = r /\
      (e_kind e = Ok None /\ ext = [] /\ (exists i, n = HFile i /\ at_special (w_attr w q) = true) \/
       exists k, e_kind e = Ok (Some k) /\ mirrors_as w q n (cr_contents c ++ ext) (k, e_meta e) /\
         (forall i, n = HFile i -> at_special (w_attr w q) = false)).
  Proof.
    intros Hr Hl Hread. destruct one_path as (p & a & Hf & Hst & Ha & _).
    assert (Hna : nonempty a = true).
    { destruct a; auto. }
    unfold add_entry_from_path. rewrite Hf, Hst, Hna. unfold new_from_path. rewrite (detect_look follow q n Hl). cbn [bind].
    destruct n as [|i|t m]; cbn [kind_at].
    - exists (mkEntry a (Ok (Some KDir)) (meta_at w q)), []. rewrite app_nil_r. split; auto. split; auto. right. exists KDir.
      split; auto. split; [|easy]. repeat split.
    - destruct (at_special (w_attr w q)) eqn:Esp.
      + exists (mkEntry a (Ok None) (meta_at w q)), []. rewrite app_nil_r. split; auto. split; auto. left. split; auto. split; eauto.
      + rewrite (Hread i eq_refl eq_refl).
        pose proof (add_content_ok (cr_contents c) (h_data (w_fs w) i)) as (ext & E1 & E2).
        destruct (add_content (cr_contents c) (h_data (w_fs w) i)) as [l' addr]. cbn [fst snd] in E1, E2. subst l'.
        exists (mkEntry a (Ok (Some (KFile (N.of_nat (length (h_data (w_fs w) i))) addr))) (meta_at w q)), ext.
        split; auto. split; auto. right. eexists. split; [reflexivity|]. split; [|auto]. repeat split. exists addr. split; [reflexivity|exact E2].
    - exists (mkEntry a (Ok (Some (KLink t))) (meta_at w q)), []. rewrite app_nil_r. split; auto. split; auto. right. exists (KLink t).
      split; auto. split; [|easy]. repeat split.
  Qed.
End One.

(** ** Threads *)
Section Threads.
  Variables (w : world) (pre root : bytes).
  Local Notation mark := (map (fun p => (p, std_path_eqb p root))).

  Inductive steps : nat -> threads -> threads -> Prop :=
  | steps_0 t : steps 0 t t
  | steps_S k t u v : step w pre root t u -> steps k u v -> steps (S k) t v.

  Definition pending (t : threads) : list bytes :=
    t_queue t ++ match t_prod t with Walking l => before_fail l | Stopped => [] end.
  (** The final answer, seen from an intermediate state. *)
  Definition outcome (t : threads) : creator * res unit :=
    match t_cons t with Returned r => (t_creator t, r) | Receiving => add_each w pre (mark (pending t)) (t_creator t) end.

  Lemma step_outcome t u : step w pre root t u -> outcome t = outcome u.
  Proof.
    destruct 1 as [s r q c|s r q x c|r q x c|q x c|p s q c c' E|p s q c c' x E Hx|c]; unfold outcome, pending; cbn [t_cons t_creator t_queue t_prod]; auto.
    - cbn [before_fail]. now rewrite <- app_assoc.
    - cbn [app map add_each]. now rewrite E.
    - cbn [app map add_each]. rewrite E. destruct x as [[]| | |]; easy.
  Qed.

  Lemma steps_outcome k t u : steps k t u -> outcome t = outcome u.
  Proof. induction 1; auto. rewrite <- IHsteps. now apply step_outcome. Qed.

  Definition fuel_of (t : threads) : nat :=
    match t_prod t with Walking l => 2 * length l + 1 | Stopped => 0 end + length (t_queue t) + match t_cons t with Receiving => 1 | _ => 0 end.

  Lemma step_fuel t u : step w pre root t u -> (fuel_of u < fuel_of t)%nat.
  Proof.
    destruct 1; unfold fuel_of; cbn [t_cons t_creator t_queue t_prod length]; rewrite ?app_length; cbn [length]; lia.
  Qed.
  Lemma steps_fuel k t u : steps k t u -> (k + fuel_of u <= fuel_of t)%nat.
  Proof. induction 1 as [|k t u v H _ IH]; auto. apply step_fuel in H. lia. Qed.

  Lemma step_progress t : t_cons t = Receiving -> exists u, step w pre root t u.
  Proof.
    destruct t as [p q x c]. cbn. intros ->. destruct q as [|s q].
    - destruct p as [[|[s|] r]|]; eexists; [apply step_walk_end|apply step_send|apply step_walk_error|apply step_channel_closed].
    - destruct (add_entry_from_path w pre s (std_path_eqb s root) c) as [c' x] eqn:E.
      destruct x as [[]|e| |]; eexists; [eapply step_receive; eauto|eapply step_receive_fails; eauto; easy..].
  Qed.
End Threads.

(** ** Create then extract *)
Section Roundtrip.
  Variables (w : world) (s pre : bytes) (root r0 : path) (depth fuel : nat).
  Hypothesis Hrel : is_abs s = false.
  Hypothesis Hpre : filter not_dot (pieces s) = pieces pre ++ r0.
  Hypothesis Hutf : forallb utf8 (pieces s) = true.
  Hypothesis Hr0 : Forall ordinary r0.
  Hypothesis Hroot : look_str w true s = At root HDir.
  Hypothesis HT : source_tree w root depth.
  Hypothesis Hfuel : (depth < fuel)%nat.
  Local Notation names q := (h_names (w_fs w) (root ++ q)).

  Lemma has_nil p nd : ~ has [] p nd.
  Proof. intros (x & e & H & _). now destruct x. Qed.

  Lemma created : exists c es, add_from_path fuel w pre s true creator_empty = (c, Ok tt) /\
    cr_entries c = after es /\ all_ok es /\
    (forall q, q = [] \/ names q <> None -> r0 ++ q <> [] -> exists nd, has es (r0 ++ q) nd) /\
    (forall p nd, has es p nd -> (exists q, (q = [] \/ names q <> None) /\ p = r0 ++ q /\ goodnode w root q (cr_contents c) nd) \/
       (nd = implicit_dir /\ p <> [] /\ exists x t, r0 = p ++ x :: t)).
  Proof.
    destruct (add_tree w s pre root r0 depth Hrel Hroot HT Hpre Hutf Hr0 [] []) with (fuel := fuel) as (c & es & ext & A1 & A2 & A3 & A4 & A5 & A6 & A7); auto.
    - intros q nd. apply has_nil.
    - intros p x t nd _ H. now apply has_nil in H.
    - apply all_ok_nil.
    - exists c, es. cbn [app] in *. split; [exact A1|]. split; auto. split; auto. split; auto.
      intros p nd H. destruct (A7 p nd H) as [H'|[H'|H']]; auto. now apply has_nil in H'.
  Qed.

  Variables (c : creator) (a : archive) (f g : hostfs) (cfg : config) (out : path) (sched : nat -> turns) (last : turns) (res : res unit).
  Hypothesis Hadd : add_from_path fuel w pre s true creator_empty = (c, Ok tt).
  Hypothesis Hsmall : N.of_nat (length (cs_store (cr_entries c))) < 2^32.
  Hypothesis Hfin : finalize c = Some a.
  Hypothesis Htidy : tidy f.
  Hypothesis Hout : outdir f (x_base cfg) out.
  Hypothesis Hempty : forall p, p <> [] -> h_names f (out ++ p) = None.
  Hypothesis Hall : x_files cfg = [].
  Hypothesis Hrun : extract_range a (a_root a) cfg sched last f = (g, res).
  Hypothesis Hquiet : quiet sched last.
  Hypothesis Hdone : res <> Diverge.

  Lemma apath_has es i p : small es -> archive_of es (fetch_of (cr_contents c)) a -> apath a i p -> exists nd, has es p nd.
  Proof.
    intros H1 H2 H. destruct (archive_ok es _ a H1 H2) as (m & _ & _ & _ & Hw & _).
    assert (Hr : exists r, at_ (a_recs a) i = Some r) by (inversion H; eauto). destruct Hr as [r Hr].
    assert (Hn : exists nd, node_of_rec r = Some nd).
    { unfold node_of_rec. destruct (r_payload r) eqn:E; eauto. now apply (wf_variant _ Hw i r variant) in Hr. }
    destruct Hn as [nd Hn]. exists nd. eapply archive_has; eauto. exists i, r. auto.
  Qed.

  Theorem roundtrip : res = Ok tt /\ exists es, cr_entries c = after es /\
    (forall p, p <> [] ->
      (h_names g (out ++ p) = Some HDir <-> exists mt, has es p (KDir, mt)) /\
      (forall data, has_file g (out ++ p) data <-> exists size addr mt, has es p (KFile size addr, mt) /\ fetch_of (cr_contents c) addr = Found data) /\
      (forall t, has_link g (out ++ p) t <-> exists mt, has es p (KLink t, mt))) /\
    (forall q, q = [] \/ names q <> None -> r0 ++ q <> [] -> exists nd, has es (r0 ++ q) nd) /\
    (forall p nd, has es p nd -> (exists q, (q = [] \/ names q <> None) /\ p = r0 ++ q /\ goodnode w root q (cr_contents c) nd) \/
       (nd = implicit_dir /\ p <> [] /\ exists x t, r0 = p ++ x :: t)) /\
    (forall q, ~ below out q ->
      unchanged f g q \/ (h_names f q = None /\ h_names g q = Some HDir /\ exists t, out = q ++ t)).
  Proof.
    destruct created as (c' & es & A1 & A2 & A3 & A4 & A5). rewrite A1 in Hadd. assert (c' = c) as -> by congruence.
    assert (Hsm : small es) by (unfold small; rewrite <- A2; exact Hsmall).
    assert (Har : archive_of es (fetch_of (cr_contents c)) a) by (unfold archive_of; rewrite <- A2; exact Hfin).
    assert (HS : setting es (fetch_of (cr_contents c)) a (a_root a) [] f (x_base cfg) out).
    { constructor; auto.
      - left. auto.
      - intros i p Hp Hne. destruct (apath_has es i p Hsm Har Hp) as [nd Hnd].
        assert (Hr0u : Forall (fun n => ordinary n /\ utf8 n = true) r0).
        { apply Forall_forall. intros n Hn. split; [rewrite Forall_forall in Hr0; auto|].
          rewrite forallb_forall in Hutf. apply Hutf. assert (H : In n (filter not_dot (pieces s))) by (rewrite Hpre, in_app_iff; auto).
          now apply filter_In in H. }
        destruct (A5 p nd Hnd) as [(q & Hq & -> & _)|(_ & _ & x & t & E)].
        + apply Forall_app. split; auto. destruct Hq as [->|Hq]; [constructor|]. apply Forall_forall. intros n Hn. now apply (sr_names _ _ _ HT q n).
        + rewrite E in Hr0u. now apply Forall_app in Hr0u.
      - intros i p nd t m Hp _ H. rewrite (Hempty p Hp) in H. discriminate H. }
    assert (Hpk : forall p size addr mt, p <> [] -> has es p (KFile size addr, mt) -> exists data, fetch_of (cr_contents c) addr = Found data).
    { intros p size addr mt _ H. destruct (A5 _ _ H) as [(q & Hq & -> & G)|(E & _)]; [|discriminate E]. destruct q as [|x q].
      - destruct G as (_ & _ & _ & _ & G). discriminate G.
      - destruct G as (n & _ & _ & _ & _ & _ & G). destruct n; try discriminate G. destruct G as (addr' & G1 & G2). injection G1 as _ <-. eauto. }
    assert (Htg : forall p t mt, p <> [] -> has es p (KLink t, mt) -> utf8 t = true /\ t <> []).
    { intros p t mt _ H. destruct (A5 _ _ H) as [(q & Hq & -> & G)|(E & _)]; [|discriminate E]. destruct q as [|x q].
      - destruct G as (_ & _ & _ & _ & G). discriminate G.
      - destruct G as (n & G0 & _ & _ & _ & _ & G). destruct n as [|i|t' m]; try discriminate G.
        + destruct G as (addr & G & _). discriminate G.
        + injection G as ->. now destruct (sr_targets _ _ _ HT (x :: q) t' m). }
    assert (Hsel : forall p dir, should_extract cfg p dir = true) by (intros p dir; unfold should_extract; now rewrite Hall).
    destruct (session_run es _ a (a_root a) [] out f cfg HS sched last g res Hrun) as (B1 & B2 & _ & _ & B5 & _).
    assert (Hres : res = Ok tt).
    { apply B5; auto.
      - intros p t mt Hp Hh. now destruct (Htg p t mt Hp Hh).
      - intros p nd Hp Hh _. eapply (empty_fits es _ a (a_root a) [] out f cfg HS Hempty); eauto. intros p' t mt Hp' Hh'. now destruct (Htg p' t mt Hp' Hh'). }
    rewrite Hres in Hrun. split; auto. exists es. split; auto. split; [|split; [auto|split; [auto|]]].
    - intros p Hp. destruct (empty_exact es _ a (a_root a) [] out f cfg HS Hempty sched last g Hrun Hpk p Hp) as (X1 & X2 & X3).
      cbn [app] in *. split; [|split].
      + rewrite X1. split; intros (mt & H); exists mt; intuition.
      + intros data. rewrite X2. split; intros (size & addr & mt & H); exists size, addr, mt; intuition.
      + intros t. rewrite X3. split; intros (mt & H); exists mt; intuition.
    - intros q Hnb. destruct (B2 q) as [H|(_ & H1 & H2 & H3)]; auto.
      intros p nd Hp _ _ ->. apply Hnb. destruct p as [|x p]; [easy|]. now exists x, p.
  Qed.

  Theorem roundtrip_tree : res = Ok tt /\
    (forall q, q <> [] -> same_at (w_fs w) (root ++ q) g (out ++ r0 ++ q)) /\
    (forall p t, r0 = p ++ t -> p <> [] -> h_names g (out ++ p) = Some HDir) /\
    (forall p, p <> [] -> h_names g (out ++ p) <> None ->
       (exists t, r0 = p ++ t) \/ exists q, p = r0 ++ q /\ names q <> None) /\
    (forall q, ~ below out q ->
      unchanged f g q \/ (h_names f q = None /\ h_names g q = Some HDir /\ exists t, out = q ++ t)).
  Proof.
    destruct roundtrip as (Hres & es & Hes & X & Hex & Hin & Hby). split; auto.
    assert (Hsome : forall p, p <> [] -> h_names g (out ++ p) <> None -> exists nd, has es p nd).
    { intros p Hp H. destruct (X p Hp) as (X1 & X2 & X3). destruct (h_names g (out ++ p)) as [[|i|t m]|] eqn:E; [| | |easy].
      - destruct (proj1 X1 eq_refl) as [mt H1]. eauto.
      - destruct (proj1 (X2 (h_data g i))) as (size & addr & mt & H1 & _); [|eauto]. exists i. auto.
      - destruct (proj1 (X3 t)) as [mt H1]; [|eauto]. exists m. auto. }
    assert (Hdir : forall p nd, p <> [] -> has es p nd -> fst nd = KDir -> h_names g (out ++ p) = Some HDir).
    { intros p [k mt] Hp H E. cbn in E. subst k. apply X; eauto. }
    split; [|split; [|split]]; auto.
    - intros q Hq. assert (Hrq : r0 ++ q <> []) by (destruct r0; [exact Hq|easy]). unfold same_at.
      destruct (names q) as [n|] eqn:En.
      + assert (Hne : names q <> None) by congruence.
        destruct (Hex q (or_intror Hne) Hrq) as [nd Hnd].
        destruct (Hin _ _ Hnd) as [(q2 & Hq2 & E & G)|(_ & _ & x & t & E)].
        2:{ exfalso. apply (f_equal (@length _)) in E. rewrite !app_length in E. cbn in E. lia. }
        apply app_inv_head in E. subst q2. destruct q as [|y q]; [easy|]. destruct G as (n' & G0 & _ & _ & _ & _ & G).
        rewrite En in G0. injection G0 as <-. destruct (X _ Hrq) as (X1 & X2 & X3). destruct nd as [k mt]. cbn [fst] in G. destruct n as [|i|t m].
        * subst k. apply X1. eauto.
        * destruct G as (addr & -> & G). apply X2. eauto.
        * subst k. apply X3. eauto.
      + destruct (h_names g (out ++ r0 ++ q)) as [n|] eqn:Eg; auto. exfalso.
        destruct (Hsome (r0 ++ q) Hrq) as [nd Hnd]; [congruence|].
        destruct (Hin _ _ Hnd) as [(q2 & Hq2 & E & G)|(_ & _ & x & t & E)].
        * apply app_inv_head in E. subst q2. destruct Hq2 as [H|H]; [easy|congruence].
        * apply (f_equal (@length _)) in E. rewrite !app_length in E. cbn in E. lia.
    - intros p t E Hp. assert (Hr : r0 <> []) by (intros H; rewrite H in E; now destruct p).
      destruct (Hex [] (or_introl eq_refl)) as [nd Hnd]; rewrite app_nil_r in *; auto.
      destruct t as [|x t _] using rev_ind.
      + rewrite app_nil_r in E. subst p. apply (Hdir r0 nd); auto. destruct (Hin _ _ Hnd) as [(q2 & Hq2 & E & G)|(-> & _)]; auto.
        assert (q2 = []) as -> by (apply (app_inv_head r0); now rewrite app_nil_r). now destruct G as (_ & _ & _ & _ & G).
      + rewrite E in Hnd. destruct (has_closed _ _ _ _ _ Hnd Hp) as [mt Hmt]. now apply (Hdir p (KDir, mt)).
    - intros p Hp H. destruct (Hsome p Hp H) as [nd Hnd]. destruct (Hin _ _ Hnd) as [(q2 & Hq2 & -> & G)|(_ & _ & x & t & E)].
      + destruct Hq2 as [->|Hq2]; [left; exists []; now rewrite !app_nil_r|eauto].
      + left. eauto.
  Qed.
End Roundtrip.
