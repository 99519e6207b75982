(** Consequences for histories of [add_entry] calls: C02-C06. *)
From Verif Require Export CreatorProofs.

(** Both views of a reachable state. *)
Lemma after_sim l : exists m, cinv (fst (run_adds creator_new l)) /\ represents (fst (run_adds creator_new l)) m
  /\ m = fst (spec_adds empty_map l).
Proof.
  pose proof (run_adds_sim l _ _ cinv_new represents_new) as H.
  destruct (run_adds creator_new l) as [st outs], (spec_adds empty_map l) as [m outs'].
  destruct H as (Hi & Hr & _). exists m. auto.
Qed.

(** ** Either nothing changed or the store grew *)
Definition grows (st st' : cstate) : Prop := st' = st \/ exists x ext, cs_store st' = cs_store st ++ x :: ext.

Lemma grows_trans st1 st2 st3 : grows st1 st2 -> grows st2 st3 -> grows st1 st3.
Proof.
  intros [->|(x & e & H)] [->|(y & f & H')]; auto.
  - now left.
  - right. eauto.
  - right. eauto.
  - right. exists x, (e ++ y :: f). rewrite H', H. now rewrite <- app_assoc.
Qed.

Lemma add_child_grows st d mk e : grows st (add_child st d mk e).
Proof. right. exists e, []. reflexivity. Qed.

Lemma add_entry_in_grows st d e : grows st (fst (add_entry_in st d e)).
Proof.
  unfold add_entry_in. destruct (e_kind e) as [[k|]|x| |]; try now left.
  destruct (file_name (e_path e)) as [n|]; [|now left].
  destruct k; destruct (assoc n (cs_heap st d)) as [[c|c]|]; cbn [fst]; try (now left); apply add_child_grows.
Qed.

Lemma add_grows comps : forall st d e, grows st (fst (add st d comps e)).
Proof.
  induction comps as [|c comps IH]; intros st d e; cbn [add]; [apply add_entry_in_grows|].
  assert (H1 : grows st (ensure_dir st d (as_str c))).
  { unfold ensure_dir. destruct (assoc (as_str c) (cs_heap st d)); [now left|apply add_child_grows]. }
  destruct (assoc (as_str c) (cs_heap (ensure_dir st d (as_str c)) d)) as [[s|s]|]; cbn [fst]; auto.
  eapply grows_trans; eauto.
Qed.

Lemma add_entry_grows st e : grows st (fst (add_entry st e)).
Proof. rewrite add_entry_unfold. apply add_grows. Qed.

Lemma run_adds_grows l : forall st, grows st (fst (run_adds st l)).
Proof.
  induction l as [|e l IH]; intros st; cbn [run_adds]; [now left|].
  pose proof (add_entry_grows st e) as H. destruct (add_entry st e) as [st1 o]. cbn [fst] in H.
  destruct o as [u|x| |]; cbn [fst]; auto;
  specialize (IH st1); destruct (run_adds st1 l) as [st2 outs]; cbn [fst] in *; eapply grows_trans; eauto.
Qed.

Lemma spath_app store ext s p : spath store s p -> spath (store ++ ext) s p.
Proof.
  revert store; induction ext as [|x ext IH]; intros store H; [now rewrite app_nil_r|].
  replace (store ++ x :: ext) with ((store ++ [x]) ++ ext) by now rewrite <- app_assoc.
  apply IH. now apply spath_snoc_old.
Qed.

Lemma grows_stored st st' p nd : grows st st' -> stored (cs_store st) p nd -> stored (cs_store st') p nd.
Proof.
  intros [->|(x & ext & H)] (s & e & He & Hp & ->); [exists s, e; auto|].
  rewrite H. exists s, e. split; [|split; auto; now apply spath_app].
  rewrite nth_error_app1; auto. eapply spath_lt; eauto.
Qed.

(** If the meaning did not change, nothing changed. *)
Lemma grows_same st st' m : cinv st -> cinv st' -> represents st m -> represents st' m -> grows st st' -> st' = st.
Proof.
  intros Hi Hi' Hr Hr' [->|(x & ext & H)]; auto. exfalso.
  assert (Hlt : (length (cs_store st) < length (cs_store st'))%nat).
  { rewrite H, app_length. cbn. lia. }
  destruct (spath_total st' _ Hi' Hlt) as [p Hp].
  destruct (nth_error (cs_store st') (length (cs_store st))) as [e|] eqn:He; [|apply nth_error_None in He; lia].
  assert (Hs : stored (cs_store st') p (se_kind e, se_meta e)) by (exists (length (cs_store st)), e; auto).
  apply Hr', Hr in Hs as (s & e' & He' & Hp' & _).
  assert (s = length (cs_store st)).
  { eapply (spath_inj st'); eauto. rewrite H. now apply spath_app. }
  subst s. apply spath_lt in Hp'. lia.
Qed.

(** ** C02 *)
Lemma spec_err_same m e m' x k : spec_add_entry m e = (m', Err x) -> e_kind e = Ok (Some k) -> m' = m.
Proof.
  unfold spec_add_entry, spec_add. intros H Hk. rewrite Hk in H.
  destruct (blocked m (dir_of (e_path e))); [congruence|].
  destruct (last_of (e_path e)) as [n|]; [|congruence].
  destruct (m (dir_of (e_path e) ++ [n])) as [old|]; [|destruct k; congruence].
  destruct k; [destruct (is_dir_node old)|..]; congruence.
Qed.

Theorem refused_unchanged l e st' x k :
  add_entry (fst (run_adds creator_new l)) e = (st', Err x) -> e_kind e = Ok (Some k) ->
  st' = fst (run_adds creator_new l).
Proof.
  intros H Hk. destruct (after_sim l) as (m & Hi & Hr & _).
  set (st := fst (run_adds creator_new l)) in *.
  pose proof (add_entry_sim st m e Hi Hr) as Hs. pose proof (add_entry_grows st e) as Hg.
  rewrite H in Hs, Hg. cbn [fst] in Hg. destruct (spec_add_entry m e) as [m' o] eqn:E.
  destruct Hs as (Hi' & Hr' & <-). rewrite (spec_err_same _ _ _ _ _ E Hk) in Hr'.
  eapply grows_same; eauto.
Qed.

(** ** C03 *)
Theorem stored_kept l1 l2 p nd : stored (cs_store (fst (run_adds creator_new l1))) p nd ->
  stored (cs_store (fst (run_adds (fst (run_adds creator_new l1)) l2))) p nd.
Proof. apply grows_stored, run_adds_grows. Qed.

(** ** C04 *)
Definition describes (e : entry) (p : path) (nd : node) : Prop :=
  e_kind e = Ok (Some (fst nd)) /\ e_meta e = snd nd /\
  exists n, last_of (e_path e) = Some n /\ p = dir_of (e_path e) ++ [n].

Definition origin (l : list entry) (p : path) (nd : node) : Prop :=
  (exists e, In e l /\ describes e p nd) \/
  (nd = implicit_dir /\ exists e, In e l /\ p <> [] /\ exists r, dir_of (e_path e) = p ++ r).

Lemma origin_spec_add m e p nd m' o : spec_add_entry m e = (m', o) -> m' p = Some nd ->
  m p = Some nd \/ origin [e] p nd.
Proof.
  unfold spec_add_entry, spec_add. intros H Hp.
  set (dir := dir_of (e_path e)) in *.
  assert (Hd : with_dirs m dir p = Some nd -> m p = Some nd \/ origin [e] p nd).
  { unfold with_dirs. destruct (m p); auto. destruct p as [|y p]; [easy|].
    destruct (is_prefix (y :: p) dir) eqn:E; [|easy]. intros H1. injection H1 as <-. right. right. split; auto.
    exists e. split; [now left|]. split; [easy|]. apply is_prefix_spec in E as [r Hr]. exists r. exact Hr. }
  destruct (blocked m dir); [injection H as <- <-; auto|].
  destruct (e_kind e) as [[k|]|x| |] eqn:Ek; try (injection H as <- <-; now auto).
  destruct (last_of (e_path e)) as [n|] eqn:El; [|injection H as <- <-; now auto].
  cbv zeta in H. destruct (m (dir ++ [n])) as [old|] eqn:Em.
  - destruct k; [destruct (is_dir_node old)|..]; injection H as <- <-; auto.
  - assert (Hm' : m' = update (with_dirs m dir) (dir ++ [n]) (k, e_meta e)) by (destruct k; congruence).
    rewrite Hm' in Hp. unfold update in Hp. destruct (path_beq_spec p (dir ++ [n])) as [->|Hne]; auto.
    injection Hp as <-. right. left. exists e. split; [now left|]. split; auto. split; auto. eauto.
Qed.

Lemma origin_mono l l' p nd : incl l l' -> origin l p nd -> origin l' p nd.
Proof.
  intros Hi [(e & H1 & H2)|(H & e & H1 & H2)]; [left|right; split; auto]; exists e; auto.
Qed.

Lemma origin_spec_adds l : forall m p nd, fst (spec_adds m l) p = Some nd -> m p = Some nd \/ origin l p nd.
Proof.
  induction l as [|e l IH]; intros m p nd; cbn [spec_adds]; auto.
  destruct (spec_add_entry m e) as [m1 o] eqn:E.
  assert (H1 : m1 p = Some nd -> m p = Some nd \/ origin (e :: l) p nd).
  { intros H. destruct (origin_spec_add _ _ _ _ _ _ E H) as [|Ho]; auto. right.
    eapply origin_mono; [|exact Ho]. intros x [->|[]]. now left. }
  assert (H2 : fst (spec_adds m1 l) p = Some nd -> m p = Some nd \/ origin (e :: l) p nd).
  { intros H. destruct (IH _ _ _ H) as [|Ho]; auto. right. eapply origin_mono; [|exact Ho]. now right. }
  destruct o as [u|x| |]; cbn [fst]; auto; destruct (spec_adds m1 l) as [m2 outs] eqn:E2; cbn [fst] in *; auto.
Qed.

Theorem stored_origin l p nd : stored (cs_store (fst (run_adds creator_new l))) p nd -> origin l p nd.
Proof.
  destruct (after_sim l) as (m & Hi & Hr & ->). intros H. apply Hr in H.
  destruct (origin_spec_adds _ _ _ _ H) as [H'|]; [discriminate H'|auto].
Qed.

(** An accepted call stores what it was given, unless a directory was already there. *)
Theorem accepted_stored l e st' k n :
  add_entry (fst (run_adds creator_new l)) e = (st', Ok tt) -> e_kind e = Ok (Some k) ->
  last_of (e_path e) = Some n ->
  let p := dir_of (e_path e) ++ [n] in
  (stored (cs_store st') p (k, e_meta e) \/
   (k = KDir /\ exists mt, stored (cs_store (fst (run_adds creator_new l))) p (KDir, mt)))
  /\ (forall q, q <> [] -> (exists r, dir_of (e_path e) = q ++ r) -> exists mt, stored (cs_store st') q (KDir, mt)).
Proof.
  intros H Hk Hn. cbv zeta. destruct (after_sim l) as (m & Hi & Hr & _).
  set (st := fst (run_adds creator_new l)) in *.
  pose proof (add_entry_sim st m e Hi Hr) as Hs. rewrite H in Hs.
  destruct (spec_add_entry m e) as [m' o] eqn:E. destruct Hs as (Hi' & Hr' & <-).
  unfold spec_add_entry, spec_add in E. rewrite Hk, Hn in E.
  set (dir := dir_of (e_path e)) in *. destruct (blocked m dir) eqn:Eb; [discriminate E|].
  cbv zeta in E.
  assert (Hx : stored (cs_store st') (dir ++ [n]) (k, e_meta e) \/
   (k = KDir /\ exists mt, stored (cs_store st) (dir ++ [n]) (KDir, mt))).
  { destruct (m (dir ++ [n])) as [old|] eqn:Em.
    - right. destruct k; [|discriminate E|discriminate E]. destruct (is_dir_node old) eqn:Ed; [|discriminate E].
      split; auto. destruct old as [[| |] mt]; try discriminate Ed. exists mt. now apply Hr.
    - left. apply Hr'. assert (m' = update (with_dirs m dir) (dir ++ [n]) (k, e_meta e)) as -> by (destruct k; congruence).
      unfold update. now rewrite path_beq_refl. }
  split; [exact Hx|].
  intros q Hq [r Hqr].
  assert (Hst : exists nd, stored (cs_store st') (dir ++ [n]) nd).
  { destruct Hx as [Hx|(_ & mt & Hx)]; [eauto|]. exists (KDir, mt).
    eapply grows_stored; [|exact Hx]. pose proof (add_entry_grows st e) as Hg. now rewrite H in Hg. }
  destruct Hst as [nd Hst]. apply Hr' in Hst.
  destruct (represents_closed st' m' Hi' Hr' dir n) with (q := q) as [mt Hmt]; auto; [congruence| |].
  - apply is_prefix_spec. eauto.
  - exists mt. now apply Hr'.
Qed.

(** ** C05 *)
Definition walled (l : list entry) (p : path) : Prop :=
  exists q r nd, p = q ++ r /\ stored (cs_store (fst (run_adds creator_new l))) q nd /\ is_dir_node nd = false.

Theorem panic_iff l e : (forall k, e_kind e = k -> k <> Panic) ->
  snd (add_entry (fst (run_adds creator_new l)) e) = Panic <->
  (~ walled l (dir_of (e_path e)) /\ (exists k, e_kind e = Ok (Some k)) /\ last_of (e_path e) = None).
Proof.
  intros Hnp. destruct (after_sim l) as (m & Hi & Hr & _).
  unfold walled. set (st := fst (run_adds creator_new l)) in *.
  pose proof (add_entry_sim st m e Hi Hr) as Hs.
  destruct (add_entry st e) as [st' o]. destruct (spec_add_entry m e) as [m' o'] eqn:E.
  destruct Hs as (Hi' & Hr' & <-). cbn [snd].
  unfold spec_add_entry, spec_add in E. set (dir := dir_of (e_path e)) in *.
  assert (Hw : (exists q r nd, dir = q ++ r /\ stored (cs_store st) q nd /\ is_dir_node nd = false) <-> blocked m dir = true).
  { rewrite blocked_true. split.
    - intros (q & r & nd & H1 & H2 & H3). exists q, nd. split.
      { destruct H2 as (s & e' & _ & Hp & _). now apply spath_nonempty in Hp. }
      split; [apply is_prefix_spec; eauto|]. split; auto. now apply Hr.
    - intros (q & nd & H1 & H2 & H3 & H4). apply is_prefix_spec in H2 as [r H2]. exists q, r, nd.
      split; auto. split; auto. now apply Hr. }
  rewrite Hw. destruct (blocked m dir).
  - split; [congruence|]. intros (H & _). now destruct H.
  - specialize (Hnp (e_kind e) eq_refl).
    destruct (e_kind e) as [[k|]|x| |]; try (split; [congruence|intros (_ & [k' Hk] & _); congruence]); try easy.
    + destruct (last_of (e_path e)) as [n|].
      * cbv zeta in E. split; [|intros (_ & _ & H); discriminate H].
        destruct (m (dir ++ [n])) as [old|]; destruct k; try destruct (is_dir_node old); congruence.
      * injection E as <- <-. split; auto. intros _. split; [easy|]. split; eauto.
Qed.
