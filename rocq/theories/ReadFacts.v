(** Facts about archives written by sessions: C06, C08-C18. *)
From Verif Require Export SpecSession WriteFacts TraceProofs.

Lemma archive_ok l fetch a : small l -> archive_of l fetch a ->
  exists m, represents (after l) m /\ m = fst (spec_adds empty_map l) /\
    a_fetch a = fetch /\ wf a /\ aholds a m /\ in_order a /\ normal a /\ length (a_recs a) = length (cs_store (after l)).
Proof.
  intros Hs Ha. destruct (after_sim l) as (m & Hi & Hr & Hm).
  destruct (write_archive_ok (after l) m fetch Hi Hr Hs) as (a' & E & H1 & H2 & H3 & H4 & H5).
  unfold archive_of in Ha. rewrite Ha in E. injection E as <-. exists m.
  split; [exact Hr|]. split; [exact Hm|]. split; [exact H1|]. split; [exact H2|]. split; [exact H3|].
  split; [exact H5|]. split; [|exact H4]. eapply write_normal; eauto.
Qed.

Lemma archive_exists l fetch : small l -> exists a, archive_of l fetch a.
Proof.
  intros Hs. destruct (after_sim l) as (m & Hi & Hr & Hm).
  destruct (write_archive_ok (after l) m fetch Hi Hr Hs) as (a' & E & _). now exists a'.
Qed.

Lemma archive_has l fetch a p nd : small l -> archive_of l fetch a ->
  (has l p nd <-> exists i, astored a i p nd).
Proof.
  intros Hs Ha. destruct (archive_ok l fetch a Hs Ha) as (m & Hr & _ & _ & _ & Hm & _).
  unfold has. rewrite (Hr p nd). symmetry. apply Hm.
Qed.

Lemma apath_has l fetch a i p : small l -> archive_of l fetch a -> apath a i p -> exists nd, has l p nd.
Proof.
  intros Hs Ha Hp. destruct (archive_ok l fetch a Hs Ha) as (m & _ & _ & _ & Hw & _).
  destruct (has_node a i p Hw Hp) as [nd Hn]. exists nd. eapply archive_has; eauto.
Qed.

(** ** C11-C13 *)
Theorem lookup_spec l fetch a s : small l -> archive_of l fetch a -> pieces s <> [] ->
  (forall nd, has l (pieces s) nd -> exists i e, get_entry full_builder a s = Ok e /\ shows a e i (pieces s) nd) /\
  ((forall nd, ~ has l (pieces s) nd) -> get_entry full_builder a s = Err ENotFound).
Proof.
  intros Hs Ha Hne. destruct (archive_ok l fetch a Hs Ha) as (m & _ & _ & _ & Hw & _).
  pose proof (get_entry_spec a Hw full_builder s (full_total a Hw) Hne) as H. split.
  - intros nd Hn. apply (archive_has l fetch a) in Hn as (i & r & Hr & Hp & Hnd); auto.
    destruct (get_entry full_builder a s) as [e|x| |]; try easy.
    + destruct H as (j & Hj & He). exists j, e. split; auto.
      assert (j = i) by (eapply apath_inj; eauto). subst j.
      destruct (create_entry_full a Hw _ _ _ _ Hr Hp Hnd) as (e' & He' & Hsh). congruence.
    + destruct H as [_ H]. now apply H in Hp.
  - intros Hno. destruct (get_entry full_builder a s) as [e|x| |]; try easy.
    + destruct H as (j & Hj & He). destruct (apath_has l fetch a _ _ Hs Ha Hj) as [nd Hn]. now apply Hno in Hn.
    + destruct H as [-> _]. reflexivity.
Qed.

Lemma has_ancestor l p x t nd : has l (p ++ x :: t) nd -> p <> [] -> exists mt, has l p (KDir, mt).
Proof.
  destruct (after_sim l) as (m & Hi & Hr & _). intros H Hp. apply Hr in H.
  assert (Hd : exists q y, p ++ x :: t = q ++ [y] /\ exists u, q = p ++ u).
  { exists (p ++ removelast (x :: t)), (last (x :: t) []). split; [|eauto].
    rewrite <- app_assoc. f_equal. now apply app_removelast_last. }
  destruct Hd as (q & y & E & u & Eq). rewrite E in H.
  destruct (represents_closed _ _ Hi Hr q y) with (q := p) as [mt Hmt]; auto; [congruence| |].
  - apply is_prefix_spec. eauto.
  - exists mt. now apply Hr.
Qed.

Lemma has_fun l p nd nd' : has l p nd -> has l p nd' -> nd = nd'.
Proof. destruct (after_sim l) as (m & Hi & Hr & _). intros H H'. apply Hr in H. apply Hr in H'. congruence. Qed.

Theorem lookup_through_leaf l fetch a s p nd x t : small l -> archive_of l fetch a ->
  pieces s = p ++ x :: t -> has l p nd -> fst nd <> KDir -> get_entry full_builder a s = Err ENotFound.
Proof.
  intros Hs Ha E Hp Hnd.
  destruct (lookup_spec l fetch a s Hs Ha) as [_ H]; [rewrite E; now destruct p|].
  apply H. intros nd' Hn'. rewrite E in Hn'.
  assert (p <> []).
  { destruct Hp as (sl & e & _ & Hsp & _). now apply spath_nonempty in Hsp. }
  destruct (has_ancestor _ _ _ _ _ Hn') as [mt Hd]; auto.
  rewrite (has_fun _ _ _ _ Hp Hd) in Hnd. now apply Hnd.
Qed.

(** ** C18 *)
Lemma climb_spec a : wf a -> forall k i p, apath a i p -> (k <= length p)%nat ->
  match firstn (length p - k) p with
  | [] => climb a k (Some i) = Some None
  | q => exists j, climb a k (Some i) = Some (Some j) /\ apath a j q
  end.
Proof.
  intros Hw. induction k as [|k IH]; intros i p Hp Hk.
  - rewrite Nat.sub_0_r, firstn_all. destruct p as [|x p]; [now apply apath_nonempty in Hp|]. now exists i.
  - cbn [climb]. destruct (apath_at _ _ _ Hp) as [r Hr].
    destruct (has_node a i p Hw Hp) as [nd (r' & Hr' & _ & Hn)]. rewrite Hr in Hr'. injection Hr' as <-.
    destruct (create_entry_full a Hw _ _ _ _ Hr Hp Hn) as (e & He & Hsh).
    unfold get_entry_at_idx. rewrite He.
    assert (Hc : shows_common a (common_of e) i p (snd nd)).
    { destruct e as [[[c ad] sz]|[c t]|rg [c rg']]; cbn in Hsh |- *; destruct (fst nd); tauto. }
    destruct Hc as (_ & (dir & n & Ep & _ & Hpar) & _).
    assert (Hlen : length p = S (length dir)) by (rewrite Ep, app_length; cbn; lia).
    replace (length p - S k)%nat with (length dir - k)%nat by lia.
    assert (Ef : firstn (length dir - k) p = firstn (length dir - k) dir).
    { rewrite Ep. rewrite firstn_app. replace (length dir - k - length dir)%nat with 0%nat by lia. cbn. now rewrite app_nil_r. }
    rewrite Ef. destruct (c_parent (common_of e)) as [j|].
    + apply IH; auto. lia.
    + subst dir. cbn. destruct k; [reflexivity|cbn in Hlen; lia].
Qed.
