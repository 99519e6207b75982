(** The names a session stores. *)
From Verif Require Export ReadFacts SpecOrder CreatorFacts.

(** Every stored name is non-empty and without '/'. *)
Theorem stored_names l p nd : has l p nd -> p <> [] /\ Forall (fun n => n <> [] /\ no_sep n) p.
Proof.
  intros H. apply stored_origin in H.
  assert (Hd : forall s, Forall (fun n => n <> [] /\ no_sep n) (drop_dots (pieces s))).
  { intros s. apply Forall_forall. intros n Hn. apply (in_pieces s).
    unfold drop_dots in Hn. rewrite <- in_rev in Hn.
    assert (Hs : forall l0, In n (drop_trailing_dots_rev l0) -> In n l0).
    { induction l0 as [|y l0 IH]; cbn [drop_trailing_dots_rev In]; auto. destruct (bytes_eqb y (b ".")); cbn [In]; auto; tauto. }
    apply Hs in Hn. now rewrite <- in_rev in Hn. }
  assert (Hr : forall (q : path), removelast q = [] \/ exists x, q = removelast q ++ [x]).
  { intros q. destruct q as [|y q _] using rev_ind; [now left|]. right. exists y. now rewrite removelast_last. }
  assert (Hdir : forall s, Forall (fun n => n <> [] /\ no_sep n) (dir_of s)).
  { intros s. unfold dir_of. destruct (Hr (drop_dots (pieces s))) as [->|[x E]]; auto.
    specialize (Hd s). rewrite E in Hd. now apply Forall_app in Hd. }
  destruct H as [(e & _ & _ & _ & n & Hn & ->)|(_ & e & _ & Hne & r & E)].
  - split; [now destruct (dir_of (e_path e))|]. apply Forall_app. split; auto. constructor; auto.
    unfold last_of in Hn. specialize (Hd (e_path e)). destruct (rev (drop_dots (pieces (e_path e)))) as [|x q] eqn:E; [easy|].
    destruct (bytes_eqb x (b "..")); [easy|]. injection Hn as ->.
    rewrite Forall_forall in Hd. apply Hd. rewrite in_rev, E. now left.
  - split; auto. specialize (Hdir (e_path e)). rewrite E in Hdir. now apply Forall_app in Hdir.
Qed.

(** "." is only stored as a directory nobody described, on the way to a path that contains it. *)
Theorem stored_dotless l : (forall e, In e l -> ~ In (b ".") (dir_of (e_path e))) -> forall p nd, has l p nd -> ~ In (b ".") p.
Proof.
  intros Hl p nd H. apply stored_origin in H. destruct H as [(e & He & _ & _ & n & Hn & ->)|(_ & e & He & Hne & r & E)].
  - specialize (Hl e He). rewrite in_app_iff. intros [H|[->|[]]]; [easy|].
    unfold last_of in Hn. destruct (rev (drop_dots (pieces (e_path e)))) as [|x q] eqn:E; [easy|].
    destruct (bytes_eqb x (b "..")); [easy|]. assert (x = b ".") as -> by congruence.
    clear - E. unfold drop_dots in E. rewrite rev_involutive in E.
    revert E. induction (rev (pieces (e_path e))) as [|y l IH]; cbn [drop_trailing_dots_rev]; [easy|].
    destruct (bytes_eqb_spec y (b ".")); auto. intros H. congruence.
  - intros Hin. apply (Hl e He). rewrite E, in_app_iff. now left.
Qed.
