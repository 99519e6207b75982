(** C84: the reading programs of the Python README. *)
From Verif Require Export PyWalkFacts.
From Verif Require Import PropRemount.

(** [iterate(arx)] ends and prints one line per entry, in the order of [arx list]. *)
Theorem C84_iterate : forall l fetch a, small l -> archive_of l fetch a -> readable l fetch ->
  exists enough ps out,
    StronglySorted path_lt (map fst ps) /\ (forall p nd, In (p, nd) ps <-> has l p nd) /\
    Forall2 (line_for l fetch) ps out /\
    forall fuel, (enough <= fuel)%nat -> py_walk fuel a [] (py_iter a) = Ok out.
Proof.
  intros l fetch a Hs Ha Hr. destruct (C42_plain_listing l fetch a Hs Ha) as (qs & _ & Q2 & _).
  assert (HD : exists D, forall p nd, has l p nd -> (length p <= D)%nat).
  { exists (fold_right max 0%nat (map (fun x => length (fst x)) qs)). intros p nd H. apply Q2 in H. clear -H. induction qs as [|x qs IH]; [easy|]. cbn. destruct H as [->|H]; [cbn; lia|]. specialize (IH H). lia. }
  destruct HD as [D HD]. destruct (walk_dir l fetch a Hs Ha Hr D HD D [] (py_iter a)) as (ns & Hns & _ & _ & fu & ps & out & W1 & W2 & W3 & W4); [cbn; lia|now left|].
  exists fu, ps, out. split; [exact W2|]. split; [|split; [exact W4|exact W1]].
  intros p nd. rewrite W3. split; [tauto|]. intros H. split; [exact H|]. destruct p as [|n t]; [now apply has_nonempty in H|]. exists n, t. split; [|reflexivity]. apply Hns.
  destruct t as [|z t]; [now exists nd|]. destruct (has_ancestor l [n] z t nd H) as [mt Hm]; [discriminate|]. now exists (KDir, mt).
Qed.
Print Assumptions C84_iterate.

(** Looking a path up and going up: [path] is the last name of it, the parents have the names before it, and above
    the first there is None. *)
Theorem C84_parents : forall l fetch a s p nd, small l -> archive_of l fetch a -> readable l fetch ->
  stands_for s p -> has l p nd -> exists e, py_get_entry a s = Ok e /\
    (forall k, (k < length p)%nat -> exists e', py_parents a k e = Ok (Some e') /\ py_path e' = Ok (nth (length p - 1 - k) p [])) /\
    py_parents a (length p) e = Ok None /\
    (forall k, (length p < k)%nat -> raises (py_parents a k e)).
Proof.
  intros l fetch a s p nd Hs Ha Hr Hst Hh. pose proof (has_nonempty _ _ _ Hh) as Hne.
  assert (Hu : Forall (fun n => utf8 n = true) p) by (apply Forall_forall; exact (proj1 (Hr _ _ Hh))).
  destruct (proj1 (C58_get_entry l fetch a s p Hs Ha Hst Hne Hu) nd Hh) as (i & e & E & Has & Hget). exists e. split; [exact E|].
  clear s Hst E Hu. remember (length p) as len eqn:El. revert p nd i e El Hh Hne Has Hget. induction len as [|len IH]; intros p nd i e El Hh Hne Has Hget; [now destruct p|].
  destruct (C58_attributes l fetch a i p nd e Hs Ha Has Hget) as (_ & (d & n & -> & Hp & Hpar) & _).
  rewrite app_length in El. cbn in El. assert (Hd : length d = len) by lia.
  assert (Hun : utf8 n = true) by (apply (proj1 (Hr _ _ Hh)); rewrite in_app_iff; right; now left).
  assert (H0 : forall e0, exists e', py_parents a 0 e0 = Ok (Some e') /\ e' = e0) by (intros e0; now exists e0).
  destruct d as [|x d].
  - cbn in Hd. subst len. split; [|split].
    + intros k Hk. assert (k = 0%nat) as -> by lia. exists e. split; [reflexivity|]. now apply Hp.
    + cbn [py_parents]. rewrite Hpar. reflexivity.
    + intros [|[|k]] Hk; try lia. cbn [py_parents]. rewrite Hpar. eexists. reflexivity.
  - destruct Hpar as (j & e' & nd' & Hpar & Hasj & Hgetj).
    assert (Hh' : has l (x :: d) nd') by (apply (archive_has l fetch a); auto; now exists j).
    destruct (IH (x :: d) nd' j e' (eq_sym Hd) Hh' (fun E => ltac:(discriminate E)) Hasj Hgetj) as (I1 & I2 & I3).
    assert (Hup : forall k, py_parents a (S k) e = py_parents a k e') by (intros k; cbn [py_parents]; rewrite Hpar; reflexivity).
    split; [|split].
    + intros [|k] Hk.
      * exists e. split; [reflexivity|]. rewrite (Hp Hun). f_equal. rewrite app_nth2; [|lia]. rewrite Hd. replace (S len - 1 - 0 - len)%nat with 0%nat by lia. reflexivity.
      * rewrite Hup. destruct (I1 k) as (e2 & J1 & J2); [lia|]. exists e2. split; [exact J1|]. rewrite J2. f_equal. rewrite app_nth1; [|lia]. f_equal. lia.
    + now rewrite Hup.
    + intros [|k] Hk; [lia|]. rewrite Hup. apply I3. lia.
Qed.
Print Assumptions C84_parents.

Lemma demo_readable : readable demo demo_fetch.
Proof.
  intros p nd H. apply demo_exact in H. destruct H as [E|[E|[E|[E|[E|[]]]]]]; injection E as <- <-;
    (split; [intros n Hn; cbn in Hn; repeat (destruct Hn as [<-|Hn]; [vm_compute; reflexivity|]); destruct Hn|]); try exact I; eexists; vm_compute; reflexivity.
Qed.
Example C84_meets_hypotheses : small demo /\ archive_of demo demo_fetch demo_arx /\ readable demo demo_fetch /\
  py_walk 10 demo_arx [] (py_iter demo_arx) =
    Ok [LDir (b "/a") 2; LDir (b "/a/b") 1; LFile (b "/a/b/f.txt") 5 (b "hello"); LFile (b "/a/z") 3 (b "xyz"); LLink (b "/l") (b "a/b")].
Proof. split; [exact demo_small|]. split; [exact demo_built|]. split; [exact demo_readable|]. vm_compute. reflexivity. Qed.
Example C84_parents_meets : exists e, stands_for (b "a/b/f.txt") [b "a"; b "b"; b "f.txt"] /\ py_get_entry demo_arx (b "a/b/f.txt") = Ok e /\ py_path e = Ok (b "f.txt") /\
  (exists e1, py_parents demo_arx 1 e = Ok (Some e1) /\ py_path e1 = Ok (b "b")) /\ py_parents demo_arx 3 e = Ok None.
Proof.
  eexists. split; [vm_compute; auto|]. split; [vm_compute; reflexivity|]. split; [vm_compute; reflexivity|]. split; [|vm_compute; reflexivity].
  eexists. split; vm_compute; reflexivity.
Qed.
