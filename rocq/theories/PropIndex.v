(** C07-C10: the index written by finalisation. *)
From Verif Require Export Demo LayoutFacts ReadFacts.

(** C07: sorting by (parent position, name) again and again -- with any sorting algorithm, from any
    initial order -- is stable after as many rounds as the depth of the tree; the stable order is
    unique and is the one of the archive; the loop of the model needs no more rounds. *)
Theorem C07_sorting_converges : forall l D k x y,
  deep (cs_store (after l)) D -> is_perm (cs_store (after l)) x ->
  many_rounds (cs_store (after l)) k x y -> (D <= k)%nat ->
  is_perm (cs_store (after l)) y /\ stable (cs_store (after l)) y /\ layout_of (cs_store (after l)) = Some y.
Proof. intros l. exact (any_sort_converges (after l) (run_adds_inv l)). Qed.
Print Assumptions C07_sorting_converges.

Theorem C07_stable_order_unique : forall l x y,
  is_perm (cs_store (after l)) x -> is_perm (cs_store (after l)) y ->
  stable (cs_store (after l)) x -> stable (cs_store (after l)) y -> x = y.
Proof. intros l. exact (stable_unique (after l) (run_adds_inv l)). Qed.
Print Assumptions C07_stable_order_unique.

Theorem C07_loop_terminates : forall l D, deep (cs_store (after l)) D ->
  exists y, sort_loop (cs_store (after l)) D (seq 0 (length (cs_store (after l)))) = Some y /\
    is_perm (cs_store (after l)) y /\ stable (cs_store (after l)) y.
Proof. intros l. exact (loop_terminates (after l) (run_adds_inv l)). Qed.
Print Assumptions C07_loop_terminates.

Theorem C07_finalisation_succeeds : forall l fetch, small l -> exists a, archive_of l fetch a.
Proof. exact archive_exists. Qed.
Print Assumptions C07_finalisation_succeeds.

(** A tree where one round is not enough: the second directory sorts before the first one. *)
Definition two_rounds : list entry := [d_file (b "z/b") 0 1; d_file (b "a/c/d") 0 1; d_file (b "z/a") 0 1].
Example C07_meets_hypotheses :
  deep (cs_store (after two_rounds)) 6 /\ is_perm (cs_store (after two_rounds)) (seq 0 6) /\
  sort_loop (cs_store (after two_rounds)) 0 (seq 0 6) = None /\
  sort_loop (cs_store (after two_rounds)) 1 (seq 0 6) = None /\
  exists y, sort_loop (cs_store (after two_rounds)) 2 (seq 0 6) = Some y.
Proof.
  split. { apply (depth_le_length (after two_rounds)). apply run_adds_inv. }
  split; [apply Permutation_refl|]. split; [reflexivity|]. split; [reflexivity|]. eexists. vm_compute. reflexivity.
Qed.

(** C08: children of a directory are one contiguous range in strictly increasing name order; so are
    the entries of the root. *)
Theorem C08_children_are_a_sorted_range : forall l fetch a, small l -> archive_of l fetch a ->
  (forall i r first nb, at_ (a_recs a) i = Some r -> r_payload r = RDir first nb ->
     first + nb <= N.of_nat (length (a_recs a)) /\
     (forall d k, apath a i d -> (first <= k < first + nb <-> exists n, apath a k (d ++ [n])))) /\
  (fst (a_root a) + snd (a_root a) <= N.of_nat (length (a_recs a)) /\
   forall k, fst (a_root a) <= k < fst (a_root a) + snd (a_root a) <-> exists n, apath a k [n]) /\
  (forall d i j x y, apath a i (d ++ [x]) -> apath a j (d ++ [y]) -> (i < j <-> bytes_cmp x y = Lt)).
Proof.
  intros l fetch a Hs Ha. destruct (archive_ok l fetch a Hs Ha) as (m & _ & _ & _ & Hw & _ & Ho & _).
  split; [|split].
  - intros i r first nb Hr Hp. destruct (wf_dir _ Hw _ _ _ _ Hr Hp) as [H1 H2]. split; auto.
    intros d k Hd. rewrite H2. symmetry. apply (child_path a Hw d). right. eauto.
  - destruct (wf_root _ Hw) as [H1 H2]. split; auto. intros k. rewrite H2. symmetry.
    apply (child_path a Hw [] 0 k). now left.
  - intros d i j x y Hi Hj. rewrite (Ho i j _ _ Hi Hj). apply shortlex_snoc_same.
Qed.
Print Assumptions C08_children_are_a_sorted_range.

Example C08_meets_hypotheses : small demo /\ archive_of demo demo_fetch demo_arx.
Proof. split; [exact demo_small|exact demo_built]. Qed.

(** C09: the index order is the short-lex order of paths; a directory precedes its children. *)
Theorem C09_shortlex_order : forall l fetch a i j p q, small l -> archive_of l fetch a ->
  apath a i p -> apath a j q -> (i < j <-> shortlex_lt p q).
Proof.
  intros l fetch a i j p q Hs Ha. destruct (archive_ok l fetch a Hs Ha) as (m & _ & _ & _ & _ & _ & Ho & _). apply Ho.
Qed.
Print Assumptions C09_shortlex_order.

Theorem C09_parent_first : forall l fetch a i j p x t, small l -> archive_of l fetch a ->
  apath a i p -> apath a j (p ++ x :: t) -> i < j.
Proof.
  intros l fetch a i j p x t Hs Ha Hi Hj. apply (C09_shortlex_order l fetch a i j p (p ++ x :: t)); auto.
  left. rewrite app_length. cbn. lia.
Qed.
Print Assumptions C09_parent_first.

(** Short-lex is a strict total order on paths, so this determines the index. *)
Theorem C09_shortlex_strict_total : forall p q,
  ~ shortlex_lt p p /\ (shortlex_lt p q \/ p = q \/ shortlex_lt q p) /\
  (forall r, shortlex_lt p q -> shortlex_lt q r -> shortlex_lt p r).
Proof.
  intros p q. split; [apply shortlex_irrefl|]. split; [apply shortlex_total|]. intros r. apply shortlex_trans.
Qed.
Print Assumptions C09_shortlex_strict_total.

(** C10: same contents, same index, whatever the history. *)
Theorem C10_order_independent : forall l1 l2 fetch,
  (forall p nd, has l1 p nd <-> has l2 p nd) -> small l1 -> small l2 ->
  exists a, archive_of l1 fetch a /\ archive_of l2 fetch a.
Proof. exact same_map_same_index. Qed.
Print Assumptions C10_order_independent.

(** In particular for two insertion orders of the same entries. *)
Definition demo' : list entry :=
  [d_file (b "a/z") 1 3; d_link (b "l") (b "a/b"); d_file (b "a/b/f.txt") 0 5].
Example C10_meets_hypotheses : archive_of demo demo_fetch demo_arx /\ archive_of demo' demo_fetch demo_arx /\ demo <> demo'.
Proof. split; [reflexivity|]. split; [vm_compute; reflexivity|discriminate]. Qed.
