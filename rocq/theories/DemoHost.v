(** Small host file systems given as lists, used in the examples about extraction and creation. *)
From Verif Require Export Demo SpecExtract.

Fixpoint lookup_name (l : list (path * hnode)) (p : path) : option hnode :=
  match l with
  | [] => None
  | (q, n) :: r => if path_eqb' p q then Some n else lookup_name r p
  end.
(** Contents by inode. *)
Definition host_of (l : list (path * hnode)) (data : list bytes) : hostfs :=
  mkHost (lookup_name l) (fun i => nth (N.to_nat i) data []) (fun _ => 1000000000%Z) (N.of_nat (length data))
    (fun _ => 1000000000%Z) 5000000000000%Z.

Definition tidyb (l : list (path * hnode)) (next : N) : bool :=
  forallb (fun x =>
    match rev (fst x) with
    | [] => false
    | [_] => true
    | _ :: d => match lookup_name l (rev d) with Some HDir => true | _ => false end
    end
    && match snd x with
       | HFile i => (i <? next) && forallb (fun y => match snd y with HFile j => negb (i =? j) || path_eqb' (fst x) (fst y) | _ => true end) l
       | _ => true
       end) l.

Lemma path_eqb'_true p : forall q, path_eqb' p q = true -> p = q.
Proof.
  induction p as [|x p IH]; intros [|y q] H; cbn in H; try easy. apply andb_true_iff in H as [H1 H2].
  f_equal; auto. now destruct (bytes_eqb_spec x y).
Qed.

Lemma lookup_in l p n : lookup_name l p = Some n -> In (p, n) l.
Proof.
  induction l as [|[q m] l IH]; cbn; [easy|]. destruct (path_eqb' p q) eqn:E; auto.
  intros H. injection H as <-. apply path_eqb'_true in E. subst q. now left.
Qed.

Lemma tidyb_ok l data : tidyb l (N.of_nat (length data)) = true -> tidy (host_of l data).
Proof.
  intros H. unfold tidyb in H. rewrite forallb_forall in H.
  assert (H' : forall p n, lookup_name l p = Some n -> _) by (intros p n Hp; exact (H _ (lookup_in _ _ _ Hp))). clear H.
  constructor; cbn [host_of h_names h_next].
  - intros p x n Hp. apply H' in Hp. cbn [fst snd] in Hp. rewrite rev_app_distr in Hp. cbn [rev app] in Hp.
    apply andb_true_iff in Hp as [Hp _]. destruct (rev p) as [|y r] eqn:E.
    + left. apply (f_equal (@rev _)) in E. now rewrite rev_involutive in E.
    + right. rewrite <- E, rev_involutive in Hp. destruct (lookup_name l p) as [[| |]|]; congruence.
  - destruct (lookup_name l []) as [n|] eqn:E; auto. apply H' in E. discriminate E.
  - intros p i Hp. apply H' in Hp. cbn [fst snd] in Hp. apply andb_true_iff in Hp as [_ Hp]. apply andb_true_iff in Hp as [Hp _].
    now apply N.ltb_lt.
  - intros p q i Hp Hq. pose proof (lookup_in _ _ _ Hq) as Hin. apply H' in Hp. cbn [fst snd] in Hp. apply andb_true_iff in Hp as [_ Hp].
    apply andb_true_iff in Hp as [_ Hp]. rewrite forallb_forall in Hp. specialize (Hp _ Hin). cbn [fst snd] in Hp.
    rewrite N.eqb_refl in Hp. now apply path_eqb'_true.
Qed.

(** Archives whose names are all ordinary. *)
Lemma names_plain a d : forallb (fun r => ordinaryb (r_name r) && utf8 (r_name r)) (a_recs a) = true -> plain_names a d.
Proof.
  intros H. rewrite forallb_forall in H.
  assert (Hr : forall i r, at_ (a_recs a) i = Some r -> ordinary (r_name r) /\ utf8 (r_name r) = true).
  { intros i r Hi. unfold at_ in Hi. destruct (i <? _) in Hi; [|discriminate Hi]. apply nth_error_In in Hi. apply H in Hi.
    apply andb_true_iff in Hi as [H1 H2]. split; auto. now apply ordinaryb_spec. }
  assert (Hp : forall i p, apath a i p -> Forall (fun n => ordinary n /\ utf8 n = true) p).
  { induction 1 as [i r Hi _|i r j p Hi _ _ IH]; [constructor; eauto|apply Forall_app; split; auto; constructor; eauto]. }
  intros i p Hi _. apply Hp in Hi. now apply Forall_app in Hi.
Qed.

Definition at_t : path := [b "t"].
Definition at_out : path := [b "t"; b "out"].
Definition cfg_all (pol : overwrite) : config := mkConfig [] ([], [b "t"; b "."; b "out"]) true pol.
Definition idle : nat -> list (nat * option nat) := fun _ => [].
(** Each of the first four writers gets two turns. *)
Definition all_turns : list (nat * option nat) :=
  [(0, Some 5000); (1, Some 3); (2, Some 5000); (3, Some 5000); (0, Some 5000); (1, Some 5000)]%nat.

(** Only /t exists. *)
Definition host0 : hostfs := host_of [(at_t, HDir)] [].
(** /t/out exists with a file "l" and a directory "a" holding "z"; also a bystander. *)
Definition host1 : hostfs := host_of
  [(at_t, HDir); (at_out, HDir); (at_out ++ [b "l"], HFile 0); (at_out ++ [b "a"], HDir); (at_out ++ [b "a"; b "z"], HFile 1); (at_t ++ [b "other"], HFile 2)]
  [b "old l"; b "old z"; b "mine"].

Lemma demo_dir_range : dir_range demo_arx (a_root demo_arx) [].
Proof. left. auto. Qed.
Lemma demo_setting : setting demo demo_fetch demo_arx (a_root demo_arx) [] host0 (x_base (cfg_all Skip)) at_out.
Proof.
  constructor.
  - exact demo_small.
  - exact demo_built.
  - exact demo_dir_range.
  - apply names_plain. vm_compute. reflexivity.
  - repeat split.
    + unfold cfg_all. cbn [x_base snd]. constructor; [right; apply ordinaryb_spec; reflexivity|].
      constructor; [now left|]. constructor; [right; apply ordinaryb_spec; reflexivity|constructor].
    + intros q x t E. destruct q; discriminate E.
    + intros q t E Hq. destruct q as [|x [|y [|z q]]]; [easy| | |]; cbn in E.
      * injection E as <- _. now right.
      * injection E as <- <- _. now left.
      * discriminate E.
  - apply tidyb_ok. vm_compute. reflexivity.
  - intros i p nd t m _ _ H. cbn [host0 host_of h_names] in H. apply lookup_in in H. cbn in H. destruct H as [H|[]]. discriminate H.
Qed.
Lemma demo_setting1 pol : setting demo demo_fetch demo_arx (a_root demo_arx) [] host1 (x_base (cfg_all pol)) at_out.
Proof.
  constructor.
  - exact demo_small.
  - exact demo_built.
  - exact demo_dir_range.
  - apply names_plain. vm_compute. reflexivity.
  - repeat split.
    + unfold cfg_all. cbn [x_base snd]. constructor; [right; apply ordinaryb_spec; reflexivity|].
      constructor; [now left|]. constructor; [right; apply ordinaryb_spec; reflexivity|constructor].
    + intros q x t E. destruct q; discriminate E.
    + intros q t E Hq. destruct q as [|x [|y [|z q]]]; [easy| | |]; cbn in E.
      * injection E as <- _. now right.
      * injection E as <- <- _. now right.
      * discriminate E.
  - apply tidyb_ok. vm_compute. reflexivity.
  - intros i p nd t m _ _ H. cbn [host1 host_of h_names] in H. apply lookup_in in H. cbn in H.
    repeat (destruct H as [H|H]; [discriminate H|]). easy.
Qed.
