(** Path strings of the walker seen through their components. *)
From Verif Require Export AddFacts HostProofs.

Lemma path_join_pieces s n : ordinary n -> pieces (path_join s n) = pieces s ++ [n].
Proof.
  intros (H1 & H2 & _). unfold path_join. destruct (nonempty s && negb (ends_with_sep s)) eqn:E.
  - rewrite pieces_app_sep, (pieces_no_sep n) by auto. now destruct n.
  - apply andb_false_iff in E as [E|E].
    + destruct s; [|discriminate E]. cbn [app]. rewrite pieces_no_sep by auto. now destruct n.
    + apply negb_false_iff in E. destruct s as [|c s _] using rev_ind; [discriminate E|].
      rewrite ends_with_sep_snoc in E. apply is_sep_eq in E. subst c.
      rewrite <- app_assoc. cbn [app]. rewrite pieces_app_sep, pieces_snoc_sep, (pieces_no_sep n) by auto. now destruct n.
Qed.

Lemma path_join_nonempty s n : ordinary n -> path_join s n <> [].
Proof.
  intros (H & _) E. unfold path_join in E. destruct (_ && _); apply app_eq_nil in E as [_ E]; [easy|auto].
Qed.

Lemma path_join_end s n : ordinary n -> ends_with_sep (path_join s n) = false.
Proof.
  intros (H1 & H2 & _). destruct n as [|c n _] using rev_ind; [easy|].
  assert (Hc : is_sep c = false).
  { destruct (is_sep c) eqn:E; auto. apply is_sep_eq in E. subst c. exfalso. apply H2. rewrite in_app_iff. cbn. auto. }
  unfold path_join. destruct (_ && _).
  - change (sep :: n ++ [c]) with ((sep :: n) ++ [c]). rewrite app_assoc. now rewrite ends_with_sep_snoc.
  - rewrite app_assoc. now rewrite ends_with_sep_snoc.
Qed.

Lemma path_join_abs s n : s <> [] -> is_abs (path_join s n) = is_abs s.
Proof. unfold path_join. destruct s; [easy|]. intros _. destruct (_ && _); reflexivity. Qed.

(** [s] followed by the names [q] *)
Definition str (s : bytes) (q : path) : bytes := fold_left path_join q s.

Lemma str_snoc s q n : str s (q ++ [n]) = path_join (str s q) n.
Proof. unfold str. now rewrite fold_left_app. Qed.

Lemma str_pieces s q : Forall ordinary q -> pieces (str s q) = pieces s ++ q.
Proof.
  induction q as [|n q IH] using rev_ind; intros H; [now rewrite app_nil_r|].
  apply Forall_app in H as [H Hn]. inversion Hn; subst. rewrite str_snoc, path_join_pieces, IH by auto. now rewrite app_assoc.
Qed.

Lemma str_nonempty s q : s <> [] -> Forall ordinary q -> str s q <> [].
Proof.
  intros Hs. destruct q as [|n q _] using rev_ind; auto. intros H. apply Forall_app in H as [H Hn]. inversion Hn; subst.
  rewrite str_snoc. now apply path_join_nonempty.
Qed.

Lemma str_end s q : Forall ordinary q -> q <> [] -> ends_with_sep (str s q) = false.
Proof.
  destruct q as [|n q _] using rev_ind; [easy|]. intros H _. apply Forall_app in H as [H Hn]. inversion Hn; subst.
  rewrite str_snoc. now apply path_join_end.
Qed.

Lemma str_abs s q : s <> [] -> Forall ordinary q -> is_abs (str s q) = is_abs s.
Proof.
  intros Hs. induction q as [|n q IH] using rev_ind; auto. intros H. apply Forall_app in H as [H Hn]. inversion Hn; subst.
  rewrite str_snoc, path_join_abs; auto. now apply str_nonempty.
Qed.

Lemma filter_ordinary q : Forall ordinary q -> filter not_dot q = q.
Proof.
  induction 1 as [|n q (H1 & H2 & H3 & H4) _ IH]; auto. cbn [filter].
  unfold not_dot at 1. destruct (bytes_eqb_spec n (b ".")); [easy|]. cbn [negb]. now rewrite IH.
Qed.

(** ** [is_root_entry] *)
Lemma list_eqb_length {A} (eqb : A -> A -> bool) x : forall y, list_eqb eqb x y = true -> length x = length y.
Proof. induction x as [|a x IH]; intros [|c y] H; cbn in *; try easy. apply andb_true_iff in H as [_ H]. now rewrite (IH y H). Qed.

Lemma list_eqb_refl {A} (eqb : A -> A -> bool) x : (forall a, eqb a a = true) -> list_eqb eqb x x = true.
Proof. intros H. induction x; cbn; auto. now rewrite H, IHx. Qed.

Lemma ocomp_eqb_refl x : ocomp_eqb x x = true.
Proof. destruct x as [c|]; auto. cbn. unfold comp_eqb. now destruct (bytes_eqb_spec (as_str c) (as_str c)). Qed.

Lemma rel_pieces s : s <> [] -> is_abs s = false -> pieces s <> [].
Proof.
  destruct s as [|c s]; [easy|]. intros _ H E. cbn [is_abs] in H.
  assert (Hs : In c (concat (pieces (c :: s)))).
  { unfold pieces. cbn [split_sep]. rewrite H. destruct (split_sep s) as [|h t]; cbn; auto. }
  rewrite E in Hs. destruct Hs.
Qed.

Lemma is_root s q : s <> [] -> is_abs s = false -> Forall ordinary q -> q <> [] -> std_path_eqb (str s q) s = false.
Proof.
  intros Hs Ha Ho Hq. destruct (std_path_eqb (str s q) s) eqn:E; auto. apply list_eqb_length in E.
  unfold std_components in E. rewrite (str_abs s q Hs Ho), Ha, (str_pieces s q Ho) in E.
  destruct (pieces s) as [|p r] eqn:Ep; [now apply (rel_pieces s Hs Ha) in Ep|]. cbn [app length] in E.
  rewrite filter_app, !map_length, app_length in E. rewrite (filter_ordinary q Ho) in E.
  destruct q; [easy|]. cbn in E. lia.
Qed.

Lemma is_root_self s : std_path_eqb s s = true.
Proof. apply list_eqb_refl, ocomp_eqb_refl. Qed.

(** ** The path in the archive *)
Lemma strip_components_clean s base : match strip_components s base with
  | Some r => r = s \/ (pieces r = [] -> r = [])
  | None => True
  end.
Proof.
  revert s; induction base as [|y base IH]; intros s; cbn [strip_components]; auto.
  pose proof (next_front_pieces s) as Hn. destruct (next_front s) as [[c|] rest] eqn:En; auto.
  destruct (comp_eqb c y); auto. specialize (IH rest). destruct (strip_components rest base) as [r|]; auto.
  right. destruct IH as [->|IH]; auto. unfold next_front in En. injection En as En <-.
  intros Hp. rewrite pieces_trim_start in Hp. set (d := drop_while _ _) in *. clearbody d. clear - Hp.
  induction d as [|c d IH]; auto. unfold trim_start. cbn [drop_while]. destruct (is_sep c) eqn:E.
  - apply is_sep_eq in E. subst c. rewrite pieces_sep_cons in Hp. now apply IH.
  - exfalso. unfold pieces in Hp. cbn [split_sep] in Hp. rewrite E in Hp. destruct (split_sep d); discriminate Hp.
Qed.

Lemma good_join l : Forall (fun n => n <> [] /\ no_sep n) l -> join l = [] -> l = [].
Proof. intros H E. rewrite <- (pieces_join l H), E. reflexivity. Qed.

Lemma from_path_ok s : s <> [] -> is_abs s = false -> forallb utf8 (filter not_dot (pieces s)) = true ->
  from_path s = Ok (join (filter not_dot (pieces s))) /\ pieces (join (filter not_dot (pieces s))) = filter not_dot (pieces s).
Proof.
  intros Hs Ha Hu. destruct s as [|c s]; [easy|]. unfold from_path. cbn [is_abs] in Ha. rewrite Ha.
  fold not_dot in *. change (fun p : bytes => negb (bytes_eqb p (b "."))) with not_dot. rewrite Hu. split; auto.
  apply pieces_join. apply Forall_forall. intros n Hn. apply filter_In in Hn as [Hn _]. now apply in_pieces in Hn.
Qed.

(** What [strip_prefix] leaves of the path [l]. *)
Lemma strip_join l pre r : Forall (fun n => n <> [] /\ no_sep n) l -> l = pieces pre ++ r ->
  exists a, strip_prefix (join l) pre = Some a /\ pieces a = r /\ (r = [] -> a = []).
Proof.
  intros Hl E. pose proof (strip_prefix_pieces (join l) pre) as H. pose proof (strip_components_clean (join l) (components pre)) as Hc.
  fold (strip_prefix (join l) pre) in Hc. rewrite (pieces_join l Hl) in H. destruct (strip_prefix (join l) pre) as [a|].
  - exists a. split; auto. assert (Ha : pieces a = r) by (rewrite E in H; now apply app_inv_head in H). split; auto.
    intros ->. destruct Hc as [->|Hc]; auto. rewrite (pieces_join l Hl) in Ha. rewrite Ha. reflexivity.
  - exfalso. now apply (H r).
Qed.
