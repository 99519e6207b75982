(** More fuel changes nothing: a walk that ends, ends the same way with more. *)
From Verif Require Export Cli.

Lemma opt_concat_mono {A B} (f g : A -> option (list B)) : (forall x y, f x = Some y -> g x = Some y) ->
  forall l r, opt_concat f l = Some r -> opt_concat g l = Some r.
Proof.
  intros H. induction l as [|x l IH]; intros r; cbn [opt_concat]; auto.
  destruct (f x) as [y|] eqn:E; [|intros K; discriminate K]. rewrite (H _ _ E).
  destruct (opt_concat f l) as [z|]; [|intros K; discriminate K]. intros K. now rewrite (IH z eq_refl).
Qed.
Lemma walk_in_mono w : forall k j s l, (k <= j)%nat -> walk_in k w s = Some l -> walk_in j w s = Some l.
Proof.
  induction k as [|k IH]; intros j s l Hj H; [discriminate H|]. destruct j as [|j]; [lia|]. cbn [walk_in] in *.
  destruct (read_dir w s) as [[q names]|]; auto. revert H. apply opt_concat_mono. intros n y.
  destruct (h_names (w_fs w) (q ++ [n])) as [[|i|t m]|]; auto.
  destruct (walk_in k w (path_join s n)) as [z|] eqn:E; [|intros K; discriminate K].
  intros K. rewrite (IH j _ z); auto. lia.
Qed.
Lemma walk_mono w s rc k j l : (k <= j)%nat -> walk k w s rc = Some l -> walk j w s rc = Some l.
Proof.
  intros Hj. unfold walk. destruct rc; auto.
  assert (E : forall l, match walk_in k w s with Some l => Some (WEntry s :: l) | None => None end = Some l ->
              match walk_in j w s with Some l => Some (WEntry s :: l) | None => None end = Some l).
  { intros l'. destruct (walk_in k w s) as [z|] eqn:E; [|intros K; discriminate K]. intros K. now rewrite (walk_in_mono w k j s z). }
  destruct (look_str w false s) as [q [|i|t m]|q|e]; auto. destruct (look_str w true s) as [q' [|i|t' m']|q'|e]; auto.
Qed.
Lemma add_infiles_mono w pre rc k j : (k <= j)%nat -> forall l c c1,
  add_infiles k w pre l rc c = (c1, Ok tt) -> add_infiles j w pre l rc c = (c1, Ok tt).
Proof.
  intros Hj. induction l as [|s l IH]; intros c c1; cbn [add_infiles]; auto. unfold add_from_path.
  destruct (walk k w s rc) as [z|] eqn:E; [|intros K; discriminate K]. rewrite (walk_mono w s rc k j z) by auto.
  destruct (add_each _ _ _ _) as [c2 [[]| | |]]; auto.
Qed.
Lemma fill_mono w w' o k j c : (k <= j)%nat -> fill k w w' o = (c, Ok tt) -> fill j w w' o = (c, Ok tt).
Proof.
  intros Hj. unfold fill. destruct (o_file_list o); auto. destruct (existsb is_abs (o_infiles o)); auto.
  destruct (check_input_paths_exist w' (o_infiles o)) as [[]| | |]; auto. now apply add_infiles_mono.
Qed.
(** [create] that ends well does so whatever the fuel from there on. *)
Lemma create_mono w can_open o k j evs : (k <= j)%nat -> create k w can_open o = (evs, Ok tt) -> create j w can_open o = (evs, Ok tt).
Proof.
  intros Hj. unfold create. destruct (o_list_compressions o); auto.
  destruct (check_output_path_writable w (o_out o) (o_force o)) as [[]| | |]; auto.
  destruct (match o_base o with Some d => chdir w d | None => Ok w end) as [w'| | |]; auto.
  destruct (create_concat (o_concat o)) as [m| | |]; auto. destruct can_open; auto.
  destruct (fill k w w' o) as [c [[]| | |]] eqn:E; try (intros K; discriminate K). now rewrite (fill_mono w w' o k j c).
Qed.
