(** Facts about [RelPath]: the string functions seen through the list of pieces. *)
From Verif Require Export RelPath BaseFacts.

Definition no_sep (s : bytes) : Prop := ~ In sep s.

(** An ordinary file name: what a name can be on a POSIX file system. *)
Definition ordinary (n : bytes) : Prop :=
  n <> [] /\ no_sep n /\ n <> b "." /\ n <> b "..".

Definition ordinaryb (n : bytes) : bool :=
  nonempty n && forallb (fun c => negb (is_sep c)) n
  && negb (bytes_eqb n (b ".")) && negb (bytes_eqb n (b "..")).

Lemma is_sep_eq c : is_sep c = true <-> c = sep.
Proof. unfold is_sep. apply N.eqb_eq. Qed.

Lemma no_sepb s : forallb (fun c => negb (is_sep c)) s = true <-> no_sep s.
Proof.
  unfold no_sep. rewrite forallb_forall. split; intros H.
  - intros Hin. apply H in Hin. discriminate Hin.
  - intros c Hc. destruct (is_sep c) eqn:E; auto. apply is_sep_eq in E. subst. contradiction.
Qed.

Lemma ordinaryb_spec n : ordinaryb n = true <-> ordinary n.
Proof.
  unfold ordinaryb, ordinary. rewrite !andb_true_iff, no_sepb, !negb_true_iff, !bytes_eqb_neq.
  destruct n; cbn; intuition congruence.
Qed.

Lemma split_nonnil s : split_sep s <> [].
Proof. destruct s as [|c s]; cbn; try easy. destruct (is_sep c); try easy. destruct (split_sep s); easy. Qed.

Lemma split_app_sep x y : split_sep (x ++ sep :: y) = split_sep x ++ split_sep y.
Proof.
  induction x as [|c x IH]; cbn [app split_sep].
  - reflexivity.
  - destruct (is_sep c) eqn:E.
    + now rewrite IH.
    + rewrite IH. destruct (split_sep x) as [|h t] eqn:Ex; cbn; auto.
      now apply split_nonnil in Ex.
Qed.

Lemma split_no_sep s : no_sep s -> split_sep s = [s].
Proof.
  induction s as [|c s IH]; cbn; intros H; auto.
  assert (is_sep c = false) as ->.
  { destruct (is_sep c) eqn:E; auto. apply is_sep_eq in E. subst. destruct H. now left. }
  rewrite IH; auto. intros Hs. apply H. now right.
Qed.

Lemma pieces_app_sep x y : pieces (x ++ sep :: y) = pieces x ++ pieces y.
Proof. unfold pieces. now rewrite split_app_sep, filter_app. Qed.

Lemma pieces_nil : pieces [] = [].
Proof. reflexivity. Qed.

Lemma pieces_no_sep s : no_sep s -> pieces s = if nonempty s then [s] else [].
Proof. intros H. unfold pieces. now rewrite split_no_sep. Qed.

Lemma pieces_sep_cons y : pieces (sep :: y) = pieces y.
Proof. change (sep :: y) with ([] ++ sep :: y). now rewrite pieces_app_sep. Qed.

Lemma pieces_snoc_sep x : pieces (x ++ [sep]) = pieces x.
Proof. rewrite pieces_app_sep. cbn. now rewrite app_nil_r. Qed.

Lemma in_pieces s p : In p (pieces s) -> p <> [] /\ no_sep p.
Proof.
  unfold pieces. rewrite filter_In. intros [H Hn]. split.
  { destruct p; easy. }
  clear Hn. revert p H. induction s as [|c s IH]; cbn; intros p H.
  - destruct H as [<-|[]]. intros [].
  - destruct (is_sep c) eqn:E.
    + destruct H as [<-|H]; [intros []|auto].
    + destruct (split_sep s) as [|h t] eqn:Es.
      * destruct H as [<-|[]]. intros [->|[]]. discriminate.
      * destruct H as [<-|H].
        -- intros [->|H]; [discriminate|]. apply (IH h); auto. now left.
        -- apply IH; auto. now right.
Qed.

Lemma pieces_join l : Forall (fun n => n <> [] /\ no_sep n) l -> pieces (join l) = l.
Proof.
  induction l as [|x l IH]; intros H; auto.
  apply Forall_cons_iff in H as [[Hx Hs] H]. destruct l as [|y l].
  - change (join [x]) with x. rewrite pieces_no_sep; auto. destruct x; easy.
  - change (join (x :: y :: l)) with (x ++ sep :: join (y :: l)).
    rewrite pieces_app_sep, IH, pieces_no_sep; auto. destruct x; easy.
Qed.

Lemma classify_as_str p : as_str (classify p) = p.
Proof.
  unfold classify. destruct (bytes_eqb_spec p (b ".")); [subst; auto|].
  destruct (bytes_eqb_spec p (b "..")); subst; auto.
Qed.

Lemma iter_pieces s : path_iter s = pieces s.
Proof.
  unfold path_iter, components. rewrite map_map. erewrite map_ext; [apply map_id|].
  apply classify_as_str.
Qed.

Lemma classify_ordinary n : ordinary n -> classify n = Normal n.
Proof.
  intros (_ & _ & H1 & H2). unfold classify.
  apply bytes_eqb_neq in H1 as ->. now apply bytes_eqb_neq in H2 as ->.
Qed.

Lemma classify_inj p q : classify p = classify q -> p = q.
Proof. intros H. apply (f_equal as_str) in H. now rewrite !classify_as_str in H. Qed.

Lemma list_eqb_eq {A} (eqb : A -> A -> bool) (P : A -> Prop) x y :
  (forall a c, P a -> P c -> (eqb a c = true <-> a = c)) ->
  Forall P x -> Forall P y -> (list_eqb eqb x y = true <-> x = y).
Proof.
  intros He. revert y. induction x as [|a x IH]; intros [|c y] Hx Hy; cbn; split; intros H; try easy.
  - apply Forall_cons_iff in Hx as [Ha Hx]. apply Forall_cons_iff in Hy as [Hc Hy].
    apply andb_prop in H as [H1 H2]. apply He in H1; auto. apply IH in H2; auto. congruence.
  - apply Forall_cons_iff in Hx as [Ha Hx]. apply Forall_cons_iff in Hy as [Hc Hy].
    injection H as -> ->. apply andb_true_intro. split; [now apply He|now apply IH].
Qed.

Lemma path_eqb_pieces x y : path_eqb x y = true <-> pieces x = pieces y.
Proof.
  unfold path_eqb, components. generalize (pieces x) (pieces y). clear x y.
  intros l. induction l as [|p l IH]; intros [|q l']; cbn; split; intros H; try easy.
  - apply andb_prop in H as [H1 H2]. unfold comp_eqb in H1. rewrite !classify_as_str in H1.
    apply bytes_eqb_eq in H1. apply IH in H2. congruence.
  - injection H as -> ->. unfold comp_eqb. rewrite bytes_eqb_refl. cbn. now apply IH.
Qed.

(** take/drop while *)
Lemma take_drop f s : take_while f s ++ drop_while f s = s.
Proof. induction s as [|c s IH]; cbn; auto. destruct (f c); cbn; congruence. Qed.

Lemma take_while_all f s c : In c (take_while f s) -> f c = true.
Proof. induction s as [|d s IH]; cbn; [easy|]. destruct (f d) eqn:E; cbn; [|easy]. intros [->|H]; auto. Qed.

Lemma drop_while_head f s : match drop_while f s with [] => True | c :: _ => f c = false end.
Proof. induction s as [|c s IH]; cbn; auto. destruct (f c) eqn:E; auto. Qed.

Lemma take_while_notsep_no_sep s : no_sep (take_while (fun c => negb (is_sep c)) s).
Proof. intros H. apply take_while_all in H. discriminate H. Qed.

Lemma pieces_trim_start s : pieces (trim_start s) = pieces s.
Proof.
  unfold trim_start. induction s as [|c s IH]; auto. cbn [drop_while].
  destruct (is_sep c) eqn:E; auto. apply is_sep_eq in E as ->. now rewrite pieces_sep_cons.
Qed.

Lemma pieces_trim_end s : pieces (trim_end s) = pieces s.
Proof.
  unfold trim_end. induction s as [|c s IH] using rev_ind; auto.
  rewrite rev_app_distr. cbn [rev app drop_while]. destruct (is_sep c) eqn:E.
  - apply is_sep_eq in E as ->. now rewrite IH, pieces_snoc_sep.
  - cbn [rev]. now rewrite rev_involutive.
Qed.

(** [next_back] on pieces. *)
Lemma next_back_pieces s :
  match next_back s with
  | (Some c, rest) => exists p, c = classify p /\ pieces s = pieces rest ++ [p]
  | (None, rest) => pieces s = [] /\ rest = []
  end.
Proof.
  unfold next_back. set (r := rev (trim_end s)).
  pose (f := fun c => negb (is_sep c)). fold f.
  assert (Hp : pieces s = pieces (rev r)).
  { unfold r. now rewrite rev_involutive, pieces_trim_end. }
  pose proof (take_drop f r) as Htd. pose proof (drop_while_head f r) as Hd.
  assert (Hns : no_sep (rev (take_while f r))).
  { intros H. apply in_rev in H. exact (take_while_notsep_no_sep r H). }
  destruct (drop_while f r) as [|c d] eqn:Ed.
  - cbn. rewrite app_nil_r in Htd. rewrite Htd in *.
    destruct (rev r) as [|x l] eqn:Er.
    + cbn. rewrite Hp. split; auto.
    + cbn [nonempty]. exists (x :: l). split; auto.
      rewrite Hp. rewrite pieces_no_sep; auto.
  - assert (c = sep) as ->.
    { unfold f in Hd. destruct (is_sep c) eqn:E; [now apply is_sep_eq|discriminate Hd]. }
    assert (Hr : rev r = rev d ++ sep :: rev (take_while f r)).
    { rewrite <- Htd at 1. rewrite rev_app_distr. cbn [rev]. now rewrite <- app_assoc. }
    destruct (rev (take_while f r)) as [|x l] eqn:Et.
    + (* the trimmed path cannot end with a separator *)
      exfalso. apply (f_equal (@rev _)) in Et. rewrite rev_involutive in Et. cbn in Et.
      rewrite Et in Htd. cbn in Htd.
      assert (Hh := drop_while_head is_sep (rev s)).
      unfold r, trim_end in Htd. rewrite rev_involutive in Htd. rewrite <- Htd in Hh.
      discriminate Hh.
    + cbn [nonempty]. exists (x :: l). split; auto.
      rewrite Hp, Hr, pieces_app_sep, pieces_trim_end. cbn [rev].
      rewrite pieces_snoc_sep. f_equal. now rewrite pieces_no_sep.
Qed.

Lemma drop_while_length f s : (length (drop_while f s) <= length s)%nat.
Proof. induction s as [|c s IH]; cbn; auto. destruct (f c); cbn; lia. Qed.

Lemma trim_end_length s : (length (trim_end s) <= length s)%nat.
Proof. unfold trim_end. rewrite rev_length. pose proof (drop_while_length is_sep (rev s)) as H. now rewrite rev_length in H. Qed.

Lemma next_back_length s c rest : next_back s = (Some c, rest) -> (length rest < length s)%nat.
Proof.
  unfold next_back. set (r := rev (trim_end s)). pose (f := fun c => negb (is_sep c)). fold f.
  intros H. destruct (nonempty (rev (take_while f r))) eqn:E; [|discriminate H].
  injection H as _ <-. pose proof (take_drop f r) as Htd.
  apply (f_equal (@length _)) in Htd. rewrite app_length in Htd.
  assert (0 < length (take_while f r))%nat.
  { destruct (take_while f r); cbn in *; [discriminate|lia]. }
  pose proof (trim_end_length (rev (drop_while f r))). rewrite rev_length in H0.
  assert (length r <= length s)%nat by (unfold r; rewrite rev_length; apply trim_end_length).
  lia.
Qed.

Lemma drop_dots_snoc l p : drop_dots (l ++ [p]) = if bytes_eqb p (b ".") then drop_dots l else l ++ [p].
Proof.
  unfold drop_dots. rewrite rev_app_distr. cbn [rev app drop_trailing_dots_rev].
  destruct (bytes_eqb p (b ".")); auto. cbn [rev]. now rewrite rev_involutive.
Qed.

Lemma classify_curdir p : classify p = CurDir <-> p = b ".".
Proof.
  unfold classify. destruct (bytes_eqb_spec p (b ".")); [easy|].
  destruct (bytes_eqb_spec p (b "..")); easy.
Qed.

Lemma parent_loop_pieces fuel s : (length s <= fuel)%nat ->
  pieces (parent_loop fuel s) = removelast (drop_dots (pieces s)).
Proof.
  revert s; induction fuel as [|k IH]; intros s Hf.
  - destruct s; [reflexivity|cbn in Hf; lia].
  - cbn [parent_loop]. pose proof (next_back_pieces s) as Hn.
    destruct (next_back s) as [[c|] rest] eqn:E.
    + destruct Hn as (p & -> & Hp). rewrite Hp, drop_dots_snoc.
      destruct (classify p) eqn:Ec.
      * apply classify_curdir in Ec as ->. rewrite bytes_eqb_refl.
        apply IH. apply next_back_length in E. lia.
      * assert (bytes_eqb p (b ".") = false) as ->.
        { apply bytes_eqb_neq. intros ->. discriminate Ec. }
        now rewrite removelast_last.
      * assert (bytes_eqb p (b ".") = false) as ->.
        { apply bytes_eqb_neq. intros ->. discriminate Ec. }
        now rewrite removelast_last.
    + destruct Hn as [-> ->]. reflexivity.
Qed.

Lemma parent_pieces s p : parent s = Some p -> pieces p = removelast (drop_dots (pieces s)).
Proof.
  unfold parent. intros H. assert (p = parent_loop (length s) s) as ->.
  { destruct s as [|c s]; [easy|]. now inversion H. }
  apply parent_loop_pieces. lia.
Qed.

Lemma file_name_loop_pieces fuel s : (length s <= fuel)%nat ->
  file_name_loop fuel s =
  match rev (drop_dots (pieces s)) with
  | p :: _ => if bytes_eqb p (b "..") then None else Some p
  | [] => None
  end.
Proof.
  revert s; induction fuel as [|k IH]; intros s Hf.
  - destruct s; [reflexivity|cbn in Hf; lia].
  - cbn [file_name_loop]. pose proof (next_back_pieces s) as Hn.
    destruct (next_back s) as [[c|] rest] eqn:E.
    + destruct Hn as (p & -> & Hp). rewrite Hp, drop_dots_snoc. unfold classify.
      destruct (bytes_eqb p (b ".")) eqn:Ed.
      * apply IH. apply next_back_length in E. lia.
      * rewrite rev_app_distr. cbn [rev app].
        destruct (bytes_eqb p (b "..")); reflexivity.
    + destruct Hn as [-> ->]. reflexivity.
Qed.

Lemma file_name_pieces s : file_name s =
  match rev (drop_dots (pieces s)) with
  | p :: _ => if bytes_eqb p (b "..") then None else Some p
  | [] => None
  end.
Proof. apply file_name_loop_pieces. lia. Qed.

(** Pieces that are all ordinary: no dots to drop. *)
Lemma drop_dots_ordinary l : Forall ordinary l -> drop_dots l = l.
Proof.
  intros H. destruct l as [|x l] using rev_ind; auto.
  rewrite drop_dots_snoc. apply Forall_app in H as [_ H].
  apply Forall_cons_iff in H as [(_ & _ & H & _) _]. now apply bytes_eqb_neq in H as ->.
Qed.

(** push / pop on joins of ordinary names *)
Lemma join_snoc l n : join (l ++ [n]) = match l with [] => n | _ => join l ++ sep :: n end.
Proof.
  induction l as [|x l IH]; auto. destruct l as [|y l]; auto.
  change (join ((x :: y :: l) ++ [n])) with (x ++ sep :: join ((y :: l) ++ [n])).
  rewrite IH. cbn [join]. now rewrite <- app_assoc.
Qed.

Definition good (n : bytes) : Prop := n <> [] /\ no_sep n.

Lemma ordinary_good n : ordinary n -> good n.
Proof. intros (H1 & H2 & _). now split. Qed.

Lemma join_last_not_sep l : Forall good l -> l <> [] ->
  exists s c, join l = s ++ [c] /\ is_sep c = false.
Proof.
  intros H Hl. destruct l as [|n l _] using rev_ind; [easy|].
  rewrite join_snoc. apply Forall_app in H as [_ H]. apply Forall_cons_iff in H as [[Hn Hs] _].
  destruct n as [|c n _] using rev_ind; [easy|].
  assert (is_sep c = false).
  { destruct (is_sep c) eqn:E; auto. apply is_sep_eq in E as ->. destruct Hs.
    apply in_or_app. right. now left. }
  destruct l as [|y l].
  - now exists n, c.
  - exists (join (y :: l) ++ sep :: n), c. split; auto. now rewrite <- app_assoc.
Qed.

Lemma ends_with_sep_snoc s c : ends_with_sep (s ++ [c]) = is_sep c.
Proof. unfold ends_with_sep. now rewrite rev_app_distr. Qed.

Lemma push_join l n : Forall good l -> good n -> push (join l) n = join (l ++ [n]).
Proof.
  intros Hl [Hn Hs]. unfold push.
  assert (Ho : match n with c :: r => if is_sep c then r else n | [] => [] end = n).
  { destruct n as [|c n]; auto. destruct (is_sep c) eqn:E; auto.
    apply is_sep_eq in E as ->. destruct Hs. now left. }
  rewrite Ho, join_snoc. destruct l as [|x l]; [reflexivity|].
  destruct (join_last_not_sep (x :: l) Hl) as (s & c & Hj & Hc); [easy|].
  rewrite Hj, ends_with_sep_snoc, Hc.
  destruct (s ++ [c]) eqn:E; [now destruct s|]. cbn [nonempty andb negb].
  rewrite <- app_assoc. reflexivity.
Qed.

Lemma trim_end_notsep s c : is_sep c = false -> trim_end (s ++ [c]) = s ++ [c].
Proof.
  intros H. unfold trim_end. rewrite rev_app_distr. cbn. rewrite H. cbn.
  now rewrite rev_involutive.
Qed.

Lemma take_while_app f x c y : (forall a, In a x -> f a = true) -> f c = false ->
  take_while f (x ++ c :: y) = x /\ drop_while f (x ++ c :: y) = c :: y.
Proof.
  intros Hx Hc. induction x as [|a x IH]; cbn.
  - now rewrite Hc.
  - rewrite (Hx a) by now left. destruct IH as [-> ->]; auto. intros d Hd. apply Hx. now right.
Qed.

Lemma take_while_all_true f x : (forall a, In a x -> f a = true) ->
  take_while f x = x /\ drop_while f x = [].
Proof.
  intros Hx. induction x as [|a x IH]; cbn; auto.
  rewrite (Hx a) by now left. destruct IH as [-> ->]; auto. intros d Hd. apply Hx. now right.
Qed.

Lemma next_back_join l n : Forall good l -> good n ->
  next_back (join (l ++ [n])) = (Some (classify n), join l).
Proof.
  intros Hl [Hn Hs].
  destruct (join_last_not_sep (l ++ [n])) as (s & c & Hj & Hc).
  { apply Forall_app. split; auto. constructor; auto. now split. }
  { now destruct l. }
  assert (Ht : trim_end (join (l ++ [n])) = join (l ++ [n])).
  { rewrite Hj. now apply trim_end_notsep. }
  unfold next_back. rewrite Ht. rewrite join_snoc. set (f := fun c0 => negb (is_sep c0)).
  assert (Hf : forall a, In a (rev n) -> f a = true).
  { intros a Ha. apply in_rev in Ha. unfold f. destruct (is_sep a) eqn:E; auto.
    apply is_sep_eq in E as ->. contradiction. }
  destruct l as [|x l].
  - destruct (take_while_all_true f (rev n) Hf) as [-> ->]. rewrite rev_involutive.
    destruct n; [easy|]. reflexivity.
  - assert (Hr : rev (join (x :: l) ++ sep :: n) = rev n ++ sep :: rev (join (x :: l))).
    { rewrite rev_app_distr. cbn [rev]. now rewrite <- app_assoc. }
    rewrite Hr.
    destruct (take_while_app f (rev n) sep (rev (join (x :: l))) Hf eq_refl) as [-> ->].
    rewrite rev_involutive. destruct n as [|a n]; [easy|]. cbn [nonempty]. f_equal.
    change (sep :: rev (join (x :: l))) with ([sep] ++ rev (join (x :: l))).
    rewrite rev_app_distr, rev_involutive. cbn [rev app]. unfold trim_end.
    rewrite rev_app_distr. cbn [rev app drop_while]. change (is_sep sep) with true. cbv iota.
    change (trim_end (join (x :: l)) = join (x :: l)).
    destruct (join_last_not_sep (x :: l) Hl) as (s' & c' & Hj' & Hc'); [easy|].
    rewrite Hj'. now apply trim_end_notsep.
Qed.

(** Popping after pushing a name other than "." restores the path. *)
Lemma pop_push l n : Forall good l -> good n -> n <> b "." -> pop (join (l ++ [n])) = join l.
Proof.
  intros Hl Hn Hd. unfold pop, parent.
  destruct (join (l ++ [n])) as [|x s] eqn:E.
  - assert (H := pieces_join (l ++ [n])). rewrite E in H.
    assert (H0 : pieces [] = l ++ [n]).
    { apply H. apply Forall_app. split; auto. }
    cbn in H0. now destruct l.
  - rewrite <- E. destruct (length (join (l ++ [n]))) as [|k] eqn:El; [rewrite E in El; discriminate El|].
    cbn [parent_loop]. rewrite next_back_join; auto.
    destruct (classify n) eqn:Ec; auto. now apply classify_curdir in Ec.
Qed.

(** [next_front] on pieces *)
Lemma next_front_pieces s :
  match next_front s with
  | (Some c, rest) => exists p, c = classify p /\ pieces s = p :: pieces rest
  | (None, rest) => pieces s = [] /\ rest = []
  end.
Proof.
  unfold next_front. set (r := trim_start s). pose (f := fun c => negb (is_sep c)). fold f.
  assert (Hp : pieces s = pieces r) by (unfold r; now rewrite pieces_trim_start).
  pose proof (take_drop f r) as Htd. pose proof (drop_while_head f r) as Hd.
  pose proof (take_while_notsep_no_sep r) as Hns. fold f in Hns.
  destruct (drop_while f r) as [|c d] eqn:Ed.
  - rewrite app_nil_r in Htd. rewrite Htd in *. destruct r as [|x l] eqn:Er.
    + cbn. auto.
    + cbn [nonempty]. exists (x :: l). split; auto. rewrite Hp, pieces_no_sep; auto.
  - assert (c = sep) as ->.
    { unfold f in Hd. destruct (is_sep c) eqn:E; [now apply is_sep_eq|discriminate Hd]. }
    destruct (take_while f r) as [|x l] eqn:Et.
    + exfalso. cbn in Htd. assert (Hh := drop_while_head is_sep s).
      unfold r, trim_start in Htd. rewrite <- Htd in Hh. discriminate Hh.
    + cbn [nonempty]. exists (x :: l). split; auto.
      rewrite Hp, <- Htd. change (trim_start (sep :: d)) with (trim_start d).
      rewrite pieces_app_sep, pieces_trim_start, pieces_no_sep; auto.
Qed.

Lemma strip_components_pieces s base :
  match strip_components s (map classify base) with
  | Some rest => pieces s = base ++ pieces rest
  | None => forall r, pieces s <> base ++ r
  end.
Proof.
  revert s; induction base as [|y base IH]; intros s; cbn [map strip_components]; auto.
  pose proof (next_front_pieces s) as Hn. destruct (next_front s) as [[c|] rest].
  - destruct Hn as (p & -> & Hp). unfold comp_eqb. rewrite !classify_as_str.
    destruct (bytes_eqb_spec p y) as [->|Hy].
    + specialize (IH rest). destruct (strip_components rest (map classify base)).
      * rewrite Hp, IH. reflexivity.
      * intros r Hr. rewrite Hp in Hr. injection Hr as Hr. now apply IH in Hr.
    + intros r Hr. rewrite Hp in Hr. injection Hr as Hr _. contradiction.
  - destruct Hn as [-> _]. intros r Hr. discriminate Hr.
Qed.

Lemma strip_prefix_pieces s base :
  match strip_prefix s base with
  | Some rest => pieces s = pieces base ++ pieces rest
  | None => forall r, pieces s <> pieces base ++ r
  end.
Proof. apply strip_components_pieces. Qed.
