(** The name of the archive tar2arx makes. *)
From Verif Require Export ConvertSession.

Local Ltac bad := let H := fresh in intros H; discriminate H.

Lemma trim_tail_trailing t : trailing t -> forall x, trim_tail_rev (rev (x ++ t)) = trim_tail_rev (rev x).
Proof.
  induction 1 as [|t H IH|t H IH]; intros x.
  - now rewrite app_nil_r.
  - rewrite app_assoc, rev_app_distr. cbn [rev app b trim_tail_rev]. change (N_of_ascii "/") with 47. change (is_sep 47) with true. cbn iota. apply IH.
  - rewrite app_assoc, rev_app_distr. cbn [rev app b trim_tail_rev]. change (N_of_ascii "/") with 47. change (N_of_ascii ".") with 46.
    change (is_sep 46) with false. change (is_sep 47) with true. cbn. apply IH.
Qed.

Lemma not_sep_in s : ~ In 47 s -> forall c, In c s -> is_sep c = false.
Proof. intros H c Hc. unfold is_sep, sep. destruct (c =? 47) eqn:E; auto. exfalso. apply H. now assert (c = 47) as <- by lia. Qed.

Lemma trim_tail_name d n : (d = [] \/ exists x, d = x ++ b "/") -> ~ In 47 n -> n <> [] -> n <> b "." ->
  trim_tail_rev (rev (d ++ n)) = rev n ++ rev d.
Proof.
  intros Hd Hn Hne Hdot. rewrite rev_app_distr. pose proof (not_sep_in n Hn) as Hs.
  assert (Hs' : forall c, In c (rev n) -> is_sep c = false) by (intros c Hc; apply Hs; now rewrite in_rev).
  destruct (rev n) as [|c r] eqn:E; [exfalso; apply Hne; rewrite <- (rev_involutive n), E; reflexivity|].
  cbn [app trim_tail_rev]. rewrite (Hs' c) by (now left). destruct r as [|c1 r]; cbn [app].
  - destruct (rev d) as [|y r'] eqn:Er; auto. destruct (c =? 46) eqn:Ec; auto. exfalso. apply Hdot.
    rewrite <- (rev_involutive n), E. cbn. f_equal. lia.
  - rewrite (Hs' c1) by (cbn; auto). now rewrite andb_false_r.
Qed.

Lemma take_while_app_stop (f : N -> bool) x y : (forall c, In c x -> f c = true) -> (y = [] \/ exists c t, y = c :: t /\ f c = false) ->
  take_while f (x ++ y) = x /\ drop_while f (x ++ y) = y.
Proof.
  intros Hx Hy. induction x as [|c x IH]; cbn [app].
  - destruct Hy as [->|(c & t & -> & E)]; cbn; [auto|]. now rewrite E.
  - cbn [take_while drop_while]. rewrite (Hx c) by (now left). destruct IH as [-> ->]; auto. intros c' H. apply Hx. now right.
Qed.

Lemma split_file_in s d n : file_in s d n -> split_file_name s = Some (d, n).
Proof.
  intros (tail & -> & Ht & Hd & Hn & Hne & Hdot & Hdd). unfold split_file_name.
  rewrite app_assoc, trim_tail_trailing, trim_tail_name by auto.
  assert (Hs : forall c, In c (rev n) -> not_sep c = true).
  { intros c Hc. unfold not_sep. rewrite (not_sep_in n Hn c); auto. now rewrite in_rev. }
  assert (Hy : rev d = [] \/ exists c t, rev d = c :: t /\ not_sep c = false).
  { destruct Hd as [->|[x ->]]; [now left|]. right. rewrite rev_app_distr. cbn. eexists _, _. split; [reflexivity|]. reflexivity. }
  destruct (take_while_app_stop not_sep (rev n) (rev d) Hs Hy) as [-> ->]. rewrite !rev_involutive.
  destruct (bytes_eqb_spec n []); [easy|]. destruct (bytes_eqb_spec n (b ".")); [easy|]. destruct (bytes_eqb_spec n (b "..")); [easy|]. reflexivity.
Qed.

Lemma trim_tail_split r : exists u, r = u ++ trim_tail_rev r /\ trailing (rev u) /\
  (forall c t, trim_tail_rev r = c :: t -> is_sep c = false).
Proof.
  assert (G : forall n r, (length r <= n)%nat -> exists u, r = u ++ trim_tail_rev r /\ trailing (rev u) /\
    (forall c t, trim_tail_rev r = c :: t -> is_sep c = false)).
  { clear r. induction n as [|n IH]; intros r Hl.
    { destruct r; [|cbn in Hl; lia]. exists []. split; auto. split; [constructor|]. intros c t H; discriminate H. }
    destruct r as [|c r]; [exists []; split; auto; split; [constructor|intros c t H; discriminate H]|]. cbn [length] in Hl.
    cbn [trim_tail_rev]. destruct (is_sep c) eqn:Ec.
    - destruct (IH r ltac:(lia)) as (u & H1 & H2 & H3). exists (c :: u). cbn [app]. split; [now rewrite <- H1|]. split; auto.
      cbn [rev]. assert (c = 47) as -> by (unfold is_sep, sep in Ec; lia). now apply (tr_sep (rev u)).
    - destruct r as [|d r]; [exists []; split; auto; split; [constructor|intros c' t H; now injection H as <- <-]|].
      destruct ((c =? 46) && is_sep d) eqn:E; [|exists []; split; auto; split; [constructor|intros c' t H; now injection H as <- <-]].
      apply andb_true_iff in E as [E1 E2]. assert (c = 46) as -> by lia. assert (d = 47) as -> by (unfold is_sep, sep in E2; lia).
      cbn [trim_tail_rev]. change (is_sep 47) with true. cbn iota. cbn [length] in Hl. destruct (IH r ltac:(lia)) as (u & H1 & H2 & H3).
      exists (46 :: 47 :: u). cbn [app]. split; [now rewrite <- H1|]. split; auto. cbn [rev]. rewrite <- app_assoc. now apply (tr_dot (rev u)). }
  apply (G (length r)). lia.
Qed.

Lemma take_drop (f : N -> bool) s : s = take_while f s ++ drop_while f s.
Proof. induction s as [|c s IH]; cbn [take_while drop_while]; auto. destruct (f c); cbn [app]; auto. now rewrite <- IH. Qed.
Lemma take_while_all (f : N -> bool) s c : In c (take_while f s) -> f c = true.
Proof. induction s as [|x s IH]; cbn [take_while]; [easy|]. destruct (f x) eqn:E; [|easy]. intros [<-|H]; auto. Qed.
Lemma drop_while_head (f : N -> bool) s c t : drop_while f s = c :: t -> f c = false.
Proof. induction s as [|x s IH]; cbn [drop_while]; [easy|]. destruct (f x) eqn:E; auto. intros H. now injection H as <- <-. Qed.

Lemma split_file_spec s d n : split_file_name s = Some (d, n) <-> file_in s d n.
Proof.
  split; [|apply split_file_in]. unfold split_file_name.
  destruct (trim_tail_split (rev s)) as (u & H1 & H2 & _). set (r := trim_tail_rev (rev s)) in *.
  pose proof (take_drop not_sep r) as H3. pose proof (take_while_all not_sep r) as H4. pose proof (drop_while_head not_sep r) as H5.
  set (x := take_while not_sep r) in *. set (y := drop_while not_sep r) in *.
  destruct (bytes_eqb_spec (rev x) []); [bad|]. destruct (bytes_eqb_spec (rev x) (b ".")); [bad|]. destruct (bytes_eqb_spec (rev x) (b "..")); [bad|].
  cbn [orb]. intros H. injection H as <- <-. exists (rev u).
  split.
  - rewrite <- (rev_involutive s), H1, H3, !rev_app_distr, app_assoc. reflexivity.
  - split; auto. split.
    + destruct y as [|c t]; [now left|]. right. specialize (H5 c t eq_refl). exists (rev t). cbn [rev]. f_equal. cbn. f_equal.
      unfold not_sep, is_sep, sep in H5. lia.
    + split; auto. intros Hin. rewrite <- in_rev in Hin. specialize (H4 47 Hin). discriminate H4.
Qed.

(** Extensions *)
Lemma last_dot (tk u v : bytes) : tk ++ [46] = u ++ 46 :: v -> v <> [] -> In 46 tk.
Proof.
  intros H Hv. destruct (exists_last Hv) as (v' & z & ->).
  assert (E : u ++ 46 :: v' ++ [z] = (u ++ 46 :: v') ++ [z]) by (rewrite <- app_assoc; reflexivity).
  rewrite E in H. apply app_inj_tail in H as [-> _]. rewrite in_app_iff. right. now left.
Qed.

Lemma file_stem_spec n : n <> [] -> without_ext n (file_stem n).
Proof.
  intros Hn. unfold file_stem, without_ext. set (f := fun c => negb (c =? 46)).
  pose proof (take_drop f (rev n)) as H1. pose proof (take_while_all f (rev n)) as H2. pose proof (drop_while_head f (rev n)) as H3.
  destruct (drop_while f (rev n)) as [|c [|c' t]] eqn:E.
  - right. split; auto. intros x e Hx ->. rewrite app_nil_r in H1. specialize (H2 46).
    assert (f 46 = true); [apply H2; rewrite <- H1, !rev_app_distr, !in_app_iff; cbn; auto|discriminate].
  - right. split; auto. intros x e Hx He. specialize (H3 c [] eq_refl). assert (c = 46) as -> by (unfold f in H3; lia).
    assert (G : In 46 (take_while f (rev n))).
    { apply (last_dot _ (rev e) (rev x)); [|intros K; apply Hx; rewrite <- (rev_involutive x), K; reflexivity].
      rewrite <- H1, He, !rev_app_distr. cbn [rev b app]. rewrite <- app_assoc. reflexivity. }
    apply H2 in G. discriminate G.
  - left. specialize (H3 c (c' :: t) eq_refl). assert (c = 46) as -> by (unfold f in H3; lia).
    split; [cbn [rev]; now destruct (rev t)|]. exists (rev (take_while f (rev n))). split.
    + rewrite <- (rev_involutive n) at 1. rewrite H1 at 1. rewrite rev_app_distr. change (rev (46 :: c' :: t)) with (rev (c' :: t) ++ [46]). rewrite <- app_assoc. reflexivity.
    + intros Hin. rewrite <- in_rev in Hin. specialize (H2 46 Hin). discriminate H2.
Qed.

Lemma without_ext_fun n m m' : without_ext n m -> without_ext n m' -> m = m'.
Proof.
  intros [(H1 & e & H2 & H3)|(-> & H)] [(H1' & e' & H2' & H3')|(-> & H')]; auto.
  - subst n. apply (f_equal (@rev N)) in H2'. rewrite !rev_app_distr in H2'. cbn [rev b app] in H2'. change (N_of_ascii ".") with 46 in H2'. rewrite <- !app_assoc in H2'. cbn [app] in H2'.
    assert (G : forall u v x y : list N, ~ In 46 u -> ~ In 46 v -> u ++ 46 :: x = v ++ 46 :: y -> x = y).
    { induction u as [|c u IH]; intros v x y Hu Hv; destruct v as [|c' v]; cbn [app]; intros E.
      - now injection E.
      - exfalso. apply Hv. left. congruence.
      - exfalso. apply Hu. left. congruence.
      - injection E as -> E. eapply IH; [| |exact E]; intros F; [apply Hu|apply Hv]; now right. }
    apply G in H2'; [|now rewrite <- in_rev..]. apply (f_equal (@rev N)) in H2'. now rewrite !rev_involutive in H2'.
  - exfalso. eapply H'; eauto.
  - exfalso. eapply H; eauto.
Qed.

Lemma without_ext_name n m : without_ext n m -> ~ In 47 n -> n <> [] -> ~ In 47 m /\ m <> [].
Proof.
  intros [(H1 & e & -> & _)|(-> & _)] Hn Hne; auto. split; auto. intros H. apply Hn. rewrite in_app_iff. auto.
Qed.

Lemma with_extension_in s d n m ext : file_in s d n -> without_ext n m -> with_extension s ext = d ++ m ++ (if nonempty ext then b "." ++ ext else []).
Proof.
  intros H Hm. unfold with_extension. rewrite (split_file_in s d n H). destruct H as (_ & _ & _ & _ & _ & Hne & _).
  rewrite (without_ext_fun n m (file_stem n) Hm (file_stem_spec n Hne)). reflexivity.
Qed.

Lemma two_extensions s d n m1 m2 : file_in s d n -> without_ext n m1 -> without_ext m1 m2 -> m1 <> b "." -> m1 <> b ".." ->
  with_extension (with_extension s []) (b "arx") = d ++ m2 ++ b ".arx".
Proof.
  intros H H1 H2 N1 N2. rewrite (with_extension_in s d n m1 [] H H1). cbn [nonempty]. rewrite app_nil_r.
  destruct H as (t & _ & _ & Hd & Hn & Hne & _). destruct (without_ext_name n m1 H1 Hn Hne) as [Hn1 Hne1].
  rewrite (with_extension_in (d ++ m1) d m1 m2 (b "arx")); auto. exists []. rewrite app_nil_r. repeat split; auto. constructor.
Qed.

Lemma starts_with_spec s x : x <> [] -> starts_with_comp s x = true <-> is_abs s = false /\ exists r, pieces s = x :: r.
Proof.
  intros Hx. unfold starts_with_comp, std_components. destruct (is_abs s).
  - split; [bad|]. intros [H _]. discriminate H.
  - destruct (pieces s) as [|p r]; [split; [bad|intros (_ & r & H); discriminate H]|].
    assert (E : as_str (classify p) = p).
    { destruct (classify_cases p) as [(-> & ->)|[(-> & ->)|(_ & _ & ->)]]; reflexivity. }
    rewrite E. destruct (bytes_eqb_spec p x) as [->|Hne]; split; eauto; [bad|].
    intros (_ & r' & H). injection H as -> _. easy.
Qed.

Lemma like_url_spec s : starts_with_comp s (b "https:") || starts_with_comp s (b "http:") = true <-> like_url s.
Proof.
  rewrite orb_true_iff, !starts_with_spec by easy. unfold like_url. split.
  - intros [(H1 & r & H2)|(H1 & r & H2)]; split; eauto.
  - intros (H1 & r & [H2|H2]); eauto 6.
Qed.
