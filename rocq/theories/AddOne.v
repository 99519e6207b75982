(** What one call stores. *)
From Verif Require Export AddSession SelectProofs.

Lemma namei_followed k : forall f c cur q t m, namei k f true cur c <> At q (HLink t m).
Proof.
  induction k as [|k IH]; intros f; (induction c as [|x c IHc]; intros cur q t m H; [now rewrite namei_eq in H|]);
    rewrite namei_eq in H;
    (destruct (bytes_eqb x (b ".")); [now apply IHc in H|]); (destruct (bytes_eqb x (b "..")); [now apply IHc in H|]);
    (destruct (h_names f (cur ++ [x])) as [[|i|u m']|] eqn:E; [now apply IHc in H|destruct c; discriminate H| |destruct c; discriminate H]);
    destruct c; try discriminate H; now apply IH in H.
Qed.
Lemma look_followed w s q t m : look_str w true s <> At q (HLink t m).
Proof. unfold look_str. destruct s; [easy|]. apply namei_followed. Qed.

Lemma dotless_filter s p r : filter not_dot (pieces s) = p ++ r -> dotless r.
Proof.
  intros H Hin. assert (G : In (b ".") (filter not_dot (pieces s))) by (rewrite H, in_app_iff; auto).
  apply filter_In in G as [_ G]. discriminate G.
Qed.

Lemma dotless_split s d x : pieces s = d ++ [x] -> dotless (d ++ [x]) -> dir_of s = d /\ (x <> b ".." -> last_of s = Some x).
Proof.
  intros E H. unfold dir_of, last_of. rewrite E, (drop_dots_dotless _ H). split; [apply removelast_last|].
  rewrite rev_app_distr. cbn [rev app]. intros Hx. now destruct (bytes_eqb_spec x (b "..")).
Qed.

(** An accepted entry. *)
Lemma accepted l e st k d x : all_ok l -> e_kind e = Ok (Some k) -> dir_of (e_path e) = d -> last_of (e_path e) = Some x ->
  add_entry (after l) e = (st, Ok tt) ->
  st = after (l ++ [e]) /\ all_ok (l ++ [e]) /\ (forall p nd, has l p nd -> has (l ++ [e]) p nd) /\
  (has (l ++ [e]) (d ++ [x]) (k, e_meta e) \/ (k = KDir /\ exists mt, has l (d ++ [x]) (KDir, mt))) /\
  (forall p nd, has (l ++ [e]) p nd -> has l p nd \/ p = d ++ [x] \/ (p <> [] /\ (exists t, d = p ++ t) /\ nd = implicit_dir)).
Proof.
  intros Hok Hk Hd Hx Ha. destruct (after_snoc l e st Hok Ha) as [<- Hok']. split; auto. split; auto.
  assert (Hkeep : forall p nd, has l p nd -> has (l ++ [e]) p nd).
  { intros p nd H. unfold has. rewrite after_app by auto. now apply stored_kept. }
  split; auto. split.
  - destruct (accepted_stored l e _ k x Ha Hk Hx) as [[H|H] _]; rewrite Hd in *; auto.
  - intros p nd H. destruct (after_sim l) as (m & Hi & Hr & _). fold (after l) in Hi, Hr.
    pose proof (add_entry_sim (after l) m e Hi Hr) as Hs. rewrite Ha in Hs. destruct (spec_add_entry m e) as [m' o] eqn:E.
    destruct Hs as (Hi' & Hr' & _). apply Hr' in H. destruct (origin_spec_add m e p nd m' o E H) as [G|[(e' & [<-|[]] & G)|(-> & e' & [<-|[]] & Hp & G)]].
    + left. now apply Hr.
    + right. left. destruct G as (_ & _ & n & Gn & ->). rewrite Hd. congruence.
    + right. right. rewrite Hd in G. auto.
Qed.

(** An entry without kind. *)
Lemma skipped l e d : all_ok l -> e_kind e = Ok None -> dir_of (e_path e) = d ->
  (forall p t nd, d = p ++ t -> has l p nd -> is_dir_node nd = true) ->
  add_entry (after l) e = (after (l ++ [e]), Ok tt) /\ all_ok (l ++ [e]) /\
  (forall p nd, has (l ++ [e]) p nd <-> has l p nd \/ (p <> [] /\ (exists t, d = p ++ t) /\ nd = implicit_dir /\ forall nd', ~ has l p nd')).
Proof.
  intros Hok Hk Hd Hdirs. destruct (after_sim l) as (m & Hi & Hr & _). fold (after l) in Hi, Hr.
  assert (Hm : forall p nd, has l p nd <-> m p = Some nd) by (intros; apply Hr).
  pose proof (add_entry_sim (after l) m e Hi Hr) as Hs.
  destruct (add_entry (after l) e) as [st' o] eqn:Ea. destruct (spec_add_entry m e) as [m' o'] eqn:E.
  destruct Hs as (Hi' & Hr' & <-). unfold spec_add_entry, spec_add in E. rewrite Hd, Hk in E.
  assert (Hb : blocked m d = false).
  { destruct (blocked m d) eqn:Eb; auto. apply blocked_true in Eb as (q & nd & H1 & H2 & H3 & H4).
    apply is_prefix_spec in H2 as [r H2]. apply Hm in H3. rewrite (Hdirs q r nd H2 H3) in H4. discriminate H4. }
  rewrite Hb in E. cbv zeta in E. injection E as <- <-. destruct (after_snoc l e st' Hok Ea) as [Haf Hok']. rewrite Haf.
  split; auto. split; auto. intros p nd.
  assert (Hh : has (l ++ [e]) p nd <-> with_dirs m d p = Some nd) by (unfold has; rewrite Haf; apply Hr').
  rewrite Hh, Hm. unfold with_dirs. destruct (m p) as [nd0|] eqn:Ep.
  - split; auto. intros [H|(_ & _ & _ & H)]; auto. exfalso. apply (H nd0). now apply Hm.
  - split.
    + destruct p as [|y p]; [easy|]. destruct (is_prefix (y :: p) d) eqn:Epr; [|easy]. intros H. injection H as <-.
      right. split; [easy|]. split; [apply is_prefix_spec in Epr as [r ->]; eauto|]. split; auto.
      intros nd' H'. apply Hm in H'. congruence.
    + intros [H|(Hq & [r Hr1] & -> & _)]; [easy|]. destruct p as [|y p]; [easy|].
      assert (is_prefix (y :: p) d = true) as -> by (apply is_prefix_spec; eauto). reflexivity.
Qed.
