(** The walks of [arx list]. *)
From Verif Require Export SpecList NameFacts WalkProofs SelectProofs TextFacts.

(** ** Strings *)
Lemma join_snoc d n : d <> [] -> join (d ++ [n]) = join d ++ sep :: n.
Proof.
  induction d as [|x d IH]; [easy|]. intros _. destruct d as [|y d]; [reflexivity|].
  change (join ((x :: y :: d) ++ [n])) with (x ++ sep :: join ((y :: d) ++ [n])). rewrite IH by easy.
  change (join (x :: y :: d)) with (x ++ sep :: join (y :: d)). now rewrite <- app_assoc.
Qed.

Lemma join_parts p ps : join (p :: ps) = p ++ concat (map (fun q => sep :: q) ps).
Proof.
  revert p. induction ps as [|q ps IH]; intros p; [cbn; now rewrite app_nil_r|].
  change (join (p :: q :: ps)) with (p ++ sep :: join (q :: ps)). rewrite IH. reflexivity.
Qed.

Lemma println2_name d n : n <> [] -> println2 d n = join (d ++ [n]) ++ [10].
Proof.
  intros Hn. unfold println2. assert (nonempty n = true) as -> by now destruct n.
  destruct d as [|p ps]; [reflexivity|].
  rewrite join_snoc by easy. rewrite join_parts, <- !app_assoc. reflexivity.
Qed.

Lemma println2_dir d : d <> [] -> println2 d [] = join d ++ [10].
Proof.
  intros Hd. unfold println2. destruct d as [|p ps]; [easy|]. cbn [nonempty]. rewrite join_parts, !app_nil_r. reflexivity.
Qed.

Lemma join_inj p q : Forall (fun n => n <> [] /\ no_sep n) p -> Forall (fun n => n <> [] /\ no_sep n) q -> join p = join q -> p = q.
Proof. intros Hp Hq E. rewrite <- (pieces_join p), <- (pieces_join q); auto. now rewrite E. Qed.

Lemma lossy_utf8 s : utf8 s = true -> lossy s = s.
Proof.
  remember (length s) as k eqn:Hk. assert (Hle : (length s <= k)%nat) by lia. clear Hk. revert s Hle.
  induction k as [|k IH]; intros s Hle H; [now destruct s; cbn in Hle; [|lia]|].
  destruct s as [|c r]; [reflexivity|]. cbn [length] in Hle. cbn [utf8] in H. cbn [lossy].
  destruct (c <=? 127) eqn:E0; [f_equal; apply IH; [lia|auto]|].
  destruct r as [|c1 r1]; [discriminate H|]. cbn [length] in Hle.
  destruct (inr 194 c 223) eqn:E1.
  { apply andb_true_iff in H as [H1 H2]. rewrite H1. f_equal. f_equal. apply IH; [lia|auto]. }
  destruct r1 as [|c2 r2]; [discriminate H|]. cbn [length] in Hle.
  destruct (inr 224 c 239) eqn:E2.
  { apply andb_true_iff in H as [H H2]. apply andb_true_iff in H as [H0 H1]. rewrite H0, H1. do 3 f_equal. apply IH; [lia|auto]. }
  destruct r2 as [|c3 r3]; [discriminate H|]. cbn [length] in Hle.
  destruct (inr 240 c 244) eqn:E3; [|discriminate H].
  apply andb_true_iff in H as [H H2]. apply andb_true_iff in H as [H H1]. apply andb_true_iff in H as [H0 H1']. rewrite H0, H1', H1.
  do 4 f_equal. apply IH; [lia|auto].
Qed.

Lemma uint_bytes_inj d : forall e, uint_bytes d = uint_bytes e -> d = e.
Proof. induction d; intros [ | | | | | | | | | | ] H; cbn in H; try discriminate H; f_equal; try (apply IHd; congruence); auto. Qed.

Lemma dec_inj m n : dec m = dec n -> m = n.
Proof.
  intros H. apply uint_bytes_inj in H. rewrite <- (DecimalN.Unsigned.of_to m), <- (DecimalN.Unsigned.of_to n). now rewrite H.
Qed.

Lemma dec_digits n x : In x (dec n) -> 48 <= x <= 57.
Proof.
  unfold dec. generalize (N.to_uint n). induction u; cbn [uint_bytes In]; [easy|..]; intros [<-|H]; auto; lia.
Qed.

(** Splitting at the first separator. *)
Lemma split_first {A} (x : A) s1 t1 s2 t2 : ~ In x s1 -> ~ In x s2 -> s1 ++ x :: t1 = s2 ++ x :: t2 -> s1 = s2 /\ t1 = t2.
Proof.
  revert s2. induction s1 as [|y s1 IH]; intros [|z s2] H1 H2 E; cbn in *.
  - injection E as ->. auto.
  - injection E as E _. subst z. tauto.
  - injection E as E _. subst y. tauto.
  - injection E as E1 E2. subst z. destruct (IH s2) as [E3 E4]; try tauto. subst. auto.
Qed.

Lemma text_app l1 l2 : text (l1 ++ l2) = text l1 ++ text l2.
Proof. unfold text. now rewrite map_app, concat_app. Qed.

Lemma text_inj l1 : forall l2, (forall x, In x (l1 ++ l2) -> ~ In 10 x) -> text l1 = text l2 -> l1 = l2.
Proof.
  unfold text. induction l1 as [|x l1 IH]; intros [|y l2] H E; auto.
  - apply (f_equal (@length _)) in E. cbn in E. rewrite app_length in E. rewrite app_length in E. cbn in E. lia.
  - apply (f_equal (@length _)) in E. cbn in E. rewrite app_length in E. rewrite app_length in E. cbn in E. lia.
  - cbn [map concat] in E. rewrite <- !app_assoc in E. cbn [app] in E.
    apply split_first in E as [-> E]; [|apply H; now left|apply H; apply in_app_iff; right; now left].
    f_equal. apply IH; auto. intros z Hz. apply H. rewrite in_app_iff in *. cbn. tauto.
Qed.

(** ** The walks *)
Lemma lister_file c s : on_file lister c s = ((fst c, snd c ++ println2 (fst c) s), Ok tt). Proof. reflexivity. Qed.
Lemma lister_link c s : on_link lister c s = ((fst c, snd c ++ println2 (fst c) s), Ok tt). Proof. reflexivity. Qed.
Lemma lister_enter c d : on_enter lister c d = ((fst c ++ [d], snd c ++ println2 (fst c ++ [d]) []), Ok true). Proof. reflexivity. Qed.
Lemma lister_exit c d : on_exit lister c d = ((removelast (fst c), snd c), Ok tt). Proof. reflexivity. Qed.
Lemma stable_file c m x size : on_file stable_lister c (m, x, size) =
  ((pop (push (fst c) (lossy (c_path m))), snd c ++ b "f " ++ dec (c_mtime m) ++ b " " ++ dec size ++ b " " ++ push (fst c) (lossy (c_path m)) ++ [10]), Ok tt).
Proof. reflexivity. Qed.
Lemma stable_link c m t : on_link stable_lister c (m, t) =
  ((pop (push (fst c) (lossy (c_path m))), snd c ++ b "l " ++ dec (c_mtime m) ++ b " " ++ push (fst c) (lossy (c_path m)) ++ b "->" ++ lossy t ++ [10]), Ok tt).
Proof. reflexivity. Qed.
Lemma stable_enter c m x : on_enter stable_lister c (m, x) =
  ((push (fst c) (lossy (c_path m)), snd c ++ b "d " ++ dec (c_mtime m) ++ b " " ++ push (fst c) (lossy (c_path m)) ++ [10]), Ok true).
Proof. reflexivity. Qed.
Lemma stable_exit c x : on_exit stable_lister c x = ((pop (fst c), snd c), Ok tt). Proof. reflexivity. Qed.
Section Walks.
  Variable a : archive.
  Hypothesis Hwf : wf a.

  Local Notation lines d f := (map (fun ip : N * path => join (snd ip)) (flat d f)) (only parsing).

  Lemma plain_walk lo hi f : forest_of a lo hi f -> (forall r i, at_ (a_recs a) i = Some r -> r_name r <> []) ->
    forall d out, walk_forest path_builder a lister f (d, out) = ((d, out ++ text (lines d f)), Ok tt).
  Proof.
    intros Hf Hn. induction Hf as [lo|lo hi r rest Hlt Hr Hnd Hrest IH|lo hi r first nb kids rest Hlt Hr Hp Hkids IHk Hrest IHr]; intros d out.
    - cbn. now rewrite app_nil_r.
    - assert (Hnm : r_name r <> []) by eauto. cbn [walk_forest flat map app].
      unfold create_entry. rewrite (rec_at_ok _ _ _ Hr). cbn [bind].
      destruct (r_payload r) eqn:Ep; try (exfalso; eapply Hnd; reflexivity); try (now apply (wf_variant _ Hwf _ _ variant) in Hr);
        cbn [b_file b_link bind andthen]; change (b_file path_builder lo r) with (Ok (r_name r)); change (b_link path_builder lo r) with (Ok (r_name r)); cbn [bind andthen];
        rewrite ?lister_file, ?lister_link; cbn [andthen fst snd]; rewrite IH; cbn [snd];
        rewrite println2_name by auto; unfold text; cbn [map concat]; now rewrite <- !app_assoc.
    - assert (Hnm : r_name r <> []) by eauto. cbn [walk_forest flat map].
      unfold create_entry. rewrite (rec_at_ok _ _ _ Hr). cbn [bind]. rewrite Hp.
      change (b_dir path_builder lo r) with (Ok (r_name r)). cbn [bind andthen]. rewrite lister_enter. cbn [bind andthen fst snd]. rewrite IHk. cbn [andthen fst snd].
      rewrite lister_exit. cbn [bind andthen fst snd].
      rewrite removelast_last, IHr. rewrite println2_dir by now destruct d.
      rewrite map_app. unfold text. cbn [map concat]. rewrite map_app, concat_app. now rewrite <- !app_assoc.
  Qed.

  (** The stable lister; [nodes] gives what is stored in a record. *)
  Definition node_at (i : N) : node :=
    match at_ (a_recs a) i with
    | Some r => match node_of_rec r with Some nd => nd | None => (KDir, mkMeta 0 0 0 0) end
    | None => (KDir, mkMeta 0 0 0 0)
    end.
  (** What is printed of a node. *)
  Definition as_text (nd : node) : node := match fst nd with KLink t => (KLink (lossy t), snd nd) | _ => nd end.
  Local Notation slines d f := (map (fun ip : N * path => stable_line (snd ip) (as_text (node_at (fst ip)))) (flat d f)) (only parsing).

  Definition clean (n : bytes) : Prop := n <> [] /\ no_sep n /\ n <> b "." /\ utf8 n = true.

  Lemma pieces_clean d : Forall clean d -> pieces (join d) = d.
  Proof. intros H. apply pieces_join. eapply Forall_impl; [|exact H]. intros n (H1 & H2 & _). auto. Qed.

  Lemma push_join d n : Forall clean d -> clean n -> push (join d) n = join (d ++ [n]).
  Proof.
    intros Hd (Hn & Hs & _ & _). unfold push.
    assert (E : match n with c :: r => if is_sep c then r else n | [] => [] end = n).
    { destruct n as [|c r]; auto. destruct (is_sep c) eqn:E; auto. apply is_sep_eq in E as ->. exfalso. apply Hs. now left. }
    rewrite E. destruct d as [|x d _] using rev_ind; [reflexivity|].
    rewrite (join_snoc (d ++ [x]) n) by now destruct d.
    apply Forall_app in Hd as [_ Hx]. apply Forall_cons_iff in Hx as [(Hx & Hxs & _) _].
    assert (Hne : nonempty (join (d ++ [x])) = true).
    { destruct d as [|b0 d]; [now destruct x|]. rewrite join_snoc by easy. now destruct (join (b0 :: d)). }
    assert (Hend : ends_with_sep (join (d ++ [x])) = false).
    { assert (Hl : exists u, join (d ++ [x]) = u ++ x).
      { destruct d as [|b0 d]; [now exists []|]. rewrite join_snoc by easy. exists (join (b0 :: d) ++ [sep]). now rewrite <- app_assoc. }
      destruct Hl as [u ->]. unfold ends_with_sep. destruct x as [|c x _] using rev_ind; [easy|].
      rewrite app_assoc, rev_unit. destruct (is_sep c) eqn:Ec; auto. apply is_sep_eq in Ec as ->. exfalso. apply Hxs. rewrite in_app_iff. right. now left. }
    rewrite Hne, Hend. cbn [negb andb]. now rewrite <- app_assoc.
  Qed.

  (** The context holds [join d] up to the exact string: [pop] gives back the string of the parent. *)
  Lemma pop_join d n : Forall clean d -> clean n -> pop (join (d ++ [n])) = join d.
  Proof.
    intros Hd (Hn & Hs & Hdot & _). unfold pop, parent.
    assert (Hnb : next_back (join (d ++ [n])) = (Some (classify n), join d)).
    { unfold next_back. 
      assert (Ht : forall u, u = [] \/ ends_with_sep u = false -> trim_end u = u).
      { intros u Hu. unfold trim_end. destruct u as [|c u _] using rev_ind; auto. rewrite rev_unit. cbn [drop_while].
        destruct Hu as [Hu|Hu]; [now destruct u|]. unfold ends_with_sep in Hu. rewrite rev_unit in Hu. rewrite Hu.
        cbn [rev]. now rewrite rev_involutive. }
      assert (He : forall u v, v <> [] -> no_sep v -> ends_with_sep (u ++ v) = false).
      { intros u v Hv Hvs. destruct v as [|c v _] using rev_ind; [easy|]. unfold ends_with_sep. rewrite app_assoc, rev_unit.
        destruct (is_sep c) eqn:Ec; auto. apply is_sep_eq in Ec as ->. exfalso. apply Hvs. rewrite in_app_iff. right. now left. }
      assert (Hlast : forall e, Forall clean e -> e = [] \/ exists u v, join e = u ++ v /\ v <> [] /\ no_sep v).
      { intros e H. destruct e as [|x e _] using rev_ind; [now left|]. right. apply Forall_app in H as [_ H]. apply Forall_cons_iff in H as [(H1 & H2 & _) _].
        destruct e as [|b0 e]; [exists [], x; auto|]. rewrite join_snoc by easy. exists (join (b0 :: e) ++ [sep]), x. rewrite <- app_assoc. auto. }
      assert (Hshape : exists u, join (d ++ [n]) = u ++ n /\ (u = [] /\ d = [] \/ u = join d ++ [sep] /\ d <> [])).
      { destruct d as [|b0 d]; [exists []; auto|]. rewrite join_snoc by easy. exists (join (b0 :: d) ++ [sep]). rewrite <- app_assoc. split; auto. right. split; [reflexivity|easy]. }
      destruct Hshape as (u & -> & Hu).
      rewrite (Ht (u ++ n)) by (right; auto). rewrite rev_app_distr.
      assert (Htw : forall v w, no_sep v -> take_while (fun c => negb (is_sep c)) (rev v ++ w) = rev v ++ take_while (fun c => negb (is_sep c)) w /\
                              drop_while (fun c => negb (is_sep c)) (rev v ++ w) = drop_while (fun c => negb (is_sep c)) w).
      { intros v w Hv. assert (Hr : forall c, In c (rev v) -> is_sep c = false).
        { intros c Hc. destruct (is_sep c) eqn:Ec; auto. apply is_sep_eq in Ec as ->. rewrite <- in_rev in Hc. now apply Hv in Hc. }
        revert Hr. induction (rev v) as [|c l IH]; intros Hr; [auto|]. cbn [app take_while drop_while]. rewrite (Hr c) by now left.
        cbn [negb]. destruct IH as [-> ->]; auto. intros c' Hc'. apply Hr. now right. }
      destruct (Htw n (rev u) Hs) as [-> ->].
      assert (Hu' : take_while (fun c => negb (is_sep c)) (rev u) = [] /\ drop_while (fun c => negb (is_sep c)) (rev u) = rev u).
      { destruct Hu as [[-> _]|[-> _]]; [auto|]. rewrite rev_unit. cbn [take_while drop_while]. now change (is_sep sep) with true. }
      destruct Hu' as [-> ->]. rewrite app_nil_r, rev_involutive, rev_involutive.
      assert (nonempty n = true) as -> by now destruct n. f_equal.
      destruct Hu as [[-> ->]|[-> Hd0]]; [reflexivity|].
      destruct (Hlast d Hd) as [->|(v & w & Ev & Hw & Hws)]; [easy|].
      unfold trim_end. rewrite rev_unit. cbn [drop_while]. change (is_sep sep) with true. cbv iota.
      fold (trim_end (join d)). apply Ht. right. rewrite Ev. now apply He. }
    assert (Hnil : join (d ++ [n]) <> []). { intros E. assert (H : nonempty (join (d ++ [n])) = true). { destruct d as [|b0 d]; [now destruct n|]. rewrite join_snoc by easy. now destruct (join (b0 :: d)). } now rewrite E in H. }
    destruct (join (d ++ [n])) as [|c s] eqn:E; [easy|]. cbn [length parent_loop]. rewrite Hnb.
    destruct (classify n) eqn:Ec; auto. now apply classify_curdir in Ec.
  Qed.

  Lemma stable_walk lo hi f : forest_of a lo hi f -> (forall i r, at_ (a_recs a) i = Some r -> clean (r_name r)) ->
    (forall i r, at_ (a_recs a) i = Some r -> exists c, create_common i r = Ok c /\ c_path c = r_name r /\ c_mtime c = r_mtime r) ->
    forall d out, Forall clean d ->
    walk_forest full_builder a stable_lister f (join d, out) = ((join d, out ++ text (slines d f)), Ok tt).
  Proof.
    intros Hf Hn Hc. induction Hf as [lo|lo hi r rest Hlt Hr Hnd Hrest IH|lo hi r first nb kids rest Hlt Hr Hp Hkids IHk Hrest IHr]; intros d out Hd.
    - cbn. now rewrite app_nil_r.
    - pose proof (Hn _ _ Hr) as Hnm. destruct (Hc _ _ Hr) as (m & Em & Em1 & Em2). cbn [walk_forest flat map app].
      assert (Hno : node_at lo = match node_of_rec r with Some nd => nd | None => (KDir, mkMeta 0 0 0 0) end) by (unfold node_at; now rewrite Hr).
      cbn [fst snd]. rewrite Hno. unfold create_entry, node_of_rec. rewrite (rec_at_ok _ _ _ Hr). cbn [bind].
      destruct (r_payload r) eqn:Ep; try (exfalso; eapply Hnd; reflexivity); try (now apply (wf_variant _ Hwf _ _ variant) in Hr);
        unfold full_builder at 1; cbn [b_file b_link]; rewrite Em; cbn [bind andthen]; rewrite Ep; cbn [bind andthen]; rewrite ?stable_file, ?stable_link; cbn [andthen fst snd];
        rewrite Em1, Em2, (lossy_utf8 (r_name r)) by apply Hnm; rewrite push_join, pop_join by auto; rewrite IH by auto;
        unfold as_text at 2, stable_line at 2; cbn [fst snd meta_of_rec m_mtime]; unfold text; cbn [map concat]; rewrite <- !app_assoc; reflexivity.
    - pose proof (Hn _ _ Hr) as Hnm. destruct (Hc _ _ Hr) as (m & Em & Em1 & Em2). cbn [walk_forest flat map].
      assert (Hno : node_at lo = (KDir, meta_of_rec r)) by (unfold node_at, node_of_rec; now rewrite Hr, Hp).
      cbn [fst snd]. rewrite Hno. unfold create_entry. rewrite (rec_at_ok _ _ _ Hr). cbn [bind]. rewrite Hp.
      unfold full_builder at 1. cbn [b_dir]. rewrite Em. cbn [bind andthen]. rewrite Hp. cbn [bind andthen]. rewrite stable_enter. cbn [andthen fst snd].
      rewrite Em1, Em2, (lossy_utf8 (r_name r)) by apply Hnm. rewrite push_join by auto.
      rewrite IHk by (apply Forall_app; auto). cbn [andthen fst snd]. rewrite stable_exit. cbn [andthen fst snd]. rewrite pop_join by auto. rewrite IHr by auto.
      unfold as_text at 3, stable_line at 3. cbn [fst snd meta_of_rec m_mtime]. rewrite map_app. unfold text. cbn [map concat]. rewrite map_app, concat_app, <- !app_assoc. reflexivity.
  Qed.
End Walks.
