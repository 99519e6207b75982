(** The file system calls of extraction on a destination without symbolic links. *)
From Verif Require Export ExtractRun.

Lemma path_eqb'_spec p : forall q, path_eqb' p q = true <-> p = q.
Proof.
  induction p as [|x p IH]; intros [|y q]; cbn; try easy. rewrite andb_true_iff, IH.
  destruct (bytes_eqb_spec x y); intuition congruence.
Qed.
Lemma path_eqb'_refl p : path_eqb' p p = true.
Proof. now apply path_eqb'_spec. Qed.
Lemma path_eqb'_neq p q : p <> q -> path_eqb' p q = false.
Proof. intros H. destruct (path_eqb' p q) eqn:E; auto. now apply path_eqb'_spec in E. Qed.

Lemma not_dot_dot : not_dot (b ".") = false.
Proof. reflexivity. Qed.
Lemma not_dot_ordinary c : ordinary c -> not_dot c = true.
Proof. intros (_ & _ & H & _). unfold not_dot. now apply bytes_eqb_neq in H as ->. Qed.
Lemma eqb_dotdot c : ordinary c -> bytes_eqb c (b ".") = false /\ bytes_eqb c (b "..") = false.
Proof. intros (_ & _ & H1 & H2). now split; apply bytes_eqb_neq. Qed.

(** Walking down existing directories. *)
Lemma namei_down k f fl rest comps : forall cur, Forall (fun c => c = b "." \/ ordinary c) comps ->
  (forall q x t, filter not_dot comps = q ++ x :: t -> h_names f (cur ++ q ++ [x]) = Some HDir) ->
  namei k f fl cur (comps ++ rest) = namei k f fl (cur ++ filter not_dot comps) rest.
Proof.
  induction comps as [|c comps IH]; intros cur Hc Hn; cbn [app filter].
  - now rewrite app_nil_r.
  - apply Forall_cons_iff in Hc as [Hc Hcs]. rewrite namei_eq. destruct Hc as [->|Hc].
    + rewrite not_dot_dot. change (bytes_eqb (b ".") (b ".")) with true. cbn iota. apply IH; auto.
    + destruct (eqb_dotdot c Hc) as [-> ->]. rewrite (not_dot_ordinary c Hc) in *. cbn [filter] in Hn. rewrite (not_dot_ordinary c Hc) in Hn.
      assert (E0 := Hn [] c (filter not_dot comps) eq_refl). cbn [app] in E0. rewrite E0.
      rewrite IH; auto.
      * now rewrite <- app_assoc.
      * intros q x t E. rewrite <- app_assoc. apply (Hn (c :: q) x t). now rewrite E.
Qed.

Lemma namei_last k f fl cur c : ordinary c ->
  namei k f fl cur [c] =
  match h_names f (cur ++ [c]) with
  | None => Missing (cur ++ [c])
  | Some (HLink t m) =>
      if fl then match k with O => Bad IoLoop | S k => namei k f fl (if is_abs t then [] else cur) (pieces t) end
      else At (cur ++ [c]) (HLink t m)
  | Some n => At (cur ++ [c]) n
  end.
Proof.
  intros H. rewrite namei_eq. destruct (eqb_dotdot c H) as [-> ->].
  destruct (h_names f (cur ++ [c])) as [[|i|t m]|]; auto; [now rewrite namei_eq|].
  destruct fl; cbn [negb]; auto. destruct k; auto. now rewrite app_nil_r.
Qed.

(** The prefixes of [o] are directories. *)
Definition dirs_up (f : hostfs) (o : path) : Prop := forall q t, o = q ++ t -> q <> [] -> h_names f q = Some HDir.
Definition shaped (base : opath) (out : path) : Prop :=
  Forall (fun c => c = b "." \/ ordinary c) (snd base) /\ out = fst base ++ filter not_dot (snd base).

Lemma dirs_up_app f o p : dirs_up f o -> (forall q t, p = q ++ t -> q <> [] -> h_names f (o ++ q) = Some HDir) -> dirs_up f (o ++ p).
Proof.
  intros Ho Hp q t E Hq.
  assert (G : (exists u, o = q ++ u) \/ (exists v, q = o ++ v /\ v <> [] /\ p = v ++ t)).
  { clear - E. revert q E. induction o as [|x o IH]; intros [|y q] E; cbn in *.
    - left. now exists [].
    - right. exists (y :: q). repeat split; auto; easy.
    - left. now exists (x :: o).
    - injection E as <- E. destruct (IH q E) as [[u ->]|(v & -> & Hv & Hp)]; [left; now exists u|right; now exists v]. }
  destruct G as [[u Hu]|(v & -> & Hv & Ev)].
  - eapply Ho; eauto.
  - eapply Hp; eauto.
Qed.

Section Entry.
  Variables (cfg : config) (out : path).
  Hypothesis Hshape : shaped (x_base cfg) out.

  Lemma look_abs f fl d n : dirs_up f (out ++ d) -> Forall ordinary d -> ordinary n ->
    look f fl (abs_path cfg (join (d ++ [n]))) = namei max_links f fl (out ++ d) [n].
  Proof.
    intros Hd Ho Hn. unfold look, abs_path. cbn [fst snd]. destruct Hshape as [Hs ->].
    assert (Hg : Forall good (d ++ [n])).
    { apply Forall_app. split; [|constructor; [now apply ordinary_good|constructor]]. eapply Forall_impl; [|exact Ho]. apply ordinary_good. }
    rewrite iter_pieces, pieces_join by exact Hg.
    rewrite app_assoc, namei_down.
    - f_equal. rewrite filter_app. rewrite <- app_assoc. f_equal. f_equal. clear - Ho. induction Ho as [|x d Hx Hd IH]; cbn; auto.
      rewrite (not_dot_ordinary x Hx). now rewrite IH.
    - apply Forall_app. split; auto. eapply Forall_impl; [|exact Ho]. auto.
    - intros q x t E. apply (Hd (fst (x_base cfg) ++ q ++ [x]) t); [|now destruct (fst (x_base cfg)); destruct q].
      rewrite <- !app_assoc. f_equal. rewrite filter_app in E.
      assert (Ed : filter not_dot d = d) by (clear - Ho; induction Ho as [|y d Hy Hd IH]; cbn; auto; rewrite (not_dot_ordinary y Hy); now rewrite IH).
      rewrite Ed in E. exact E.
  Qed.

  Lemma look_final f fl d n : dirs_up f (out ++ d) -> Forall ordinary d -> ordinary n ->
    (forall t m, h_names f (out ++ d ++ [n]) = Some (HLink t m) -> fl = false) ->
    look f fl (abs_path cfg (join (d ++ [n]))) =
    match h_names f (out ++ d ++ [n]) with None => Missing (out ++ d ++ [n]) | Some x => At (out ++ d ++ [n]) x end.
  Proof.
    intros Hd Ho Hn Hl. rewrite look_abs, namei_last by auto. rewrite <- app_assoc in *.
    destruct (h_names f (out ++ d ++ [n])) as [[|i|t m]|]; auto. now rewrite (Hl t m).
  Qed.
End Entry.

(** ** [create_dir_all] *)
(** [g] is [f] where the prefixes of [o] are directories. *)
Record made (f g : hostfs) (o : path) : Prop := {
  md_up : dirs_up g o;
  md_other : forall q, (q = [] \/ ~ exists t, o = q ++ t) -> h_names g q = h_names f q;
  md_kept : forall q n, h_names f q = Some n -> h_names g q = Some n;
  md_data : h_data g = h_data f;
  md_mtime : h_mtime g = h_mtime f;
  md_next : h_next g = h_next f;
  md_dirtime : h_dirtime g = h_dirtime f;
  md_now : h_now g = h_now f }.

Lemma prefix_dec (o q : path) : {exists t, o = q ++ t} + {~ exists t, o = q ++ t}.
Proof.
  revert q. induction o as [|x o IH]; intros [|y q].
  - left. now exists [].
  - right. intros [t E]. discriminate E.
  - left. now exists (x :: o).
  - destruct (list_eq_dec N.eq_dec x y) as [->|Hn].
    + destruct (IH q) as [H|H]; [left|right].
      * destruct H as [t ->]. now exists t.
      * intros [t E]. apply H. injection E as E. eauto.
    + right. intros [t E]. injection E as E _. congruence.
Qed.

Definition open_way (f : hostfs) (cur : path) (names : path) : Prop :=
  forall q x t, names = q ++ x :: t -> h_names f (cur ++ q ++ [x]) = None \/ h_names f (cur ++ q ++ [x]) = Some HDir.

Lemma namei_way k f fl comps : forall cur, Forall (fun c => c = b "." \/ ordinary c) comps ->
  open_way f cur (filter not_dot comps) ->
  (namei k f fl cur comps = At (cur ++ filter not_dot comps) HDir /\
     (forall q x t, filter not_dot comps = q ++ x :: t -> h_names f (cur ++ q ++ [x]) = Some HDir)) \/
  (exists q x, filter not_dot comps = q ++ [x] /\ namei k f fl cur comps = Missing (cur ++ q ++ [x]) /\ h_names f (cur ++ q ++ [x]) = None /\
     (forall q' x' t, q = q' ++ x' :: t -> h_names f (cur ++ q' ++ [x']) = Some HDir)) \/
  namei k f fl cur comps = Bad IoNotFound.
Proof.
  induction comps as [|c comps IH]; intros cur Hc Hw.
  - left. rewrite namei_eq. cbn. rewrite app_nil_r. split; auto. intros q x t E. now destruct q.
  - apply Forall_cons_iff in Hc as [Hc Hcs]. rewrite namei_eq. cbn [filter] in *. destruct Hc as [->|Hc].
    + rewrite not_dot_dot in *. change (bytes_eqb (b ".") (b ".")) with true. cbn iota. now apply IH.
    + destruct (eqb_dotdot c Hc) as [-> ->]. rewrite (not_dot_ordinary c Hc) in *.
      destruct (Hw [] c (filter not_dot comps) eq_refl) as [E|E]; cbn [app] in E; rewrite E.
      * destruct comps as [|c' comps]; [|now right; right]. right. left. exists [], c. split; auto. split; auto. split; auto. intros q' x' t Ex. now destruct q'.
      * assert (Hw' : open_way f (cur ++ [c]) (filter not_dot comps)).
        { intros q x t Ex. rewrite <- app_assoc. apply (Hw (c :: q) x t). now rewrite Ex. }
        destruct (IH (cur ++ [c]) Hcs Hw') as [[H1 H2]|[(q & x & H1 & H2 & H3 & H4)|H]].
        -- left. rewrite H1. rewrite <- app_assoc. split; auto. intros q x t Ex. destruct q as [|z q]; cbn in Ex; injection Ex as -> Ex; auto.
           specialize (H2 q x t Ex). rewrite <- app_assoc in H2. exact H2.
        -- right. left. exists (c :: q), x. rewrite H1, H2. cbn [app]. rewrite <- !app_assoc in *. split; auto. split; auto. split; auto.
           intros q' x' t Ex. destruct q' as [|z q']; cbn in Ex; injection Ex as -> Ex; auto. specialize (H4 q' x' t Ex). rewrite <- app_assoc in H4. exact H4.
        -- right. right. exact H.
Qed.

Lemma made_refl f o : dirs_up f o -> made f f o.
Proof. intros H. now constructor. Qed.

Lemma made_set f o x : dirs_up f o -> h_names f (o ++ [x]) = None -> made f (set_name f (o ++ [x]) (Some HDir)) (o ++ [x]).
Proof.
  intros H Hn. constructor; cbn; auto.
  - intros q t E Hq. cbn. destruct (path_eqb' q (o ++ [x])) eqn:Eq; auto. destruct t as [|y t _] using rev_ind.
    + rewrite app_nil_r in E. subst q. rewrite path_eqb'_refl in Eq. discriminate Eq.
    + rewrite app_assoc in E. apply app_inj_tail in E as [E _]. now apply (H q t).
  - intros q Hq. rewrite path_eqb'_neq; auto. intros ->. destruct Hq as [Hq|Hq]; [now destruct o|]. apply Hq. exists []. now rewrite app_nil_r.
  - intros q n E. destruct (path_eqb' q (o ++ [x])) eqn:Eq; auto. apply path_eqb'_spec in Eq. congruence.
Qed.

Lemma made_trans f g h o x : made f g o -> made g h (o ++ [x]) -> made f h (o ++ [x]).
Proof.
  intros [A1 A2 A3 A4 A5 A6 A7 A8] [B1 B2 B3 B4 B5 B6 B7 B8]. constructor; auto; try congruence.
  intros q Hq. rewrite B2 by auto. apply A2. destruct Hq as [Hq|Hq]; auto. right. intros [t ->]. apply Hq. exists (t ++ [x]). now rewrite app_assoc.
Qed.

Lemma create_dir_all_made f s comps : Forall (fun c => c = b "." \/ ordinary c) comps -> dirs_up f s ->
  open_way f s (filter not_dot comps) ->
  exists g, create_dir_all_rev f s (rev comps) = (g, None) /\ made f g (s ++ filter not_dot comps).
Proof.
  revert f. induction comps as [|c comps IH] using rev_ind; intros f Hc Hs Hw.
  - exists f. cbn. rewrite app_nil_r. split; auto. now apply made_refl.
  - assert (Er : rev (c :: rev comps) = comps ++ [c]) by (cbn [rev]; now rewrite rev_involutive).
    rewrite rev_app_distr. change (rev [c] ++ rev comps) with (c :: rev comps). cbn [create_dir_all_rev]. rewrite Er.
    unfold mkdir at 1, look at 1. cbn [fst snd].
    destruct (namei_way max_links f false (comps ++ [c]) s Hc Hw) as [[H1 H2]|[(q & x & H1 & H2 & H3 & H4)|H]].
    + rewrite H1. unfold is_dir_path, look. cbn [fst snd].
      assert (Eq : namei max_links f true s (comps ++ [c]) = At (s ++ filter not_dot (comps ++ [c])) HDir).
      { rewrite <- (app_nil_r (comps ++ [c])) at 1. rewrite namei_down by auto. now rewrite namei_eq. }
      rewrite Eq. exists f. split; auto. apply made_refl.
      apply dirs_up_app; auto. intros q' t E Hq'. destruct q' as [|z q' _] using rev_ind; [easy|].
      apply (H2 q' z t). now rewrite E, <- app_assoc.
    + rewrite H2. eexists. split; [reflexivity|]. rewrite H1. rewrite (app_assoc s q [x]) in *. apply made_set; auto.
      apply dirs_up_app; auto. intros q' t E Hq'. destruct q' as [|z q' _] using rev_ind; [easy|].
      apply (H4 q' z t). now rewrite E, <- app_assoc.
    + rewrite H. apply Forall_app in Hc as [Hcs Hc]. apply Forall_inv in Hc.
      rewrite filter_app in Hw. cbn [filter] in Hw.
      assert (Hw1 : open_way f s (filter not_dot comps)).
      { intros q x t E. apply (Hw q x (t ++ if not_dot c then [c] else [])). rewrite E, <- app_assoc. reflexivity. }
      destruct (IH f Hcs Hs Hw1) as (g & Eg & Hg). rewrite Eg.
      unfold mkdir, look. cbn [fst snd].
      assert (Hdown : forall fl, namei max_links g fl s (comps ++ [c]) = namei max_links g fl (s ++ filter not_dot comps) [c]).
      { intros fl. apply namei_down; auto. intros q x t E. apply (md_up _ _ _ Hg (s ++ q ++ [x]) t); [|now destruct s; destruct q].
        now rewrite E, <- !app_assoc. }
      rewrite Hdown. unfold is_dir_path, look. cbn [fst snd]. rewrite filter_app. cbn [filter].
      destruct Hc as [->|Hc].
      * rewrite not_dot_dot, app_nil_r. rewrite namei_eq. change (bytes_eqb (b ".") (b ".")) with true. cbn iota. rewrite namei_eq. cbn iota.
        rewrite Hdown, namei_eq. change (bytes_eqb (b ".") (b ".")) with true. cbn iota. rewrite namei_eq. eauto.
      * rewrite (not_dot_ordinary c Hc) in *. rewrite namei_last by auto. rewrite <- app_assoc in *.
        assert (Hgc : h_names g (s ++ filter not_dot comps ++ [c]) = h_names f (s ++ filter not_dot comps ++ [c])).
        { apply (md_other _ _ _ Hg). right. intros [t E]. rewrite <- app_assoc in E. apply app_inv_head in E.
          apply (f_equal (@length _)) in E. rewrite !app_length in E. cbn in E. lia. }
        destruct (Hw (filter not_dot comps) c [] eq_refl) as [E|E]; rewrite Hgc, E.
        -- eexists. split; [reflexivity|]. rewrite app_assoc. eapply made_trans; [exact Hg|]. apply made_set; [apply Hg|].
           now rewrite <- app_assoc, Hgc.
        -- rewrite Hdown, namei_last by auto. rewrite <- app_assoc, Hgc, E. eexists. split; [reflexivity|]. rewrite app_assoc. eapply made_trans; [exact Hg|].
           apply made_refl. rewrite <- app_assoc. apply dirs_up_app; auto.
           { intros q t E' Hq. apply (md_up _ _ _ Hg q (t ++ filter not_dot comps)); auto. now rewrite E', <- app_assoc. }
           intros q t E' Hq. destruct t as [|z t _] using rev_ind.
           ++ rewrite app_nil_r in E'. subst q. now rewrite Hgc.
           ++ rewrite app_assoc in E'. apply app_inj_tail in E' as [E' _]. apply (md_up _ _ _ Hg (s ++ q) t); [|now destruct s; destruct q]. now rewrite E', <- app_assoc.
Qed.

Lemma base_made f base out : outdir f base out -> exists g, create_dir_all f base = (g, None) /\ made f g out /\ shaped base out.
Proof.
  intros (H1 & H2 & H3 & H4). unfold create_dir_all. rewrite H2.
  destruct (create_dir_all_made f (fst base) (snd base)) as (g & E & Hg); auto.
  - intros q t E Hq. destruct q as [|x q _] using rev_ind; [easy|]. apply (H3 q x t). now rewrite E, <- app_assoc.
  - intros q x t E. apply (H4 (fst base ++ q ++ [x]) t); [|now destruct (fst base); destruct q]. now rewrite H2, E, <- !app_assoc.
  - exists g. split; auto. split; auto. now split.
Qed.
