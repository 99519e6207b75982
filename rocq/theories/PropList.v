(** C42-C43: [arx list]. *)
From Verif Require Export ListSession Demo.

(** C42: one line per stored entry, its path, in path order. *)
Theorem C42_plain_listing : forall l fetch a, small l -> archive_of l fetch a ->
  exists ps, StronglySorted path_lt (map fst ps) /\ (forall p nd, In (p, nd) ps <-> has l p nd) /\
    list_cmd a None = (text (map (fun x => join (fst x)) ps), Ok tt).
Proof. intros l fetch a Hs Ha. destruct (plain_listing l fetch a Hs Ha) as (ps & [H1 H2] & H3). eauto. Qed.
Print Assumptions C42_plain_listing.

Lemma join_newline p : (forall n, In n p -> ~ In 10 n) -> ~ In 10 (join p).
Proof.
  destruct p as [|x p]; [easy|]. rewrite join_parts, in_app_iff. intros H [H1|H1]; [now apply (H x); [left|]|].
  apply in_concat in H1 as (y & H1 & H2). apply in_map_iff in H1 as (n & <- & Hn). destruct H2 as [H2|H2]; [discriminate H2|].
  apply (H n); auto. now right.
Qed.

(** The listing tells exactly which paths are stored. *)
Theorem C42_listing_determines_paths : forall l1 f1 a1 l2 f2 a2,
  small l1 -> archive_of l1 f1 a1 -> small l2 -> archive_of l2 f2 a2 -> no_newline l1 -> no_newline l2 ->
  list_cmd a1 None = list_cmd a2 None -> forall p, (exists nd, has l1 p nd) <-> (exists nd, has l2 p nd).
Proof.
  intros l1 f1 a1 l2 f2 a2 S1 A1 S2 A2 N1 N2 E.
  destruct (plain_listing l1 f1 a1 S1 A1) as (ps1 & [_ H1] & E1). destruct (plain_listing l2 f2 a2 S2 A2) as (ps2 & [_ H2] & E2).
  rewrite E1, E2 in E. injection E as E. apply text_inj in E.
  2: { intros x Hx. apply in_app_iff in Hx as [Hx|Hx]; apply in_map_iff in Hx as ((p & nd) & <- & Hx); cbn [fst]; apply join_newline; intros n Hn;
       [apply H1 in Hx; eapply N1|apply H2 in Hx; eapply N2]; eauto. }
  assert (Hj : forall l ps, (forall p nd, In (p, nd) ps <-> has l p nd) -> forall p, Forall (fun n => n <> [] /\ no_sep n) p ->
            (exists nd, has l p nd) <-> In (join p) (map (fun x : path * node => join (fst x)) ps)).
  { intros l ps H p Hp. rewrite in_map_iff. split.
    - intros [nd Hn]. exists (p, nd). split; auto. now apply H.
    - intros ((q & nd) & Eq & Hin). exists nd. apply H in Hin. cbn [fst] in Eq. apply join_inj in Eq; [now subst| |auto]. now apply stored_names in Hin. }
  intros p. split; intros [nd Hn]; pose proof (stored_names _ _ _ Hn) as [_ Hc].
  - apply (Hj l2 ps2 H2 p Hc). rewrite <- E. apply (Hj l1 ps1 H1 p Hc). eauto.
  - apply (Hj l1 ps1 H1 p Hc). rewrite E. apply (Hj l2 ps2 H2 p Hc). eauto.
Qed.
Print Assumptions C42_listing_determines_paths.

Example C42_meets_hypotheses :
  list_cmd demo_arx None = (text [b "a"; b "a/b"; b "a/b/f.txt"; b "a/z"; b "l"], Ok tt).
Proof. vm_compute. reflexivity. Qed.

(** C43: the stable output, when the names and link targets are UTF-8 and no directory is named ".". *)
Theorem C43_stable_listing : forall l fetch a, small l -> archive_of l fetch a ->
  (forall p nd n, has l p nd -> In n p -> n <> b "." /\ utf8 n = true) ->
  (forall p t m, has l p (KLink t, m) -> utf8 t = true) ->
  exists ps, StronglySorted path_lt (map fst ps) /\ (forall p nd, In (p, nd) ps <-> has l p nd) /\
    list_cmd a (Some 1) = (text (map (fun x => stable_line (fst x) (snd x)) ps), Ok tt).
Proof. intros l fetch a Hs Ha H1 H2. destruct (stable_listing l fetch a Hs Ha H1 H2) as (ps & [H3 H4] & H5). eauto. Qed.
Print Assumptions C43_stable_listing.

(** With link targets that are not UTF-8, the same, each read with U+FFFD for what is not. *)
Theorem C43_any_targets : forall l fetch a, small l -> archive_of l fetch a ->
  (forall p nd n, has l p nd -> In n p -> n <> b "." /\ utf8 n = true) ->
  exists ps lines, StronglySorted path_lt (map fst ps) /\ (forall p nd, In (p, nd) ps <-> has l p nd) /\
    Forall2 (fun x line => match fst (snd x) with
                           | KLink t => exists t', reads_as t t' /\ line = stable_line (fst x) (KLink t', snd (snd x))
                           | _ => line = stable_line (fst x) (snd x)
                           end) ps lines /\
    list_cmd a (Some 1) = (text lines, Ok tt).
Proof.
  intros l fetch a Hs Ha H1. destruct (stable_listing_any l fetch a Hs Ha H1) as (ps & [H3 H4] & H5). exists ps. eexists. split; [exact H3|]. split; [exact H4|]. split; [|exact H5].
  clear. induction ps as [|[p [k m]] ps IH]; constructor; [|exact IH]. unfold as_text. cbn [fst snd]. destruct k as [|size ad|t]; auto.
  exists (lossy t). split; [apply lossy_reads|reflexivity].
Qed.
Print Assumptions C43_any_targets.

(** ... which is one reading: UTF-8 is read as it is. *)
Theorem C43_reads_utf8 : forall s t, utf8 s = true -> reads_as s t -> t = s.
Proof. intros s t Hu H. rewrite <- (lossy_utf8 s Hu). exact (reads_det s t _ H (lossy_reads s)). Qed.
Print Assumptions C43_reads_utf8.
Theorem C43_reads_once : forall s t t', reads_as s t -> reads_as s t' -> t = t'.
Proof. exact reads_det. Qed.
Print Assumptions C43_reads_once.

(** Any other version is refused, printing nothing. *)
Theorem C43_other_versions : forall a v, v <> 1 -> exists e, list_cmd a (Some v) = ([], Err e).
Proof. intros a v H. unfold list_cmd. apply N.eqb_neq in H as ->. eauto. Qed.
Print Assumptions C43_other_versions.

Lemma dec_space n : ~ In 32 (dec n).
Proof. intros H. apply dec_digits in H. lia. Qed.

Lemma dec_split m n s t : dec m ++ b " " ++ s = dec n ++ b " " ++ t -> m = n /\ s = t.
Proof.
  intros H. change (b " " ++ s) with (32 :: s) in H. change (b " " ++ t) with (32 :: t) in H.
  apply split_first in H as [H ->]; try apply dec_space. apply dec_inj in H. auto.
Qed.

(** Lines of directories and files determine the type, time, size and path... *)
Theorem C43_unambiguous : forall p nd q nd',
  (forall n, In n p -> n <> [] /\ ~ In 47 n) -> (forall n, In n q -> n <> [] /\ ~ In 47 n) ->
  (forall t, fst nd <> KLink t) -> (forall t, fst nd' <> KLink t) ->
  stable_line p nd = stable_line q nd' ->
  p = q /\ m_mtime (snd nd) = m_mtime (snd nd') /\
  match fst nd, fst nd' with
  | KDir, KDir => True
  | KFile s _, KFile s' _ => s = s'
  | _, _ => False
  end.
Proof.
  intros p [k m] q [k' m'] Hp Hq Hl Hl' E. cbn [fst snd] in *. unfold stable_line in E. cbn [fst snd] in E.
  assert (Hp' : Forall (fun n => n <> [] /\ no_sep n) p) by (apply Forall_forall; exact Hp).
  assert (Hq' : Forall (fun n => n <> [] /\ no_sep n) q) by (apply Forall_forall; exact Hq).
  destruct k as [|s ad|t]; [| |now specialize (Hl t)]; (destruct k' as [|s' ad'|t']; [| |now specialize (Hl' t')]); try discriminate E.
  - apply (app_inv_head (b "d ")) in E. apply dec_split in E as [-> E]. apply join_inj in E; auto.
  - apply (app_inv_head (b "f ")) in E. apply dec_split in E as [-> E]. apply dec_split in E as [-> E]. apply join_inj in E; auto.
Qed.
Print Assumptions C43_unambiguous.

(** ... and lines of links the time, path and target, as long as no path contains ">". *)
Theorem C43_links_unambiguous : forall p t m q nd',
  (forall n, In n p -> n <> [] /\ ~ In 47 n /\ ~ In 62 n) -> (forall n, In n q -> n <> [] /\ ~ In 47 n /\ ~ In 62 n) ->
  stable_line p (KLink t, m) = stable_line q nd' -> p = q /\ m_mtime m = m_mtime (snd nd') /\ fst nd' = KLink t.
Proof.
  intros p t m q [k' m'] Hp Hq E. unfold stable_line in E. cbn [fst snd] in E. destruct k' as [|s ad|t']; try discriminate E.
  assert (Hc : forall p, (forall n, In n p -> n <> [] /\ ~ In 47 n /\ ~ In 62 n) -> Forall (fun n => n <> [] /\ no_sep n) p /\ ~ In 62 (join p ++ [45])).
  { intros p0 H. split; [apply Forall_forall; intros n Hn; destruct (H n Hn) as (H1 & H2 & _); auto|].
    rewrite in_app_iff. intros [H1|[H1|[]]]; [|discriminate H1]. destruct p0 as [|x p0]; [easy|]. rewrite join_parts, in_app_iff in H1.
    destruct H1 as [H1|H1]; [now apply (H x); [left|]|]. apply in_concat in H1 as (y & H1 & H2). apply in_map_iff in H1 as (n & <- & Hn).
    destruct H2 as [H2|H2]; [discriminate H2|]. apply (H n); auto. now right. }
  destruct (Hc p Hp) as [P1 P2]. destruct (Hc q Hq) as [Q1 Q2].
  apply (app_inv_head (b "l ")) in E. apply dec_split in E as [-> E].
  change (b "->") with ([45] ++ [62]) in E. rewrite <- !app_assoc, !(app_assoc _ [45]) in E. cbn [app] in E.
  apply split_first in E as [E ->]; auto. apply app_inv_tail in E. apply join_inj in E; auto.
Qed.
Print Assumptions C43_links_unambiguous.

(** Hence the stable listing of an archive without links tells the types, times and sizes. *)
Theorem C43_listing_determines : forall l1 f1 a1 l2 f2 a2,
  small l1 -> archive_of l1 f1 a1 -> small l2 -> archive_of l2 f2 a2 -> no_newline l1 -> no_newline l2 ->
  (forall p nd n, has l1 p nd \/ has l2 p nd -> In n p -> n <> b "." /\ utf8 n = true) ->
  (forall p nd t, has l1 p nd \/ has l2 p nd -> fst nd <> KLink t) ->
  list_cmd a1 (Some 1) = list_cmd a2 (Some 1) ->
  forall p k m, has l1 p (k, m) -> exists k' m', has l2 p (k', m') /\ m_mtime m' = m_mtime m /\
    match k, k' with KDir, KDir => True | KFile s _, KFile s' _ => s = s' | _, _ => False end.
Proof.
  intros l1 f1 a1 l2 f2 a2 S1 A1 S2 A2 N1 N2 Hn Hnl E p k m Hh.
  destruct (stable_listing l1 f1 a1 S1 A1) as (ps1 & [_ H1] & E1); [eauto| |].
  { intros p0 t0 m0 H. exfalso. apply (Hnl p0 (KLink t0, m0) t0); auto. }
  destruct (stable_listing l2 f2 a2 S2 A2) as (ps2 & [_ H2] & E2); [eauto| |].
  { intros p0 t0 m0 H. exfalso. apply (Hnl p0 (KLink t0, m0) t0); auto. }
  rewrite E1, E2 in E. injection E as E.
  assert (Hline : forall p nd, has l1 p nd \/ has l2 p nd -> ~ In 10 (stable_line p nd)).
  { intros p0 [k0 m0] H.
    assert (Hj : ~ In 10 (join p0)) by (apply join_newline; intros n Hn0; destruct H as [H|H]; [eapply N1|eapply N2]; eauto).
    assert (Hd : forall x, ~ In 10 (dec x)) by (intros x Hx; apply dec_digits in Hx; lia).
    unfold stable_line. cbn [fst snd].
    destruct k0 as [|s ad|t]; [| |exfalso; now apply (Hnl p0 (KLink t, m0) t)]; rewrite !in_app_iff; cbn [b In];
      repeat match goal with |- context [N_of_ascii ?c] => let x := eval vm_compute in (N_of_ascii c) in change (N_of_ascii c) with x end;
      pose proof (Hd (m_mtime m0)); try pose proof (Hd s); intuition discriminate. }
  apply text_inj in E.
  2: { intros x Hx. apply in_app_iff in Hx as [Hx|Hx]; apply in_map_iff in Hx as ((p0 & nd) & <- & Hx); cbn [fst snd]; apply Hline;
       [left; now apply H1|right; now apply H2]. }
  assert (Hin : In (stable_line p (k, m)) (map (fun x : path * node => stable_line (fst x) (snd x)) ps2)).
  { rewrite <- E. apply in_map_iff. exists (p, (k, m)). split; auto. now apply H1. }
  apply in_map_iff in Hin as ((q & [k' m']) & Eq & Hin). cbn [fst snd] in Eq. apply H2 in Hin.
  assert (Hcl : forall l0 q0 nd0, has l0 q0 nd0 -> forall n, In n q0 -> n <> [] /\ ~ In 47 n).
  { intros l0 q0 nd0 H. apply stored_names in H as [_ H]. rewrite Forall_forall in H. exact H. }
  destruct (C43_unambiguous q (k', m') p (k, m)) as (-> & Em & Ek); eauto.
  cbn [fst snd] in *. exists k', m'. split; auto. split; auto. destruct k, k'; auto.
Qed.
Print Assumptions C43_listing_determines.

(** Two different links can have the same line. *)
Theorem C43_links_refuted : exists l1 l2 fetch a1 a2, archive_of l1 fetch a1 /\ archive_of l2 fetch a2 /\
  has l1 [b "x"] (KLink (b "y->z"), d_meta) /\ has l2 [b "x->y"] (KLink (b "z"), d_meta) /\
  list_cmd a1 (Some 1) = (text [b "l 1234567 x->y->z"], Ok tt) /\ list_cmd a2 (Some 1) = list_cmd a1 (Some 1).
Proof.
  exists [d_link (b "x") (b "y->z")], [d_link (b "x->y") (b "z")], demo_fetch. eexists. eexists.
  split; [vm_compute; reflexivity|]. split; [vm_compute; reflexivity|].
  split. { exists 0%nat. eexists. split; [vm_compute; reflexivity|]. split; [|reflexivity]. eapply (spath_top _ _ (mkSentry (b "x") None (KLink (b "y->z")) d_meta)); reflexivity. }
  split. { exists 0%nat. eexists. split; [vm_compute; reflexivity|]. split; [|reflexivity]. eapply (spath_top _ _ (mkSentry (b "x->y") None (KLink (b "z")) d_meta)); reflexivity. }
  split; vm_compute; reflexivity.
Qed.
Print Assumptions C43_links_refuted.

(** A directory named "." (stored by an entry "a/./b") makes the stable output lie about the paths that
    follow: "a/c" is listed as "c". *)
Theorem C43_dot_refuted : exists fetch a, archive_of [d_file (b "a/./b") 0 5; d_file (b "a/c") 1 3] fetch a /\
  list_cmd a None = (text [b "a"; b "a/."; b "a/./b"; b "a/c"], Ok tt) /\
  list_cmd a (Some 1) = (text [b "d 0 a"; b "d 0 a/."; b "f 1234567 5 a/./b"; b "f 1234567 3 c"], Ok tt).
Proof. exists demo_fetch. eexists. split; [vm_compute; reflexivity|]. split; vm_compute; reflexivity. Qed.
Print Assumptions C43_dot_refuted.

Example C43_meets_hypotheses :
  list_cmd demo_arx (Some 1) = (text [b "d 0 a"; b "d 0 a/b"; b "f 1234567 5 a/b/f.txt"; b "f 1234567 3 a/z"; b "l 1234567 l->a/b"], Ok tt) /\
  (forall p nd n, has demo p nd -> In n p -> n <> b "." /\ utf8 n = true) /\ no_newline demo.
Proof.
  split; [vm_compute; reflexivity|].
  assert (H : forall p nd, has demo p nd -> In p [[b "a"]; [b "a"; b "b"]; [b "a"; b "b"; b "f.txt"]; [b "a"; b "z"]; [b "l"]]).
  { intros p nd Hh. apply (archive_has demo demo_fetch demo_arx p nd demo_small demo_built) in Hh as (i & r & Hr & Hp & _).
    assert (Hi : i < 5) by (apply at_some_lt in Hr; exact Hr).
    clear - Hp Hi. assert (Hq : exists q, apath demo_arx i q /\ In q [[b "a"]; [b "a"; b "b"]; [b "a"; b "b"; b "f.txt"]; [b "a"; b "z"]; [b "l"]]).
    { assert (Ha : apath demo_arx 0 [b "a"]) by (eapply (apath_top _ _ (mkRec (b "a") 0 _ _ _ _ _)); vm_compute; reflexivity).
      assert (Hb : apath demo_arx 2 ([b "a"] ++ [b "b"])) by (eapply (apath_sub _ _ (mkRec (b "b") 1 _ _ _ _ _) 0); [vm_compute; reflexivity|reflexivity|exact Ha]).
      assert (i = 0 \/ i = 1 \/ i = 2 \/ i = 3 \/ i = 4) as [->|[->|[->|[->| ->]]]] by lia.
      - exists [b "a"]. split; auto. cbn; auto.
      - exists [b "l"]. split; [eapply (apath_top _ _ (mkRec (b "l") 0 _ _ _ _ _)); vm_compute; reflexivity|cbn; tauto].
      - exists ([b "a"] ++ [b "b"]). split; auto. cbn; tauto.
      - exists ([b "a"] ++ [b "z"]). split; [|cbn; tauto]. eapply (apath_sub _ _ (mkRec (b "z") 1 _ _ _ _ _) 0); [vm_compute; reflexivity|reflexivity|exact Ha].
      - exists (([b "a"] ++ [b "b"]) ++ [b "f.txt"]). split; [|cbn; tauto]. eapply (apath_sub _ _ (mkRec (b "f.txt") 3 _ _ _ _ _) 2); [vm_compute; reflexivity|reflexivity|exact Hb]. }
    destruct Hq as (q & Hq & Hin). now rewrite (apath_det _ _ _ _ Hp Hq). }
  split.
  - intros p nd n Hh Hn. apply H in Hh. cbn [In] in Hh.
    repeat (destruct Hh as [<-|Hh]; [cbn [In] in Hn; repeat (destruct Hn as [<-|Hn]; [split; [discriminate|reflexivity]|]); destruct Hn|]). destruct Hh.
  - intros p nd n Hh Hn. apply H in Hh. cbn [In] in Hh.
    repeat (destruct Hh as [<-|Hh]; [cbn [In] in Hn; repeat (destruct Hn as [<-|Hn]; [vm_compute; intuition discriminate|]); destruct Hn|]). destruct Hh.
Qed.

(** A link with a target in Latin-1. *)
Example C43_any_targets_meets : exists a, archive_of [d_link (b "x") (b "caf" ++ [233] ++ b "/y")] demo_fetch a /\ small [d_link (b "x") (b "caf" ++ [233] ++ b "/y")] /\
  list_cmd a (Some 1) = (text [b "l 1234567 x->caf" ++ [239; 191; 189] ++ b "/y"], Ok tt) /\ reads_as (b "caf" ++ [233] ++ b "/y") (b "caf" ++ [239; 191; 189] ++ b "/y").
Proof.
  eexists. split; [vm_compute; reflexivity|]. split; [vm_compute; reflexivity|]. split; [vm_compute; reflexivity|].
  change (b "caf" ++ [239; 191; 189] ++ b "/y") with (lossy (b "caf" ++ [233] ++ b "/y")). apply lossy_reads.
Qed.
