(** C78: archiving a directory that changes. *)
From Verif Require Import LiveFacts DemoHost PropMount SpecForeignFuse PropForeignFuse Cli.

Local Ltac bad := let H := fresh in intros H; discriminate H.

(** C78: whatever happens to the host meanwhile, what a successful creation stores was there: each thing
    with owner, group, mode, time, kind and size of one moment, its bytes or target of one later
    moment; and everything asked for is stored. *)
Theorem C78_moments : forall H t pre paths t' c, live_each H t pre paths creator_empty = (t', c, Ok tt) ->
  exists l, cr_entries c = after l /\ all_ok l /\
    seen_from H pre paths l (cr_contents c) /\ all_seen H pre paths l (cr_contents c).
Proof. intros H t pre paths t' c Hl. exact (live_filled_each H pre paths [] t creator_empty t' c (live_filled_nil H pre) Hl). Qed.
Print Assumptions C78_moments.

(** C78: on a host that does not change, this is the creation of C60. *)
Theorem C78_steady : forall H w t pre paths c t' c' r, possible w -> (forall t, hs_at H t = w) ->
  live_each H t pre paths c = (t', c', r) -> add_each w pre paths c = (c', r).
Proof.
  intros H w t pre paths c t' c' r Hw Hs Hl. pose proof (live_each_steady w H Hw Hs pre paths t c) as G. rewrite Hl in G. cbn [fst snd] in G. now rewrite <- G.
Qed.
Print Assumptions C78_steady.

(** C78: when files are only appended to, a stored file has all the bytes it had when its size was
    taken, perhaps followed by more. *)
Theorem C78_appended : forall H t pre paths t' c l, appended H -> live_each H t pre paths creator_empty = (t', c, Ok tt) ->
  cr_entries c = after l ->
  forall p size addr mt, has l p (KFile size addr, mt) ->
  exists t1 s q i data, look_str (hs_at H t1) false s = At q (HFile i) /\ fetch_of (cr_contents c) addr = Found data /\
    size = N.of_nat (length (h_data (w_fs (hs_at H t1)) i)) /\ firstn (N.to_nat size) data = h_data (w_fs (hs_at H t1)) i.
Proof.
  intros H t pre paths t' c l Hap Hrun Hc p size addr mt Hh. destruct (C78_moments _ _ _ _ _ _ Hrun) as (l' & Hc' & _ & Hs & _).
  unfold has in Hh. rewrite <- Hc, Hc' in Hh.
  destruct (Hs p _ Hh) as [(s & f & _ & _ & (s' & t1 & t2 & q & n & Ht & _ & Hl & _ & Hn))|(E & _)]; [|discriminate E].
  destruct n as [|i|tg m]; cbn [fst] in Hn; [discriminate Hn| |destruct Hn as (tg' & q' & m' & E & _); discriminate E].
  destruct Hn as (_ & addr' & q' & j & E & Hl2 & _ & Hf). injection E as E1 E2. subst addr'. subst size.
  destruct (Hap s' t1 t2 q i q' j Ht Hl Hl2) as [more Hm]. exists t1, s', q, i. eexists. split; [exact Hl|]. split; [exact Hf|]. split; [reflexivity|].
  rewrite Hm, Nnat.Nat2N.id, firstn_app, Nat.sub_diag, firstn_all. cbn [firstn]. now rewrite app_nil_r.
Qed.
Print Assumptions C78_appended.

(** A created archive has values that the mount server can represent, if what was added has. *)
Lemma created_healthy l fetch a root rd : mount_of l fetch a root rd -> showable l -> narrow a -> whole_sizes l fetch -> healthy a root.
Proof.
  intros HM Hsh Hnar Hwh. destruct (HM) as (Hsm & Ha & Hm). destruct (archive_ok l fetch a Hsm Ha) as (m & _ & _ & Hfe & Hw & (_ & Hall & _) & _).
  assert (Hin : forall r, In r (a_recs a) -> exists i p, at_ (a_recs a) i = Some r /\ apath a i p).
  { intros r Hr. apply in_at in Hr as [i Hi]. destruct (Hall i) as [p Hp]; [|exists i, p; auto].
    apply (at_some_lt (a_recs a) i r Hi). }
  assert (Hsane : forall r nd, In r (a_recs a) -> node_of_rec r = Some nd -> exists p, has l p nd /\ sane nd).
  { intros r nd Hr Hn. destruct (Hin r Hr) as (i & p & Hi & Hp). exists p. assert (Hh : has l p nd).
    { apply (archive_has l fetch a); auto. exists i, r. auto. }
    split; [exact Hh|]. now apply (Hsh p). }
  unfold node_of_rec in Hsane.
  constructor.
  - exact Hnar.
  - rewrite (wf_entries a Hw). cbn [fst snd]. split; [reflexivity|apply N.le_refl].
  - destruct Hm as [[_ ->]|(i & r & f & nb & _ & Hr & Ep & ->)]; [exact (proj1 (wf_root a Hw))|]. cbn [fst snd]. exact (proj1 (wf_dir a Hw i r f nb Hr Ep)).
  - intros r f n Hr Ep. destruct (Hin r Hr) as (i & p & Hi & _). pose proof (proj1 (wf_dir a Hw i r f n Hi Ep)) as G.
    destruct (wf_dir_u32 a Hw _ _ _ _ Hi Ep) as [U1 U2]. unfold narrow in Hnar. split.
    + pose proof (N.mod_le f (2^32)). pose proof (N.mod_le n (2^32)). lia.
    + assert (n < 2^32) by lia. change (2^64) with (2^32 * 2^32). nia.
  - intros r Hr. destruct (Hin r Hr) as (i & p & Hi & _). pose proof (at_some_lt (a_recs a) i r Hi). pose proof (wf_size a Hw).
    destruct (wf_parent a Hw i r Hi) as [E|(j & _ & _ & _ & E & Hj & _)]; lia.
  - intros r Hr. destruct (r_payload r) as [addr size|f n|t|v] eqn:Ep.
    1,2,3: destruct (Hsane r _ Hr ltac:(rewrite Ep; reflexivity)) as (p & _ & S1 & _); exact S1.
    destruct (Hin r Hr) as (i & p & Hi & _). now destruct (wf_variant a Hw i r v Hi).
  - intros r t Hr Ep. destruct (Hsane r _ Hr ltac:(rewrite Ep; reflexivity)) as (p & _ & _ & S2). exact S2.
  - intros r addr size Hr Ep. destruct (Hsane r _ Hr ltac:(rewrite Ep; reflexivity)) as (p & _ & _ & S2). exact S2.
  - intros r addr size data Hr Ep Hf. destruct (Hsane r _ Hr ltac:(rewrite Ep; reflexivity)) as (p & Hh & _). rewrite Hfe in Hf. eapply Hwh; eauto.
  - intros r v Hr. destruct (Hin r Hr) as (i & p & Hi & _). exact (wf_variant a Hw i r v Hi).
Qed.

(** C78: then no request of the kernel stops a mount of that archive. *)
Theorem C78_mount : forall H t pre paths t' c l a root rd h s q, appended H -> live_each H t pre paths creator_empty = (t', c, Ok tt) ->
  cr_entries c = after l -> finalize c = Some a -> small l -> showable l -> narrow a -> mounted a root rd ->
  served a root h s -> kernel_like h q -> exists s' r, Fuse.step a root s q = (s', Ok r).
Proof.
  intros H t pre paths t' c l a root rd h s q Hap Hl Hc Hf Hsm Hsh Hna Hm Hsv Hq.
  apply (C72_no_abort a root h s q); [|exact Hsv|exact Hq].
  apply (created_healthy l (fetch_of (cr_contents c)) a root rd); [|exact Hsh|exact Hna|].
  - split; [exact Hsm|]. split; [|exact Hm]. unfold archive_of. rewrite <- Hc. exact Hf.
  - intros p size addr mt data Hh Hd.
    destruct (C78_appended H t pre paths t' c l Hap Hl Hc p size addr mt Hh) as (t1 & s1 & q1 & i & d & _ & Hd' & -> & E).
    rewrite Hd in Hd'. injection Hd' as <-. rewrite Nnat.Nat2N.id in E. rewrite <- E, firstn_length. lia.
Qed.
Print Assumptions C78_mount.

(** ** A file that changes between two system calls *)
Definition log_fs (data : bytes) : hostfs :=
  mkHost (fun p => if path_eqb' p [b "h"] then Some HDir else if path_eqb' p [b "h"; b "log"] then Some (HFile 0) else None)
    (fun i => if i =? 0 then data else []) (fun _ => 0%Z) 1 (fun _ => 0%Z) 0%Z.
Definition log_attr (q : path) : FsAdder.attr := FsAdder.mkAttr 1001 100 33188 1234567%Z false true.
Definition log_world (data : bytes) : world := mkWorld (log_fs data) log_attr (fun _ => None) [b "h"].
(** The metadata is taken at the call 0, the file opened at the call 1. *)
Definition log_then (x y : bytes) : history := mkHistory (fun t => match t with O => log_world x | S _ => log_world y end) (fun t => S t).
Notation grows := (log_then (b "abc") (b "abcdef")).
Notation shrinks := (log_then (b "abc") []).

Lemma look_names w fl s q i : look_str w fl s = At q (HFile i) -> h_names (w_fs w) q = Some (HFile i).
Proof.
  unfold look_str. destruct s as [|c0 s0]; [bad|]. unfold look. generalize max_links. intros k. generalize (fst (opath_of w (c0 :: s0))), (snd (opath_of w (c0 :: s0))).
  induction k as [|k IH]; intros cur c; revert cur; induction c as [|x c IHc]; intros cur; rewrite namei_eq.
  1,3: bad.
  all: destruct (bytes_eqb x (b ".")); [apply IHc|]; destruct (bytes_eqb x (b "..")); [apply IHc|];
    destruct (h_names (w_fs w) (cur ++ [x])) as [[|j|t m]|] eqn:En; [apply IHc| | |destruct c; bad].
  1,3: destruct c; [|bad]; intros E; injection E as <- <-; exact En.
  - destruct c; [destruct fl; bad|bad].
  - destruct c as [|y c]; [destruct fl; cbn [negb]; [apply IH|bad]|apply IH].
Qed.

Lemma log_possible x : possible (log_world x).
Proof.
  split.
  - intros q n. cbn [w_fs log_world log_fs h_names]. destruct (path_eqb' q [b "h"]) eqn:E.
    + apply path_eqb'_true in E as ->. intros _. repeat constructor; try discriminate; cbv; intuition discriminate.
    + clear E. destruct (path_eqb' q [b "h"; b "log"]) eqn:E; [|bad]. apply path_eqb'_true in E as ->. intros _. repeat constructor; try discriminate; cbv; intuition discriminate.
  - cbn [w_cwd log_world]. intros p r E Hp. destruct p as [|x0 p]; [easy|]. injection E as <- E. symmetry in E. apply app_eq_nil in E as [-> _]. reflexivity.
Qed.

Lemma log_file x fl s q i : look_str (log_world x) fl s = At q (HFile i) -> i = 0.
Proof.
  intros E. apply look_names in E. cbn [w_fs log_world log_fs h_names] in E. destruct (path_eqb' q [b "h"]); [discriminate E|].
  destruct (path_eqb' q [b "h"; b "log"]); [|discriminate E]. now injection E as <-.
Qed.
Lemma log_appended x y : appended (log_then x (x ++ y)).
Proof.
  intros s t1 t2 q i q' j Ht H1 H2. cbn [log_then hs_at hs_read] in *.
  assert (i = 0) as -> by (destruct t1; eapply log_file; exact H1). assert (j = 0) as -> by (destruct t2; eapply log_file; exact H2).
  destruct t1; [exists y; reflexivity|exists []; now rewrite app_nil_r].
Qed.

Definition log_run (H : history) := live_each H 0 [] [(b "log", true)] creator_empty.
Definition log_kept (size : N) : list entry := [mkEntry (b "log") (Ok (Some (KFile size (mkAddr 1 0)))) (mkMeta 1001 100 33188 1234567)].
Definition log_arx (x y : bytes) : archive :=
  mkArchive [mkRec (b "log") 0 1001 100 33188 1234567 (RFile (mkAddr 1 0) (N.of_nat (length x)))] (0, 1) (0, 1) (fetch_of [y]).

Lemma log_small size : small (log_kept size).
Proof. vm_compute. reflexivity. Qed.
Lemma log_built x y : archive_of (log_kept (N.of_nat (length x))) (fetch_of [y]) (log_arx x y).
Proof. unfold archive_of, log_arx, log_kept. generalize (N.of_nat (length x)). intros size. reflexivity. Qed.
Lemma log_stored x y i p nd : astored (log_arx x y) i p nd ->
  p = [b "log"] /\ nd = (KFile (N.of_nat (length x)) (mkAddr 1 0), mkMeta 1001 100 33188 1234567).
Proof.
  intros (r & Hr & Hp & Hn).
  assert (Hi : i = 0) by (apply at_some_lt in Hr; cbn in Hr; lia). subst i. cbn in Hr. injection Hr as <-.
  injection Hn as <-. split; [|reflexivity]. inversion Hp as [i0 r0 Hr0 Hp0|i0 r0 j0 p0 Hr0 Hp0]; cbn in Hr0; injection Hr0 as <-; [reflexivity|]. cbn in Hp0. lia.
Qed.
Lemma log_has (x : bytes) : has (log_kept (N.of_nat (length x))) [b "log"] (KFile (N.of_nat (length x)) (mkAddr 1 0), mkMeta 1001 100 33188 1234567).
Proof.
  apply (archive_has _ (fetch_of [[]]) (log_arx x [])); [apply log_small|apply log_built|].
  eexists 0, _. split; [reflexivity|]. split; [|reflexivity].
  apply (apath_top (log_arx x []) 0 (mkRec (b "log") 0 1001 100 33188 1234567 (RFile (mkAddr 1 0) (N.of_nat (length x))))); reflexivity.
Qed.
Lemma log_showable (x : bytes) : N.of_nat (length x) + 4095 < 2^64 -> showable (log_kept (N.of_nat (length x))).
Proof.
  intros Hx p nd Hh. apply (archive_has _ (fetch_of [[]]) (log_arx x [])) in Hh as (i & Hh); [|apply log_small|apply log_built].
  apply log_stored in Hh as [_ ->]. split; [reflexivity|exact Hx].
Qed.

(** A log that grows while it is archived. *)
Example C78_meets_hypotheses : appended grows /\ (forall t, t <= hs_read grows t)%nat /\
  log_run grows = (2%nat, mkCreator (after (log_kept 3)) [b "abcdef"], Ok tt) /\
  finalize (mkCreator (after (log_kept 3)) [b "abcdef"]) = Some (log_arx (b "abc") (b "abcdef")) /\
  small (log_kept 3) /\ showable (log_kept 3) /\ has (log_kept 3) [b "log"] (KFile 3 (mkAddr 1 0), mkMeta 1001 100 33188 1234567) /\
  narrow (log_arx (b "abc") (b "abcdef")) /\ mounted (log_arx (b "abc") (b "abcdef")) (0, 1) [] /\
  possible (log_world (b "abc")).
Proof.
  split; [exact (log_appended (b "abc") (b "def"))|]. split; [intros t; cbn [hs_read log_then]; lia|].
  split; [vm_compute; reflexivity|]. split; [vm_compute; reflexivity|]. split; [apply log_small|].
  split; [apply (log_showable (b "abc")); reflexivity|]. split; [exact (log_has (b "abc"))|].
  split; [vm_compute; reflexivity|]. split; [left; auto|apply log_possible].
Qed.

Definition log_seen : Fuse.attr := Fuse.mkAttr 2 3 FtFile 8 1234567 33060 1 1001 100 512.

(** Refuted: a file that shrinks between the two calls gives an archive of which an ordinary read stops
    the mount server. *)
Theorem C78_truncated_refuted : exists H paths t' c a h s q, live_each H 0 [] paths creator_empty = (t', c, Ok tt) /\
  finalize c = Some a /\ served a (a_root a) h s /\ kernel_like h q /\ snd (Fuse.step a (a_root a) s q) = Panic.
Proof.
  exists shrinks, [(b "log", true)], 2%nat, (mkCreator (after (log_kept 3)) [[]]), (log_arx (b "abc") []).
  exists [(Lookup 1 (b "log"), Ok (REntry log_seen)); (Open 2, Ok ROpened)].
  exists (mkFs [((1, b "log"), Some 0)] [(0, log_seen)] [(2, ([], 1))]), (Read 2 1 10).
  split; [vm_compute; reflexivity|]. split; [vm_compute; reflexivity|]. split.
  - apply (served_step (log_arx (b "abc") []) (0, 1) [(Lookup 1 (b "log"), Ok (REntry log_seen))] (mkFs [((1, b "log"), Some 0)] [(0, log_seen)] [])); [|reflexivity].
    apply (served_step (log_arx (b "abc") []) (0, 1) [] fs_new); [apply served_new|reflexivity].
  - split; [|reflexivity]. split; [vm_compute; reflexivity|]. exists log_seen. split; [split; [reflexivity|]|vm_compute; congruence].
    exists 1, (b "log"). left. reflexivity.
Qed.
Print Assumptions C78_truncated_refuted.

(** Refuted: the mount gives as size of a file the number of bytes that [arx dump] writes. *)
Theorem C78_views_refuted : ~ forall H paths t' c a name t w data, appended H ->
  live_each H 0 [] paths creator_empty = (t', c, Ok tt) -> finalize c = Some a ->
  snd (Fuse.step a (a_root a) fs_new (Lookup 1 name)) = Ok (REntry t) ->
  dump w a name None = (data, Ok tt) -> Fuse.at_size t = N.of_nat (length data).
Proof.
  intros G.
  specialize (G grows [(b "log", true)] 2%nat (mkCreator (after (log_kept 3)) [b "abcdef"]) (log_arx (b "abc") (b "abcdef")) (b "log") log_seen (log_world []) (b "abcdef")).
  specialize (G (log_appended (b "abc") (b "def")) ltac:(vm_compute; reflexivity) ltac:(vm_compute; reflexivity) ltac:(vm_compute; reflexivity) ltac:(vm_compute; reflexivity)).
  vm_compute in G. discriminate G.
Qed.
Print Assumptions C78_views_refuted.
