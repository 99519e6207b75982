(** C52-C54: the Python bindings. *)
From Verif Require Export PythonFacts.
From Verif Require Import FuseFacts.

Lemma new_fresh st : py_new true = Ok st -> st = st_fresh.
Proof. intros H. now injection H as <-. Qed.

(** C52: the life of a creator.  After any program [h], what the next call does. *)
Theorem C52_life_cycle : forall fuel st h st' ws os k st'' x r,
  py_new true = Ok st -> py_run fuel st h = (st', ws, os) -> py_step fuel st' k = (st'', x, r) ->
  (* before the block: every call raised, and only entering works *)
  (never_entered h -> ws = [] /\ Forall raises os /\ x = None /\
     match k with PyEnter => r = Ok tt | _ => raises r end) /\
  (* inside: nothing was written; add adds; leaving writes what was added inside, nothing else *)
  (forall l, in_block h l -> ws = [] /\
     match k with
     | PyEnter => x = None /\ raises r
     | PyAdd w s rc => x = None /\ r = snd (add_from_path fuel w [] s rc (filled fuel l))
     | PyExit _ => r = Ok tt /\ exists a, x = Some a /\ finalize (filled fuel l) = Some a
     end) /\
  (* after: one archive was written; every call raises *)
  (forall l, block_left h l -> (exists a, ws = [a] /\ finalize (filled fuel l) = Some a) /\ x = None /\ raises r).
Proof.
  intros fuel st h st' ws os k st'' x r Hst Hrun Hstep. apply new_fresh in Hst. subst st. split; [|split].
  - intros H. destruct (fresh_run fuel h H) as (os' & E & Hr). rewrite E in Hrun. injection Hrun as <- <- <-. split; auto. split; auto.
    destruct k as [|exc|w p rc]; cbn in Hstep; injection Hstep as <- <- <-; split; auto; eexists; reflexivity.
  - intros l H. destruct (in_block_run fuel h l H) as (os' & E). rewrite E in Hrun. injection Hrun as <- <- <-. split; auto.
    destruct k as [|exc|w p rc]; cbn [py_step py_enter py_exit py_add st_open py_creator py_started] in Hstep.
    + injection Hstep as <- <- <-. split; auto. eexists. reflexivity.
    + destruct (sound_finalize _ (sound_filled fuel l)) as [a Ha]. rewrite Ha in Hstep. injection Hstep as <- <- <-. eauto.
    + destruct (add_from_path fuel w [] p rc (filled fuel l)) as [c' r']. injection Hstep as <- <- <-. auto.
  - intros l H. destruct (block_left_run fuel h l H) as (a & os' & Ha & E). rewrite E in Hrun. injection Hrun as <- <- <-.
    destruct (done_step fuel k) as [e E2]. rewrite E2 in Hstep. injection Hstep as <- <- <-. split; [eauto|]. split; auto. now exists e.
Qed.
Print Assumptions C52_life_cycle.

(** Every program is in exactly one of these situations. *)
Theorem C52_situations : forall h,
  (never_entered h \/ (exists l, in_block h l) \/ (exists l, block_left h l)) /\
  ~ (never_entered h /\ exists l, in_block h l) /\ ~ (never_entered h /\ exists l, block_left h l) /\
  ~ ((exists l, in_block h l) /\ exists l, block_left h l).
Proof.
  intros h. split; [apply situations|]. repeat split.
  - intros (H & l & h1 & h2 & -> & _). apply H. rewrite in_app_iff. right. now left.
  - intros (H & l & h0 & exc & h3 & -> & h1 & h2 & -> & _). apply H. rewrite !in_app_iff. left. right. now left.
  - intros ((l & H) & l' & H'). destruct (in_block_run 0 h l H) as (os & E). destruct (block_left_run 0 h l' H') as (a & os' & _ & E'). rewrite E in E'. discriminate E'.
Qed.
Print Assumptions C52_situations.

(** No program writes two archives. *)
Theorem C52_written_once : forall fuel st h st' ws os, py_new true = Ok st -> py_run fuel st h = (st', ws, os) -> (length ws <= 1)%nat.
Proof.
  intros fuel st h st' ws os Hst Hrun. apply new_fresh in Hst. subst st. destruct (situations h) as [H|[(l & H)|(l & H)]].
  - destruct (fresh_run fuel h H) as (os' & E & _). rewrite E in Hrun. injection Hrun as _ <- _. cbn. lia.
  - destruct (in_block_run fuel h l H) as (os' & E). rewrite E in Hrun. injection Hrun as _ <- _. cbn. lia.
  - destruct (block_left_run fuel h l H) as (a & os' & _ & E). rewrite E in Hrun. injection Hrun as _ <- _. cbn. lia.
Qed.
Print Assumptions C52_written_once.

(** An exception raised inside the block does not prevent the archive from being written: the incomplete
    archive is at the output path. *)
Theorem C52_exception_refuted : forall fuel st h l st' ws os exc, py_new true = Ok st -> in_block h l ->
  py_run fuel st (h ++ [PyExit exc]) = (st', ws, os) -> exists a, ws = [a] /\ finalize (filled fuel l) = Some a.
Proof.
  intros fuel st h l st' ws os exc Hst H Hrun. apply new_fresh in Hst. subst st.
  destruct (block_left_run fuel (h ++ [PyExit exc]) l) as (a & os' & Ha & E); [exists h, exc, []; auto|].
  rewrite E in Hrun. injection Hrun as _ <- _. eauto.
Qed.
Print Assumptions C52_exception_refuted.
Definition py_demo : list pycall := [PyEnter; PyAdd src_world (b "src/a") true; PyAdd src_world (b "/h/src") true].
Example C52_exception_meets : in_block py_demo [(src_world, b "src/a", true); (src_world, b "/h/src", true)] /\
  exists a os st, py_run 5 st_fresh (py_demo ++ [PyExit true]) = (st, [a], os) /\ os = [Ok tt; Ok tt; Err ENonRelative; Ok tt] /\
    length (a_recs a) = 4%nat.
Proof.
  split.
  - exists [], (tl py_demo). split; [reflexivity|]. split; [intros []|]. split; [|reflexivity].
    intros exc [H|[H|[]]]; discriminate H.
  - do 3 eexists. split; [vm_compute; reflexivity|]. split; reflexivity.
Qed.

(** Adding a path that does not exist answers as if it were added. *)
Theorem C52_missing_file_refuted : forall fuel w s rc c, (forall q n, look_str w false s <> At q n) ->
  py_add fuel (st_open c) w s rc = (st_open c, Ok tt).
Proof.
  intros fuel w s rc c H. unfold py_add, st_open. cbn [py_creator py_started]. unfold add_from_path, walk.
  destruct (look_str w false s) as [q n|p|e] eqn:E; [now destruct (H q n)| |]; reflexivity.
Qed.
Print Assumptions C52_missing_file_refuted.
Example C52_missing_meets : forall q n, look_str src_world false (b "nowhere/x") <> At q n.
Proof. intros q n H. vm_compute in H. discriminate H. Qed.

(** C53: reading a content by pieces. *)
Theorem C53_reads : forall data ns s l, reads (mkStream data 0) ns = (s, l) ->
  let total := fold_right N.add 0 ns in
  concat l = firstn (N.to_nat total) data /\
  Forall2 (fun n x => N.of_nat (length x) <= n) ns l /\
  stream_size s = N.of_nat (length data) /\ stream_tell s = N.min (N.of_nat (length data)) total /\ stream_tell s + stream_left s = stream_size s.
Proof.
  intros data ns s l H total. pose proof (reads_spec ns (mkStream data 0)) as G. rewrite H in G. unfold stream_size, stream_tell, stream_left in *. cbn [sm_data sm_pos] in G.
  destruct G as (E1 & E2 & E3 & E4 & E5); [lia|]. unfold stream_size in *. rewrite E1. fold total in E3.
  split; [|repeat split; auto; lia].
  cbn [N.to_nat skipn] in E4. change (skipn (N.to_nat 0) data) with data in E4. rewrite E4. rewrite E3.
  destruct (N.le_gt_cases total (N.of_nat (length data))).
  - f_equal. lia.
  - rewrite !firstn_all2; auto; lia.
Qed.
Print Assumptions C53_reads.

(** A read gives as many bytes as asked, unless the end is reached. *)
Theorem C53_read_is_full : forall data ns s l n s' x, reads (mkStream data 0) ns = (s, l) -> stream_read s n = (s', x) ->
  N.of_nat (length x) = N.min n (stream_left s) /\ stream_left s = stream_left s' + N.of_nat (length x) /\
  data = concat l ++ x ++ skipn (N.to_nat (stream_tell s')) data.
Proof.
  intros data ns s l n s' x H Hr. pose proof (reads_spec ns (mkStream data 0)) as G. rewrite H in G. unfold stream_size in G. cbn [sm_data sm_pos] in G.
  destruct G as (E1 & E2 & E3 & E4 & E5); [lia|]. pose proof (read_spec s n) as R. unfold stream_size, stream_left, stream_tell in *. rewrite E1 in *. rewrite Hr in R.
  destruct R as (F1 & F2 & F3 & F4 & F5); auto. unfold stream_size in *. rewrite F1, E1 in *. split; auto. split; [lia|].
  unfold stream_size in *. rewrite E4, <- F5. replace (N.to_nat (sm_pos s - 0)) with (N.to_nat (sm_pos s)) by lia.
  change (skipn (N.to_nat 0) data) with data. now rewrite firstn_skipn.
Qed.
Print Assumptions C53_read_is_full.
Example C53_meets_hypotheses : reads (mkStream (b "hello world") 0) [3; 0; 100; 5] = (mkStream (b "hello world") 11, [b "hel"; []; b "lo world"; []]).
Proof. reflexivity. Qed.

(** C54: iterating over an archive, or over a directory of it. *)
Definition iterates (a : archive) (d : path) (it : N * N) : Prop :=
  (d = [] /\ it = py_iter a) \/
  exists i e nd, astored a i d nd /\ get_entry_at_idx full_builder a i = Ok e /\ py_iter_entry e = Ok it.

Theorem C54_children : forall l fetch a d it, small l -> archive_of l fetch a -> iterates a d it -> exists es ns,
  (* the entries of the directory, in the order of their names *)
  Forall2 (fun e n => exists i nd, has l (d ++ [n]) nd /\ astored a i (d ++ [n]) nd /\ shows a e i (d ++ [n]) nd) es ns /\
  StronglySorted (fun x y => bytes_cmp x y = Lt) ns /\
  (forall n, In n ns <-> exists nd, has l (d ++ [n]) nd) /\
  (* are the answers, followed by the end of the iteration *)
  forall k, py_nexts a k it = firstn k (map (fun e => Ok (Some e)) es) ++ repeat (Ok None) (k - length es).
Proof.
  intros l fetch a d it Hs Ha Hit. destruct (archive_ok l fetch a Hs Ha) as (m & _ & _ & _ & Hw & _).
  assert (G : exists j rg, apdir a j d /\ is_dir_range a j rg /\ it = (fst rg, fst rg + snd rg)).
  { destruct Hit as [(-> & ->)|(i & e & nd & (r & Hr & Hp & Hn) & He & Hie)].
    - exists 0, (a_root a). split; [now left|]. split; [apply (root_range a Hw)|reflexivity].
    - unfold get_entry_at_idx in He. destruct e as [[[c ad] sz]|[c t]|rg [c rg']]; try discriminate Hie. injection Hie as <-.
      exists (i + 1), rg. split; [right; eauto|]. split; [|reflexivity].
      unfold create_entry in He. rewrite (rec_at_ok _ _ _ Hr) in He. cbn [bind] in He. destruct (r_payload r) as [|f nb| |] eqn:Ep; cbn [full_builder b_file b_link b_dir] in He.
      + destruct (create_common i r) as [c0| | |]; cbn [bind] in He; try discriminate He. rewrite Ep in He. discriminate He.
      + destruct (create_common i r) as [c0| | |]; cbn [bind] in He; try discriminate He. rewrite Ep in He. cbn [bind] in He.
        destruct (wf_dir_u32 a Hw _ _ _ _ Hr Ep) as [E1 E2]. rewrite E1, E2 in He. injection He as <- _ _. exact (wf_dir _ Hw _ _ _ _ Hr Ep).
      + destruct (create_common i r) as [c0| | |]; cbn [bind] in He; try discriminate He. rewrite Ep in He. discriminate He.
      + discriminate He. }
  destruct G as (j & rg & Hj & [Hb Hk] & ->).
  destruct (range_entries a Hw (N.to_nat (snd rg)) (fst rg)) as [es Hes]; [lia|].
  set (nm := fun i => match at_ (a_recs a) i with Some r => r_name r | None => [] end).
  set (is := iota (fst rg) (N.to_nat (snd rg))) in *.
  assert (Hin : forall i, In i is -> exists r, at_ (a_recs a) i = Some r /\ nm i = r_name r /\ apath a i (d ++ [nm i])).
  { intros i Hi. apply in_iota in Hi. destruct (proj1 (Hk i)) as (r & Hr & Hp); [lia|]. exists r.
    assert (E : nm i = r_name r) by (unfold nm; now rewrite Hr). split; auto. split; auto. rewrite E. apply apath_intro; auto. now rewrite Hp. }
  exists es, (map nm is). split; [|split; [|split]].
  - clear Hk Hj Hit. assert (Hin' : forall i, In i is -> exists r, at_ (a_recs a) i = Some r /\ nm i = r_name r /\ apath a i (d ++ [nm i])) by auto.
    clearbody is. clear Hin. induction Hes as [|e i es is He Hes IH]; cbn [map]; constructor.
    + destruct (Hin' i) as (r & Hr & En & Hp); [now left|]. destruct (node_of_rec r) as [nd|] eqn:Ex.
      * destruct (create_entry_full a Hw i r _ nd Hr Hp Ex) as (e' & He' & Hsh). unfold get_entry_at_idx in He. rewrite He in He'. injection He' as <-.
        exists i, nd. assert (Hst : astored a i (d ++ [nm i]) nd) by (exists r; auto). split; [|split; auto]. apply (archive_has l fetch a); auto. now exists i.
      * exfalso. unfold node_of_rec in Ex. destruct (r_payload r) as [| | |v] eqn:Ep; try discriminate Ex. now apply (wf_variant _ Hw i r v Hr).
    + apply IH. intros i' Hi'. apply Hin'. now right.
  - apply sorted_map. eapply (sorted_weaken (fun i => In i is)); [| |apply iota_sorted].
    + apply Forall_forall. auto.
    + intros x y Hx Hy Hxy. destruct (Hin x Hx) as (rx & Hrx & Ex & _). destruct (Hin y Hy) as (ry & Hry & Ey & _). rewrite Ex, Ey.
      destruct (range_sorted a Hw (fst rg) (snd rg) j Hb Hk) as [_ Hso]. apply in_iota in Hx, Hy. apply (Hso x y rx ry); auto; lia.
  - intros n. split.
    + intros Hn. apply in_map_iff in Hn as (i & <- & Hi). destruct (Hin i Hi) as (r & Hr & En & Hp). eapply ReadFacts.apath_has; eauto.
    + intros [nd Hh]. apply (archive_has l fetch a) in Hh as [i (r & Hr & Hp & Hn)]; auto. apply in_map_iff. exists i.
      pose proof (proj1 (child_path a Hw d j i Hj) (ex_intro _ n Hp)) as Hc.
      assert (Hi : In i is). { apply in_iota. apply Hk in Hc. lia. }
      split; auto. destruct (Hin i Hi) as (_ & _ & _ & Hp'). pose proof (apath_det a i _ _ Hp Hp') as E. now apply app_inj_tail in E as [_ ->].
  - intros k. assert (L : length es = N.to_nat (snd rg)) by (rewrite <- (iota_length (fst rg) (N.to_nat (snd rg))); fold is; clear - Hes; induction Hes; cbn [length]; auto).
    rewrite L, <- (nexts_spec a (N.to_nat (snd rg)) (fst rg) es Hes k). cbn [fst snd]. now rewrite N2Nat.id.
Qed.
Print Assumptions C54_children.

(** Files and links cannot be iterated. *)
Theorem C54_only_directories : forall e, (exists it, py_iter_entry e = Ok it) <-> py_is_dir e = true.
Proof. intros [f|lk|r d]; cbn; split; try discriminate; eauto; intros [it H]; discriminate H. Qed.
Print Assumptions C54_only_directories.

(** Entries of one archive are equal when they have the same path. *)
Theorem C54_equality : forall l fetch a e1 e2 i j p q nd nd', small l -> archive_of l fetch a ->
  apath a i p -> apath a j q -> shows a e1 i p nd -> shows a e2 j q nd' -> py_eq e1 e2 = true <-> p = q.
Proof.
  intros l fetch a e1 e2 i j p q nd nd' Hs Ha Hp Hq H1 H2. destruct (archive_ok l fetch a Hs Ha) as (m & _ & _ & _ & Hw & _).
  assert (I : forall e k x y, shows a e k x y -> py_idx e = k).
  { intros e k x y H. unfold py_idx. destruct e as [[[c ad] sz]|[c t]|rg [c rg']]; cbn in H |- *; destruct (fst y); try easy; apply H. }
  unfold py_eq. rewrite (I _ _ _ _ H1), (I _ _ _ _ H2). rewrite N.eqb_eq. split.
  - intros <-. eapply apath_det; eauto.
  - intros <-. eapply apath_inj; eauto.
Qed.
Print Assumptions C54_equality.

(** Entries of different archives may be equal although they have nothing in common. *)
Theorem C54_equality_across_refuted : exists l1 f1 a1 e1 l2 f2 a2 e2, archive_of l1 f1 a1 /\ archive_of l2 f2 a2 /\
  py_get_entry a1 (b "a") = Ok e1 /\ py_get_entry a2 (b "l") = Ok e2 /\ py_is_dir e1 = true /\ py_is_link e2 = true /\ py_eq e1 e2 = true.
Proof.
  exists demo, demo_fetch, demo_arx. eexists. exists [d_link (b "l") (b "x")], demo_fetch. eexists. eexists.
  split; [exact demo_built|]. split; [vm_compute; reflexivity|]. split; [vm_compute; reflexivity|]. split; [vm_compute; reflexivity|]. repeat split; reflexivity.
Qed.
Print Assumptions C54_equality_across_refuted.

Example C54_meets_hypotheses : exists e it, py_get_entry demo_arx (b "./a") = Ok e /\ py_iter_entry e = Ok it /\ length (py_nexts demo_arx 4 it) = 4%nat /\
  map (fun r => match r with Ok (Some e) => py_path e | _ => Err EUtf8 end) (py_nexts demo_arx 4 it) = [Ok (b "b"); Ok (b "z"); Err EUtf8; Err EUtf8].
Proof. do 2 eexists. split; [vm_compute; reflexivity|]. split; [vm_compute; reflexivity|]. split; vm_compute; reflexivity. Qed.
