(** C58-C59: entries, contents and round trips from Python. *)
From Verif Require Export PropPython.

(** C58: looking a path up.  [s] is a relative path string, "." components do not count. *)
Theorem C58_get_entry : forall l fetch a s p, small l -> archive_of l fetch a ->
  stands_for s p -> p <> [] -> Forall (fun n => utf8 n = true) p ->
  (forall nd, has l p nd -> exists i e, py_get_entry a s = Ok e /\ astored a i p nd /\ get_entry_at_idx full_builder a i = Ok e) /\
  ((forall nd, ~ has l p nd) -> raises (py_get_entry a s)).
Proof.
  intros l fetch a s p Hs Ha [Hrel Hp] Hne Hu.
  assert (Hs0 : s <> []) by (intros ->; cbn in Hp; congruence).
  destruct (from_path_ok s Hs0 Hrel) as [E1 E2]; [rewrite Hp; now apply forallb_forall, Forall_forall|].
  rewrite Hp in *. unfold py_get_entry. rewrite E1. cbn [bind].
  assert (Hne' : pieces (join p) <> []) by congruence.
  destruct (lookup_spec l fetch a (join p) Hs Ha Hne') as [F1 F2]. rewrite E2 in F1, F2. split.
  - intros nd H. destruct (F1 nd H) as (i & e & G1 & G2). rewrite G1.
    destruct (archive_ok l fetch a Hs Ha) as (m & _ & _ & _ & Hw & _).
    pose proof (proj1 (archive_has l fetch a p nd Hs Ha) H) as (j & r & Hr & Hpj & Hn). exists j, e. split; auto. split; [exists r; auto|].
    pose proof (get_entry_spec a Hw full_builder (join p) (full_total a Hw) Hne') as H'. rewrite G1 in H'. destruct H' as (k & Hk & He).
    rewrite E2 in Hk. now rewrite (apath_inj a Hw _ _ _ Hk Hpj) in He.
  - intros H. rewrite (F2 H). eexists. reflexivity.
Qed.
Print Assumptions C58_get_entry.

(** Absolute paths, and paths that are not text, raise. *)
Theorem C58_bad_path : forall a s, is_abs s = true \/ (is_abs s = false /\ exists n, In n (pieces s) /\ n <> b "." /\ utf8 n = false) -> raises (py_get_entry a s).
Proof.
  intros a s H. unfold py_get_entry, from_path. destruct s as [|c s]; [destruct H as [H|(_ & n & [] & _)]; discriminate H|]. cbn [is_abs] in H.
  destruct (is_sep c); [eexists; reflexivity|]. destruct H as [H|(_ & n & Hn & Hd & Hu)]; [discriminate H|].
  destruct (forallb utf8 (filter (fun p => negb (bytes_eqb p (b "."))) (pieces (c :: s)))) eqn:E; [|eexists; reflexivity].
  exfalso. rewrite forallb_forall in E. rewrite (E n) in Hu; [discriminate Hu|]. apply filter_In. split; auto. now destruct (bytes_eqb_spec n (b ".")).
Qed.
Print Assumptions C58_bad_path.

(** The paths that stand for the root are not answered with an exception of their own but with a panic. *)
Theorem C58_root_refuted : forall a s, stands_for s [] -> py_get_entry a s = Panic.
Proof.
  intros a s [Hrel Hp]. destruct s as [|c s]; [reflexivity|].
  destruct (from_path_ok (c :: s)) as [E1 _]; auto; [easy|now rewrite Hp|]. unfold py_get_entry. rewrite E1, Hp. reflexivity.
Qed.
Print Assumptions C58_root_refuted.
Example C58_root_meets : stands_for (b "./.") [] /\ stands_for (b "") [].
Proof. repeat split. Qed.

(** What the attributes of an entry are. *)
Theorem C58_attributes : forall l fetch a i p nd e, small l -> archive_of l fetch a ->
  astored a i p nd -> get_entry_at_idx full_builder a i = Ok e ->
  py_idx e = i /\
  (exists d n, p = d ++ [n] /\ (utf8 n = true -> py_path e = Ok n) /\
     match d with
     | [] => py_parent a e = Ok None
     | _ => exists j e' nd', py_parent a e = Ok (Some e') /\ astored a j d nd' /\ get_entry_at_idx full_builder a j = Ok e'
     end) /\
  py_owner e = m_uid (snd nd) mod 2^32 /\ py_group e = m_gid (snd nd) mod 2^32 /\
  py_rights e = m_mode (snd nd) mod 2^8 /\ py_mtime e = m_mtime (snd nd) /\
  match fst nd with
  | KFile _ addr =>
      py_is_file e = true /\ py_is_link e = false /\ py_is_dir e = false /\
      py_content_address e = Ok addr /\
      raises (py_get_target e) /\ raises (py_first_child e) /\ raises (py_nb_children e) /\ raises (py_iter_entry e)
  | KLink t =>
      py_is_file e = false /\ py_is_link e = true /\ py_is_dir e = false /\
      py_get_target e = Ok t /\
      raises (py_content_address e) /\ raises (py_get_content a e) /\
      raises (py_first_child e) /\ raises (py_nb_children e) /\ raises (py_iter_entry e)
  | KDir =>
      py_is_file e = false /\ py_is_link e = false /\ py_is_dir e = true /\
      (exists f k, py_first_child e = Ok f /\ py_nb_children e = Ok k /\
         forall j, f <= j < f + k <-> exists n, apath a j (p ++ [n])) /\
      raises (py_content_address e) /\ raises (py_get_content a e) /\ raises (py_get_target e)
  end.
Proof.
  intros l fetch a i p nd e Hs Ha (r & Hr & Hp & Hn) He. destruct (archive_ok l fetch a Hs Ha) as (m & _ & _ & _ & Hw & _).
  destruct (create_entry_full a Hw i r p nd Hr Hp Hn) as (e0 & He0 & Hsh). unfold get_entry_at_idx in He. rewrite He in He0. injection He0 as <-.
  assert (Hc : shows_common a (e_common e) i p (snd nd)).
  { destruct e as [[[c ad] sz]|[c t]|rg [c rg']]; cbn in Hsh |- *; destruct (fst nd); tauto. }
  destruct Hc as (C1 & (d & n & Ep & Ec & Hpar) & C3 & C4 & C5 & C6). unfold py_idx, py_owner, py_group, py_rights, py_mtime.
  split; auto. split; [|split; auto; split; auto; split; auto; split; auto].
  - exists d, n. split; auto. split; [intros Hu; unfold py_path; rewrite Ec, Hu; reflexivity|].
    unfold py_parent. destruct (c_parent (e_common e)) as [j|].
    + destruct (has_node a j d Hw Hpar) as (nd' & Hst). destruct d as [|x d']; [now apply apath_nonempty in Hpar|].
      destruct Hst as (r' & Hr' & _ & Hn'). destruct (create_entry_full a Hw j r' _ nd' Hr' Hpar Hn') as (e' & He' & _).
      exists j, e', nd'. unfold get_entry_at_idx. rewrite He'. split; [reflexivity|]. split; auto. exists r'. auto.
    + subst d. reflexivity.
  - destruct nd as [k mt]; destruct k; destruct e as [[[c ad] sz']|[c t']|rg [c rg']]; cbn in Hsh; try easy;
      cbn [fst py_is_file py_is_link py_is_dir py_content_address py_get_content py_get_target py_first_child py_nb_children py_iter_entry].
    + destruct Hsh as (_ & _ & Hk). repeat (split; [reflexivity|]). split; [exists (fst rg), (snd rg); auto|]. repeat split; eexists; reflexivity.
    + destruct Hsh as (_ & -> & _). repeat split; eexists; reflexivity.
    + destruct Hsh as (_ & ->). repeat split; eexists; reflexivity.
Qed.
Print Assumptions C58_attributes.

(** The content of a file, read by pieces of any sizes, is what the archive holds for it; a pack that is
    not there raises. *)
Theorem C58_content : forall l fetch a i p size addr mt e, small l -> archive_of l fetch a ->
  astored a i p (KFile size addr, mt) -> get_entry_at_idx full_builder a i = Ok e ->
  match fetch addr with
  | Found data => exists s, py_get_content a e = Ok s /\ stream_tell s = 0 /\
      forall ns, N.of_nat (length data) <= fold_right N.add 0 ns -> concat (snd (reads s ns)) = data
  | MissingPack => raises (py_get_content a e)
  | _ => py_get_content a e = Panic
  end.
Proof.
  intros l fetch a i p size addr mt e Hs Ha (r & Hr & Hp & Hn) He. destruct (archive_ok l fetch a Hs Ha) as (m & _ & _ & Ef & Hw & _).
  destruct (create_entry_full a Hw i r p _ Hr Hp Hn) as (e0 & He0 & Hsh). unfold get_entry_at_idx in He. rewrite He in He0. injection He0 as <-.
  destruct e as [[[c ad] sz']|[c t']|rg [c rg']]; cbn in Hsh; try easy. destruct Hsh as (_ & -> & _).
  unfold py_get_content, py_content. rewrite Ef. destruct (fetch addr) as [data| | |]; try reflexivity; [|eexists; reflexivity].
  eexists. split; [reflexivity|]. split; [reflexivity|]. intros ns H. destruct (reads (mkStream data 0) ns) as [s' l'] eqn:E.
  destruct (C53_reads data ns s' l' E) as [E' _]. cbn [snd]. rewrite E'. apply firstn_all2. lia.
Qed.
Print Assumptions C58_content.

Example C58_meets_hypotheses : exists e, stands_for (b "./a/b/./f.txt") [b "a"; b "b"; b "f.txt"] /\
  has demo [b "a"; b "b"; b "f.txt"] (KFile 5 (mkAddr 1 0), d_meta) /\ py_get_entry demo_arx (b "./a/b/./f.txt") = Ok e /\
  py_path e = Ok (b "f.txt") /\ exists s, py_get_content demo_arx e = Ok s /\ snd (reads s [2; 10]) = [b "he"; b "llo"].
Proof.
  eexists. split; [vm_compute; auto|]. split; [exact demo_has|]. split; [vm_compute; reflexivity|]. split; [vm_compute; reflexivity|].
  eexists. split; vm_compute; reflexivity.
Qed.

(** C59: a tree added from Python inside a block and extracted from Python is reproduced. *)
Theorem C59_roundtrip : forall w s root r0 depth fuel st st' ws os a w2 dir out sched last g res,
  stands_for s r0 -> forallb utf8 (pieces s) = true -> Forall ordinary r0 ->
  look_str w true s = At root HDir -> source_tree w root depth -> (depth < fuel)%nat ->
  (* with Creator(..) as c: c.add(s) *)
  py_new true = Ok st -> py_run fuel st [PyEnter; PyAdd w s true; PyExit false] = (st', ws, os) -> ws = [a] ->
  N.of_nat (length (a_recs a)) < 2^32 ->
  (* extracted in a directory with nothing in it *)
  tidy (w_fs w2) -> outdir (w_fs w2) ((if is_abs dir then [] else w_cwd w2), pieces dir) out ->
  (forall p, p <> [] -> h_names (w_fs w2) (out ++ p) = None) ->
  py_extract w2 a dir sched last = (g, res) -> quiet sched last -> res <> Diverge ->
  os = [Ok tt; Ok tt; Ok tt] /\ res = Ok tt /\
  (forall q, q <> [] -> same_at (w_fs w) (root ++ q) g (out ++ r0 ++ q)) /\
  (forall p t, r0 = p ++ t -> p <> [] -> h_names g (out ++ p) = Some HDir) /\
  (forall p, p <> [] -> h_names g (out ++ p) <> None ->
     (exists t, r0 = p ++ t) \/ exists q, p = r0 ++ q /\ h_names (w_fs w) (root ++ q) <> None) /\
  (forall q, ~ below out q ->
     unchanged (w_fs w2) g q \/ (h_names (w_fs w2) q = None /\ h_names g q = Some HDir /\ exists t, out = q ++ t)).
Proof.
  intros w s root r0 depth fuel st st' ws os a w2 dir out sched last g res Hst Hutf Hr0 Hroot HT Hfuel Hnew Hrun Hws Hsm Htidy Hout Hempty Hx Hq Hd.
  apply new_fresh in Hnew. subst st ws. cbn [py_run py_step py_enter st_fresh py_creator py_started] in Hrun. unfold py_add in Hrun. cbn [py_creator py_started] in Hrun.
  destruct (add_from_path fuel w [] s true creator_empty) as [c r] eqn:E. cbn [py_run py_step py_exit py_creator py_started] in Hrun.
  destruct (finalize c) as [a'|] eqn:Ef; [|discriminate Hrun]. injection Hrun as <- <- <-.
  destruct (created w s [] root r0 depth fuel (proj1 Hst) (proj2 Hst) Hutf Hr0 Hroot HT Hfuel) as (c' & es & E' & El & _).
  rewrite E in E'. injection E' as <- ->.
  assert (Hsm' : N.of_nat (length (cs_store (cr_entries c))) < 2 ^ 32).
  { unfold finalize in Ef. rewrite El in *. rewrite <- (written_length (after es) (fetch_of (cr_contents c)) a'); auto. apply run_adds_inv. }
  split; [reflexivity|].
  exact (proj2 (C38_roundtrip w [] s root r0 depth fuel c (Ok tt) a' (w_fs w2) (mkConfig [] ((if is_abs dir then [] else w_cwd w2), pieces dir) true Warn) out sched last g res
    Hst Hutf Hr0 Hroot HT Hfuel E Hsm' Ef Htidy Hout Hempty eq_refl Hx Hq Hd)).
Qed.
Print Assumptions C59_roundtrip.

Example C59_meets_hypotheses : exists a g os, stands_for (b "src") [b "src"] /\ source_tree src_world src_root 2 /\
  look_str src_world true (b "src") = At src_root HDir /\
  py_run 3 st_fresh [PyEnter; PyAdd src_world (b "src") true; PyExit false] = (st_done, [a], os) /\
  py_extract t_world a (b "out") idle all_turns = (g, Ok tt) /\ has_file g (at_out ++ [b "src"; b "a"; b "f.txt"]) (b "hello").
Proof.
  do 3 eexists. split; [vm_compute; auto|]. split; [exact src_tree|]. split; [vm_compute; reflexivity|]. split; [vm_compute; reflexivity|].
  split; [vm_compute; reflexivity|]. eexists. split; vm_compute; reflexivity.
Qed.
