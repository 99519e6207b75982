(** C79, C80, C81: extraction at the level of system calls. *)
From Verif Require Import FineLimit DemoHost PropExtract.

Local Ltac bad := let H := fresh in intros H; discriminate H.

(** C79: what the writers do between two system calls of the walk makes no difference: a run in which
    nobody else touches the file system ends like one in which they act between two entries, with as
    many failing writes or none. *)
Theorem C79_refines : forall a rg cfg sched last f c r,
  (forall n g, ~ In (Env g) (sched n)) -> (forall g, ~ In (Env g) last) ->
  fine_extract None a rg cfg sched last f = (c, r) ->
  exists sched' last', extract_range a rg cfg sched' last' f = (fx_fs c, r) /\
    ((forall n k, ~ In (Turn k None) (sched n)) -> (forall k, ~ In (Turn k None) last) -> quiet sched' last').
Proof.
  intros a rg cfg sched last f c r Hs Hl H.
  pose (Q := fun x : nat * option nat => (exists n, In (Turn (fst x) (snd x)) (sched n)) \/ In (Turn (fst x) (snd x)) last).
  pose proof (fine_is_coarse sched Q Hs (fun n k o Hi => or_introl (ex_intro _ n Hi)) a rg cfg last f Hl (fun k o Hi => or_intror Hi)) as G.
  rewrite H in G. destruct G as (s & l & E & Q1 & Q2). exists s, l. split; [exact E|]. intros N1 N2.
  assert (NQ : forall l, Forall Q l -> no_failure l).
  { intros l0 HQ k o Hi ->. rewrite Forall_forall in HQ. destruct (HQ _ Hi) as [(n & Hn)|Hn]; cbn [fst snd] in Hn; [exact (N1 _ _ Hn)|exact (N2 _ Hn)]. }
  split; [intros k; apply NQ, Q1|apply NQ, Q2].
Qed.
Print Assumptions C79_refines.

(** C79: so extracting into an empty directory reproduces the archive, at this level too. *)
Theorem C79_reproduces : forall l fetch a rg d f cfg out sched last c res,
  setting l fetch a rg d f (x_base cfg) out -> x_files cfg = [] ->
  (forall p, p <> [] -> h_names f (out ++ p) = None) ->
  (forall p size addr mt, p <> [] -> has l (d ++ p) (KFile size addr, mt) -> exists data, fetch addr = Found data) ->
  (forall p t mt, p <> [] -> has l (d ++ p) (KLink t, mt) -> utf8 t = true /\ t <> []) ->
  (forall n g, ~ In (Env g) (sched n)) -> (forall g, ~ In (Env g) last) ->
  fine_extract None a rg cfg sched last f = (c, res) ->
  ((forall n k, ~ In (Turn k None) (sched n)) -> (forall k, ~ In (Turn k None) last) -> res <> Diverge -> res = Ok tt) /\
  (res = Ok tt -> forall p, p <> [] ->
    (h_names (fx_fs c) (out ++ p) = Some HDir <-> exists mt, has l (d ++ p) (KDir, mt)) /\
    (forall data, has_file (fx_fs c) (out ++ p) data <-> exists size addr mt, has l (d ++ p) (KFile size addr, mt) /\ fetch addr = Found data) /\
    (forall t, has_link (fx_fs c) (out ++ p) t <-> exists mt, has l (d ++ p) (KLink t, mt))) /\
  (forall q, ~ below out q ->
    unchanged f (fx_fs c) q \/ (h_names f q = None /\ h_names (fx_fs c) q = Some HDir /\ exists t, out = q ++ t)).
Proof.
  intros l fetch a rg d f cfg out sched last c res HS Hall Hempty Hpk Htg Hs Hl Hrun.
  destruct (C79_refines _ _ _ _ _ _ _ _ Hs Hl Hrun) as (s & la & E & Hq).
  destruct (C31_reproduces l fetch a rg d f cfg out s la _ res HS Hall Hempty Hpk Htg E) as (A1 & A2 & A3).
  split; [intros N1 N2; apply A1; now apply Hq|]. split; [exact A2|exact A3].
Qed.
Print Assumptions C79_reproduces.

(** Writers that act between the system calls of one callback: /t/out is made by two of them. *)
Definition busy : nat -> list fevent := fun n => [Turn 0 (Some 3); Turn 1 (Some 2); Turn (n mod 3) (Some 5000)]%nat.
Definition fine_turns : list fevent := map (fun x => Turn (fst x) (snd x)) all_turns.
Example C79_meets_hypotheses :
  exists c, fine_extract None demo_arx (a_root demo_arx) (cfg_all Skip) busy fine_turns host0 = (c, Ok tt) /\
    (forall n g, ~ In (Env g) (busy n)) /\ (forall g, ~ In (Env g) fine_turns) /\
    (forall n k, ~ In (Turn k None) (busy n)) /\ (forall k, ~ In (Turn k None) fine_turns) /\
    h_names (fx_fs c) (at_out ++ [b "a"; b "b"; b "f.txt"]) = Some (HFile 0) /\ h_data (fx_fs c) 0 = b "hello" /\ (5 < fx_calls c)%nat.
Proof.
  eexists. split; [vm_compute; reflexivity|]. repeat split.
  - intros n g [H|[H|[H|[]]]]; discriminate H.
  - intros g H. unfold fine_turns in H. apply in_map_iff in H as (x & H & _). discriminate H.
  - intros n k [H|[H|[H|[]]]]; discriminate H.
  - intros k H. unfold fine_turns, all_turns in H. cbn [map fst snd In] in H. intuition discriminate.
  - vm_compute. lia.
Qed.

(** C80: with skip, warn and error, whatever other processes do meanwhile, whenever they do it, and
    whatever the archive is: each system call of the extraction leaves every name and every file that
    exists at that moment, except that it writes to files that it made itself. *)
Theorem C80_careful : forall lim a rg cfg sched last f c r,
  x_policy cfg = Skip \/ x_policy cfg = Warn \/ x_policy cfg = Error -> numbered f ->
  (forall n, possible_events (sched n)) -> possible_events last ->
  fine_extract lim a rg cfg sched last f = (c, r) -> careful (fx_acts c).
Proof.
  intros lim a rg cfg sched last f c r Hp Hf Hs Hl H. unfold fine_extract in H.
  pose proof (fine_watched lim a rg cfg sched last f (walk_fuel a) Hp Hf Hs Hl) as W.
  destruct (run_from_range x_builder a (fine_extractor lim a cfg sched) (walk_fuel a) rg (fine_start f)) as [c1 r1]. cbn [fst] in W.
  injection H as <- _. apply W.
Qed.
Print Assumptions C80_careful.

(** Another process puts a file under a name of the archive just before the extraction comes to it. *)
Definition intrude : hostfs -> hostfs := fun f => let f := touch (set_data (bump f) (h_next f) (b "precious")) (h_next f) in
  set_name f (at_out ++ [b "l"]) (Some (HFile (h_next f - 1))).
Definition busy_env (at_call : nat) : nat -> list fevent := fun n => if (n =? at_call)%nat then [Env intrude] else [].
Lemma intrude_possible : possible_env intrude.
Proof.
  intros f Hf. split; [|cbn; lia]. intros q i. unfold intrude. cbn [h_names h_next set_name touch set_data bump]. destruct (path_eqb' q (at_out ++ [b "l"])).
  - intros E. injection E as <-. lia.
  - intros Hi. apply Hf in Hi. lia.
Qed.
Lemma host0_numbered : numbered host0.
Proof. intros q i. cbn [h_names host0 host_of]. unfold lookup_name. destruct (path_eqb' q at_t); intros H; discriminate H. Qed.
Lemma busy_env_possible k : forall n, possible_events (busy_env k n).
Proof.
  intros n g Hg. unfold busy_env in Hg. destruct (n =? k)%nat; [|destruct Hg]. destruct Hg as [E|[]]. injection E as <-. exact intrude_possible.
Qed.
Example C80_meets_hypotheses : let sched := busy_env 5 in
  exists c, fine_extract None demo_arx (a_root demo_arx) (cfg_all Warn) sched fine_turns host0 = (c, Ok tt) /\
    numbered host0 /\ (forall n, possible_events (sched n)) /\ possible_events fine_turns /\
    has_file (fx_fs c) (at_out ++ [b "l"]) (b "precious") /\ h_data (fx_fs c) 0 = b "hello" /\ length (fx_acts c) = 10%nat.
Proof.
  cbv zeta. eexists. split; [vm_compute; reflexivity|]. split; [exact host0_numbered|]. split; [apply busy_env_possible|].
  split; [intros g H; unfold fine_turns in H; apply in_map_iff in H as (x & H & _); discriminate H|]. split; [|split; vm_compute; reflexivity].
  exists 2. split; vm_compute; reflexivity.
Qed.

(** C80: not so for "newer": the time is looked at before the file is opened, so a file saved in between
    by another process, newer than the archived one, is truncated. *)
Definition saved (f : hostfs) : hostfs :=
  mkHost (fun q => if path_eqb' q (at_out ++ [b "a"; b "z"]) then Some (HFile (h_next f)) else h_names f q)
    (fun i => if i =? h_next f then b "precious" else h_data f i)
    (fun i => if i =? h_next f then 2000000000000000%Z else h_mtime f i) (h_next f + 1) (h_dirtime f) (h_now f).
Definition save_at (k : nat) : nat -> list fevent := fun n => if (n =? k)%nat then [Env saved] else [].
Lemma saved_possible : possible_env saved.
Proof.
  intros f Hf. split; [|cbn; lia]. intros q i. unfold saved. cbn [h_names h_next]. destruct (path_eqb' q (at_out ++ [b "a"; b "z"])).
  - intros E. injection E as <-. lia.
  - intros Hi. apply Hf in Hi. lia.
Qed.
Lemma demo_has_z : has demo [b "a"; b "z"] (KFile 3 (mkAddr 1 1), d_meta).
Proof.
  exists 4%nat, (mkSentry (b "z") (Some 0%nat) (KFile 3 (mkAddr 1 1)) d_meta). split; [reflexivity|]. split; [|reflexivity].
  change [b "a"; b "z"] with ([b "a"] ++ [b "z"]).
  eapply (spath_sub _ _ (mkSentry (b "z") (Some 0%nat) (KFile 3 (mkAddr 1 1)) d_meta) 0%nat); [reflexivity|reflexivity|].
  eapply (spath_top _ _ (mkSentry (b "a") None KDir default_dir_meta)); reflexivity.
Qed.
Lemma fine_turns_possible : possible_events fine_turns.
Proof. intros g H. unfold fine_turns in H. apply in_map_iff in H as (x & H & _). discriminate H. Qed.
Lemma pair_snd {A B} (x : A * B) v : snd x = v -> x = (fst x, v).
Proof. destruct x as [u w]. cbn [fst snd]. now intros ->. Qed.
Theorem C80_newer_refuted : exists a l fetch rg f cfg out sched last c,
  setting l fetch a rg [] f (x_base cfg) out /\ x_policy cfg = Newer /\
  (forall n, possible_events (sched n)) /\ possible_events last /\
  fine_extract None a rg cfg sched last f = (c, Ok tt) /\
  exists p g g' i k mt, has l p (k, mt) /\ In (Opened g g' i) (fx_acts c) /\ h_names g (out ++ p) = Some (HFile i) /\
    ~ not_older (m_mtime mt) (h_mtime g i) /\ h_data g i = b "precious" /\ h_data g' i = [].
Proof.
  pose (x := fine_extract None demo_arx (a_root demo_arx) (cfg_all Newer) (save_at 8) fine_turns host1).
  exists demo_arx, demo, demo_fetch, (a_root demo_arx), host1, (cfg_all Newer), at_out, (save_at 8), fine_turns, (fst x).
  split; [apply demo_setting1|]. split; [reflexivity|]. split.
  { intros n g Hg. unfold save_at in Hg. destruct (n =? 8)%nat; [|destruct Hg]. destruct Hg as [E|[]]. injection E as <-. exact saved_possible. }
  split; [exact fine_turns_possible|]. split.
  { apply pair_snd. vm_compute. reflexivity. }
  assert (H : match nth_error (fx_acts (fst x)) 8 with
      | Some (Opened g g' i) => h_names g (at_out ++ [b "a"; b "z"]) = Some (HFile i) /\ (2000000000000000 =? h_mtime g i)%Z = true /\ h_data g i = b "precious" /\ h_data g' i = []
      | _ => False end) by (vm_compute; auto).
  destruct (nth_error (fx_acts (fst x)) 8) as [[g g'|g g' i|g g' i]|] eqn:E; [destruct H| |destruct H|destruct H]. destruct H as (H1 & H2 & H3 & H4).
  exists [b "a"; b "z"], g, g', i, (KFile 3 (mkAddr 1 1)), d_meta. split; [exact demo_has_z|]. split; [exact (nth_error_In _ _ E)|].
  split; [exact H1|]. split; [|now split]. apply Z.eqb_eq in H2. rewrite <- H2. intros Hn. apply Hn. reflexivity.
Qed.
Print Assumptions C80_newer_refuted.

(** C81: a file stays open until its writer is done, and the writers are only started by the walk; when none of them
    runs before its end (as when there is one thread), a process that may have [n] files open extracts no
    archive with more than [n] files. *)
Theorem C81_open_files : forall n l fetch a rg d f cfg out sched last c files,
  setting l fetch a rg d f (x_base cfg) out -> plain_list (x_files cfg) ->
  (forall p, p <> [] -> h_names f (out ++ p) = None) ->
  (forall k, sched k = []) -> (forall g, ~ In (Env g) last) ->
  fine_extract (Some n) a rg cfg sched last f = (c, Ok tt) ->
  NoDup files ->
  (forall p, In p files -> p <> [] /\ selected (x_files cfg) (x_recurse cfg) p false /\
     exists size addr mt data, has l (d ++ p) (KFile size addr, mt) /\ fetch addr = Found data) ->
  (length files <= n)%nat.
Proof.
  intros n l fetch a rg d f cfg out sched last c files HS Hpl Hempty Hidle Hlast Hrun Hnd Hfiles.
  assert (Ha : forall k g, ~ In (Env g) (sched k)) by (intros k g; rewrite Hidle; intros []).
  pose proof (fine_ok _ _ _ _ _ _ _ _ Hrun) as Hrun'.
  destruct (C79_refines _ _ _ _ _ _ _ _ Ha Hlast Hrun') as (s & la & E & _).
  assert (Hex : forall p, In p files -> exists i, h_names (fx_fs c) (out ++ p) = Some (HFile i)).
  { intros p Hp. destruct (Hfiles p Hp) as (Hp0 & Hsel & size & addr & mt & data & Hh & Hf).
    pose proof (C30_selected_extracted l fetch a rg d f cfg out s la _ p _ HS Hpl E Hp0 Hh Hsel) as P. unfold placed in P. cbn [fst snd] in P.
    pose proof (se_built _ _ _ _ _ _ _ _ HS) as Hb.
    destruct (archive_ok l fetch a (se_small _ _ _ _ _ _ _ _ HS) Hb) as (_ & _ & _ & Hfe & _). rewrite Hfe, Hf in P.
    unfold by_policy, time_of in P. rewrite (Hempty p Hp0) in P. destruct P as (i & P & _). exists i. exact P. }
  unfold fine_extract in Hrun.
  pose proof (run_from_range_preserves x_builder a _ _ (extractor_held n f sched a cfg Hidle) (walk_fuel a) rg (fine_start f)) as Hheld.
  assert (H0 : held n f (fine_start f)).
  { pose proof (se_tidy _ _ _ _ _ _ _ _ HS) as T. split; [exact (td_next _ T)|]. split; [exact (td_links _ T)|]. cbn [fx_tasks fine_start length fx_fs]. split; [lia|]. split; [constructor|]. now left. }
  specialize (Hheld H0). destruct (run_from_range x_builder a (fine_extractor (Some n) a cfg sched) (walk_fuel a) rg (fine_start f)) as [c1 r1]. cbn [fst] in Hheld.
  injection Hrun as Hc _. destruct Hheld as (_ & Hl & Hlen & _ & Hin).
  assert (Hnames : forall q, h_names (fx_fs c) q = h_names (fx_fs c1) q).
  { subst c. clear - Hlast. revert c1. induction last as [|e last IH]; intros c1 q; [reflexivity|]. cbn [fold_left]. rewrite IH; [|intros g Hg; apply (Hlast g); now right].
    destruct e as [k o|g]; [|destruct (Hlast g); now left]. cbn [happen]. destruct (nth_error (fx_tasks c1) k) as [t|]; [|reflexivity].
    destruct (write_turn_fs (fx_fs c1) t o) as (W & _). destruct (write_turn (fx_fs c1) t o) as [[f' t'] bad]. cbn [fst snd fx_fs] in *. apply W. }
  assert (Hmap : exists is, length is = length files /\ NoDup is /\ (forall i, In i is -> exists p, In p files /\ h_names (fx_fs c1) (out ++ p) = Some (HFile i))).
  { clear Hfiles. induction files as [|p files IH]; [exists []; split; [reflexivity|split; [constructor|intros i []]]|].
    apply NoDup_cons_iff in Hnd as [Hni Hnd]. destruct IH as (is & L & N & I); [exact Hnd|intros q Hq; apply Hex; now right|].
    destruct (Hex p (or_introl eq_refl)) as [i Hi]. rewrite Hnames in Hi. exists (i :: is). split; [cbn [length]; now rewrite L|]. split.
    - constructor; [|exact N]. intros Hii. destruct (I i Hii) as (q & Hq & Hiq). pose proof (Hl _ _ _ Hi Hiq) as Epq. apply app_inv_head in Epq. subst q. easy.
    - intros j [<-|Hj]; [exists p; split; [now left|exact Hi]|]. destruct (I j Hj) as (q & Hq & Hjq). exists q. split; [now right|exact Hjq]. }
  destruct Hmap as (is & L & N & I). rewrite <- L. transitivity (length (map t_ino (fx_tasks c1))); [|now rewrite map_length].
  apply NoDup_incl_length; [exact N|]. intros i Hi. destruct (I i Hi) as (p & Hp & Hip). destruct (Hin _ _ Hip) as [Hf|Hf]; [|exact Hf].
  exfalso. destruct p as [|x p].
  - destruct (Hex [] Hp) as [j Hj]. destruct (Hfiles [] Hp) as (Hne & _). now apply Hne.
  - rewrite Hempty in Hf; [discriminate Hf|discriminate].
Qed.
Print Assumptions C81_open_files.

(** C81: a limit that is never reached changes nothing. *)
Theorem C81_enough : forall n a rg cfg sched last f c r,
  fine_extract None a rg cfg sched last f = (c, r) ->
  (length (filter (fun x => match x with Opened _ _ _ => true | _ => false end) (fx_acts c)) < n)%nat ->
  fine_extract (Some n) a rg cfg sched last f = (c, r).
Proof. intros n a rg cfg sched last f c r H Hn. exact (fine_enough n a rg cfg sched last f c r H Hn). Qed.
Print Assumptions C81_enough.

(** The archive of the demo has two files: with room for one it is extracted or not, depending on when the writer of the first runs. *)
Example C81_meets_hypotheses :
  let last := fine_turns in
  snd (fine_extract (Some 1%nat) demo_arx (a_root demo_arx) (cfg_all Skip) (fun _ => []) last host0) = Err (EIo IoOther) /\
  snd (fine_extract (Some 1%nat) demo_arx (a_root demo_arx) (cfg_all Skip) (fun _ => [Turn 0 (Some 5000%nat); Turn 1 (Some 5000%nat)]) last host0) = Ok tt /\
  snd (fine_extract (Some 2%nat) demo_arx (a_root demo_arx) (cfg_all Skip) (fun _ => []) last host0) = Ok tt /\
  snd (fine_extract (Some 3%nat) demo_arx (a_root demo_arx) (cfg_all Skip) (fun _ => []) last host0) = Ok tt.
Proof. vm_compute. auto. Qed.
