(** C64: what [arx create] archives, seen through every way of reading it. *)
From Verif Require Export CreatedFacts PropList PropPython2 PropMount.

(** [arx create INFILES] called in a way that can work: at least the options of input files, an output
    path whose directory exists and that is free or may be overwritten, and good inputs (seen from
    the directory of [-C]) that do not overlap in the archive. *)
Record proper (w : world) (o : create_opts) (w' : world) (inputs : list input) : Prop := {
  pr_compressions : o_list_compressions o = false;
  pr_no_list : o_file_list o = None;
  pr_infiles : o_infiles o = map in_arg inputs;
  pr_recurse : o_recurse o = true;
  pr_concat : exists g, parse_concat g = Some (o_concat o);
  pr_out : exists d x, from_root w (o_out o) = d ++ [x] /\ is_directory w d /\ (leads_to_something w (o_out o) -> o_force o = true);
  pr_base : entered w (o_base o) w';
  pr_inputs : Forall (good_input w' (match o_prefix o with Some p => p | None => [] end)) inputs;
  pr_apart : apart inputs }.

Lemma infiles_ok w pre inputs : Forall (good_input w pre) inputs ->
  existsb is_abs (map in_arg inputs) = false /\ check_input_paths_exist w (map in_arg inputs) = Ok tt.
Proof.
  intros H. unfold check_input_paths_exist. induction H as [|x l ((Hr & _) & _ & _ & Hl & _) _ [IH1 IH2]]; [split; reflexivity|].
  cbn [map existsb forallb]. rewrite Hr, IH1. split; [reflexivity|]. unfold exists_path at 1. rewrite Hl. cbn [andb]. exact IH2.
Qed.

(** The creation succeeds, and what it writes is exactly the inputs. *)
Theorem C64_create : forall fuel w o w' inputs, proper w o w' inputs -> Forall (fun x => (in_depth x < fuel)%nat) inputs ->
  exists m a, create fuel w true o = ([Opened m; Written a], Ok tt) /\
    (N.of_nat (length (a_recs a)) < 2^32 -> exists l contents, small l /\ archive_of l (fetch_of contents) a /\ archives w' inputs l contents).
Proof.
  intros fuel w o w' inputs [Hc Hnl Hin Hrc [flags Hcm] (d & x & Hout & Hdir & Hforce) Hbase Hg Hap] Hfuel.
  assert (Hchk : check_output_path_writable w (o_out o) (o_force o) = Ok tt).
  { unfold check_output_path_writable. change (out_comps w (o_out o)) with (from_root w (o_out o)).
    apply is_dir_path_spec in Hdir. destruct (from_root w (o_out o)) as [|c0 r1]; [now destruct d|].
    rewrite Hout, removelast_last, Hdir. cbn [negb].
    destruct (exists_path w (o_out o)) eqn:Ee; [|reflexivity]. apply exists_spec in Ee. now rewrite (Hforce Ee). }
  assert (Hm : exists m, create_concat (o_concat o) = Ok m).
  { pose proof (C46_concat flags) as H. destruct flags as [|f0 [|]]; [| |congruence]; destruct H as (f & H1 & H2); rewrite Hcm in H1; injection H1 as ->; eauto. }
  destruct Hm as [m Hm].
  assert (Hb : match o_base o with Some d => chdir w d | None => Ok w end = Ok w').
  { unfold entered in Hbase. destruct (o_base o) as [dd|]; [|now subst]. destruct Hbase as [H1 H2]. unfold chdir. rewrite H1. now rewrite <- H2. }
  destruct (infiles_ok _ _ _ Hg) as [Habs Hex].
  destruct (inputs_added w' (match o_prefix o with Some p => p | None => [] end) fuel inputs [] [] [] Hg Hfuel all_ok_nil) as (c & l & E & Ec & Hok & Har); auto.
  { split; [intros y q n []|]. intros p nd H. now apply has_nil in H. }
  assert (Hfill : fill fuel w w' o = (c, Ok tt)).
  { unfold fill. rewrite Hnl, Hin, Habs, Hex, Hrc. exact E. }
  assert (Hfin : exists a, finalize c = Some a).
  { unfold finalize, write_archive. rewrite Ec. destruct (layout_ok (after l) (run_adds_inv l)) as (ord & -> & _). eauto. }
  destruct Hfin as [a Hfin]. exists m, a. split.
  { unfold create. now rewrite Hc, Hchk, Hb, Hm, Hfill, Hfin. }
  intros Hn. exists l, (cr_contents c). unfold finalize in Hfin. rewrite Ec in Hfin. split; [eapply archive_small; eauto|]. auto.
Qed.
Print Assumptions C64_create.

(** ** The front ends *)
(** [a] is the archive written by a proper creation. *)
Definition created_archive (w : world) (o : create_opts) (w' : world) (inputs : list input) (a : archive) : Prop :=
  proper w o w' inputs /\ N.of_nat (length (a_recs a)) < 2^32 /\
  exists fuel evs, Forall (fun x => (in_depth x < fuel)%nat) inputs /\ create fuel w true o = (evs, Ok tt) /\ In (Written a) evs.

(** The inputs have [n] at the archive path [p], found at the physical path [q]. *)
Definition source_at (w : world) (inputs : list input) (p : path) (q : path) (n : hnode) : Prop :=
  exists x t, In x inputs /\ p = in_path x ++ t /\ q = in_root x ++ t /\ at_input w x t n.
(** [p] is a directory made for an input below it. *)
Definition made_above (inputs : list input) (p : path) : Prop :=
  p <> [] /\ exists x y t, In x inputs /\ in_path x = p ++ y :: t.

Lemma created_session w o w' inputs a : created_archive w o w' inputs a ->
  exists l contents, small l /\ archive_of l (fetch_of contents) a /\ archives w' inputs l contents.
Proof.
  intros (Hp & Hn & fuel & evs & Hf & E & Hin). destruct (C64_create fuel w o w' inputs Hp Hf) as (m & a' & E' & H).
  rewrite E in E'. injection E' as ->. destruct Hin as [Hin|[Hin|[]]]; [discriminate Hin|]. injection Hin as ->. auto.
Qed.

Lemma prefix_utf8 w pre x : good_input w pre x -> forall n, In n (in_path x) -> utf8 n = true.
Proof.
  intros ((_ & Hst) & Hu & _) n Hn. rewrite forallb_forall in Hu. apply Hu.
  assert (H : In n (filter not_dot (pieces (in_arg x)))) by (rewrite Hst, in_app_iff; auto). now apply filter_In in H.
Qed.

Lemma source_names w pre inputs p q n m : Forall (good_input w pre) inputs -> source_at w inputs p q n -> In m p -> ordinary m /\ utf8 m = true.
Proof.
  intros Hg (x & t & Hx & -> & -> & Ht) Hm. rewrite Forall_forall in Hg. specialize (Hg x Hx). apply in_app_iff in Hm as [Hm|Hm].
  - split; [|eapply prefix_utf8; eauto]. destruct Hg as (_ & _ & Ho & _). rewrite Forall_forall in Ho. auto.
  - destruct Hg as (_ & _ & _ & _ & Hn). destruct t as [|y t]; [easy|]. destruct Ht as [Ed Ht]. rewrite Ed in Hn.
    apply (sr_names _ _ _ Hn (y :: t) m); [|exact Hm]. now rewrite Ht.
Qed.

Lemma made_names w pre inputs p m : Forall (good_input w pre) inputs -> made_above inputs p -> In m p -> ordinary m /\ utf8 m = true.
Proof.
  intros Hg (_ & x & y & t & Hx & E) Hm. rewrite Forall_forall in Hg. specialize (Hg x Hx).
  assert (Hi : In m (in_path x)) by (rewrite E, in_app_iff; auto). split; [|eapply prefix_utf8; eauto].
  destruct Hg as (_ & _ & Ho & _). rewrite Forall_forall in Ho. auto.
Qed.

Section Session.
  Variables (w : world) (pre : bytes) (inputs : list input) (l : list entry) (contents : list bytes).
  Hypothesis Hg : Forall (good_input w pre) inputs.
  Hypothesis Har : archives w inputs l contents.

  Lemma source_stored p q n : source_at w inputs p q n -> p <> [] -> exists nd, has l p nd /\ mirrors_as w q n contents nd.
  Proof. intros (x & t & Hx & -> & -> & Ht) Hne. exact (proj1 Har x t n Hx Ht Hne). Qed.
  Lemma stored_source p nd : has l p nd -> (exists q n, source_at w inputs p q n /\ mirrors_as w q n contents nd) \/
    (nd = (KDir, mkMeta 1000 1000 493 0) /\ made_above inputs p).
  Proof.
    intros H. destruct (proj2 Har p nd H) as [(x & t & n & Hx & -> & Ht & Hm)|(-> & Hp & x & y & t & Hx & E)].
    - left. exists (in_root x ++ t), n. split; auto. exists x, t. auto.
    - right. split; auto. split; auto. eauto.
  Qed.
  Lemma made_stored p : made_above inputs p -> exists mt, has l p (KDir, mt).
  Proof.
    intros (Hp & x & y & t & Hx & E).
    assert (Hn : in_path x ++ [] <> []) by (rewrite app_nil_r, E; now destruct p).
    destruct (proj1 Har x [] (in_node x) Hx eq_refl Hn) as (nd & Hh & _). rewrite app_nil_r, E in Hh.
    exact (has_ancestor l p y t nd Hh Hp).
  Qed.
  Lemma stored_good p nd m : has l p nd -> In m p -> ordinary m /\ utf8 m = true.
  Proof.
    intros H Hm. destruct (stored_source p nd H) as [(q & n & Hs & _)|[_ Hs]]; [eapply source_names; eauto|eapply made_names; eauto].
  Qed.
  Lemma spelled_path p nd : has l p nd -> pieces (join p) = p.
  Proof.
    intros H. apply pieces_join. apply Forall_forall. intros m Hm. destruct (stored_good p nd m H Hm) as [(H1 & H2 & _) _]. auto.
  Qed.
End Session.

(** arx dump gives the bytes of the source file, and refuses any path that is not a source file. *)
Theorem C64_dump : forall w o w' inputs a w2 s output, created_archive w o w' inputs a -> pieces s <> [] ->
  output = None \/ output = Some (b "-") ->
  (forall q i, source_at w' inputs (pieces s) q (HFile i) -> dump w2 a s output = (h_data (w_fs w') i, Ok tt)) /\
  ((forall q i, ~ source_at w' inputs (pieces s) q (HFile i)) -> exists e, dump w2 a s output = ([], Err e)).
Proof.
  intros w o w' inputs a w2 s output Hc Hne Hout. destruct (created_session _ _ _ _ _ Hc) as (l & contents & Hs & Ha & Har).
  destruct Hc as (Hp & _). split.
  - intros q i Hsrc. destruct (source_stored _ _ _ _ Har _ _ _ Hsrc Hne) as ([k mt] & Hh & _ & _ & _ & _ & addr & Ek & Hf). cbn [fst] in Ek. subst k.
    eapply C44_dump_file; eauto.
  - intros Hno. destruct (C44_dump_refused w2 l _ a s output Hs Ha Hne) as (e & E & _); [|eauto].
    intros n addr m Hh. destruct (stored_source _ _ _ _ Har _ _ Hh) as [(q & nn & Hsrc & _ & _ & _ & _ & Hm)|[E _]]; [|discriminate E].
    destruct nn as [|i|t mm]; [discriminate Hm|now apply Hno in Hsrc|discriminate Hm].
Qed.
Print Assumptions C64_dump.

(** arx list prints exactly the paths of the inputs and of the directories above them, once each, in
    the order of the walk. *)
Theorem C64_list : forall w o w' inputs a, created_archive w o w' inputs a -> exists ps,
  list_cmd a None = (text (map join ps), Ok tt) /\ StronglySorted path_lt ps /\
  forall p, In p ps <-> p <> [] /\ ((exists q n, source_at w' inputs p q n) \/ made_above inputs p).
Proof.
  intros w o w' inputs a Hc. destruct (created_session _ _ _ _ _ Hc) as (l & contents & Hs & Ha & Har). destruct Hc as (Hp & _).
  destruct (C42_plain_listing l _ a Hs Ha) as (ps & H1 & H2 & H3). exists (map fst ps). rewrite map_map. split; [exact H3|]. split; [exact H1|].
  intros p. split.
  - intros H. apply in_map_iff in H as ([p' nd] & <- & H). apply H2 in H. cbn [fst]. split; [eapply has_nonempty; eauto|].
    destruct (stored_source _ _ _ _ Har _ _ H) as [(q & n & Hsrc & _)|[_ Hm]]; eauto.
  - intros [Hne [(q & n & Hsrc)|Hm]].
    + destruct (source_stored _ _ _ _ Har _ _ _ Hsrc Hne) as (nd & Hh & _). apply in_map_iff. exists (p, nd). split; auto. now apply H2.
    + destruct (made_stored _ _ _ _ Har _ Hm) as (mt & Hh). apply in_map_iff. exists (p, (KDir, mt)). split; auto. now apply H2.
Qed.
Print Assumptions C64_list.

(** ** Mounted *)
(** FUSE can show what the inputs hold: times from 1970 on, sizes that fit. *)
Definition presentable (w : world) (inputs : list input) : Prop := forall p q n, source_at w inputs p q n ->
  (0 <= FsAdder.at_mtime (w_attr w q) < 2^63)%Z /\
  match n with
  | HFile i => N.of_nat (length (h_data (w_fs w) i)) + 4095 < 2^64
  | HLink t _ => N.of_nat (length t) + 4095 < 2^64
  | HDir => True
  end.

Lemma presentable_showable w inputs l contents : archives w inputs l contents -> presentable w inputs -> showable l.
Proof.
  intros Har Hp p nd Hh. destruct (stored_source _ _ _ _ Har _ _ Hh) as [(q & n & Hsrc & _ & _ & _ & Ht & Hm)|[-> _]].
  - destruct (Hp p q n Hsrc) as [H1 H2]. split.
    + rewrite Ht. unfold as_u64. rewrite Z.mod_small by lia. lia.
    + destruct n as [|i|t mm].
      * now rewrite Hm.
      * destruct Hm as (addr & -> & _). exact H2.
      * rewrite Hm. exact H2.
  - split; [reflexivity|exact I].
Qed.

(** Resolving a path in the mount finds exactly what the inputs hold there; files read back, links
    read back; owner, group and time are those of the source, and so is the mode, without the write bits. *)
Theorem C64_mount : forall w o w' inputs a h s p out, created_archive w o w' inputs a -> presentable w' inputs ->
  resolves a (a_root a) h s p out -> p <> [] ->
  match out with
  | Refused _ => (forall q n, ~ source_at w' inputs p q n) /\ ~ made_above inputs p
  | Reached ino k =>
      (made_above inputs p -> k = FtDir) /\
      ((exists q n, source_at w' inputs p q n) \/ made_above inputs p) /\
      forall q n, source_at w' inputs p q n ->
      (exists t, snd (step a (a_root a) s (Getattr ino)) = Ok (RAttr t) /\ Fuse.at_kind t = k /\
         Fuse.at_uid t = FsAdder.at_uid (w_attr w' q) mod 2^32 /\ Fuse.at_gid t = FsAdder.at_gid (w_attr w' q) mod 2^32 /\
         Z.of_N (Fuse.at_mtime t) = FsAdder.at_mtime (w_attr w' q) /\
         forall j, N.testbit (at_perm t) j = N.testbit (FsAdder.at_mode (w_attr w' q)) j && (j <? 16) && negb ((j =? 1) || (j =? 4) || (j =? 7))) /\
      match n with
      | HDir => k = FtDir
      | HLink t _ => k = FtLink /\ snd (step a (a_root a) s (Readlink ino)) = Ok (RData t)
      | HFile i => k = FtFile /\ snd (step a (a_root a) s (Open ino)) = Ok ROpened /\
          (releases ino h < opens ino h -> forall sizes, (length (h_data (w_fs w') i) <= list_sum (map N.to_nat sizes))%nat ->
             reading a (a_root a) s ino 0 sizes = Ok (h_data (w_fs w') i))
      end
  end.
Proof.
  intros w o w' inputs a h s p out Hc Hpr Hr Hne. destruct (created_session _ _ _ _ _ Hc) as (l & contents & Hs & Ha & Har). destruct Hc as (Hp & _).
  assert (HM : mount_of l (fetch_of contents) a (a_root a) []) by (split; [exact Hs|]; split; [exact Ha|]; now left).
  pose proof (presentable_showable _ _ _ _ Har Hpr) as Hsh.
  pose proof (C63_resolution _ _ _ _ _ _ _ _ _ HM Hsh Hr) as HR.
  assert (Hno : (forall nd, ~ has l ([] ++ p) nd) -> (forall q n, ~ source_at w' inputs p q n) /\ ~ made_above inputs p).
  { intros H. split.
    - intros q n Hsrc. destruct (source_stored _ _ _ _ Har _ _ _ Hsrc Hne) as (nd & Hh & _). now apply H in Hh.
    - intros Hm. destruct (made_stored _ _ _ _ Har _ Hm) as (mt & Hh). now apply H in Hh. }
  destruct out as [ino k|e]; [|destruct e; try contradiction; destruct HR as [HR _]; auto].
  destruct HR as [(E & _)|(_ & _ & nd & Hh & Ek)]; [easy|]. cbn [app] in Hh. split; [|split].
  - intros Hm. destruct (made_stored _ _ _ _ Har _ Hm) as (mt & Hh'). rewrite (has_fun _ _ _ _ Hh Hh') in Ek. exact Ek.
  - destruct (stored_source _ _ _ _ Har _ _ Hh) as [(q & n & Hsrc & _)|[_ Hm]]; eauto.
  - intros q n Hsrc. destruct (source_stored _ _ _ _ Har _ _ _ Hsrc Hne) as (nd' & Hh' & M1 & M2 & M3 & M4 & M5).
    rewrite <- (has_fun _ _ _ _ Hh Hh') in *. clear nd' Hh'.
    destruct (C63_contents _ _ _ _ _ _ _ _ _ _ nd HM Hsh Hr Hne Hh) as (_ & (t & i & Ht & At) & Hcont).
    split.
    + exists t. destruct At as (_ & B1 & B2 & B3 & B4 & _ & _ & B5 & _). split; [exact Ht|]. split; [now rewrite B1, Ek|].
      rewrite B2, B3, B4, M1, M2, M4. split; [reflexivity|]. split; [reflexivity|]. split.
      * destruct (Hpr p q n Hsrc) as [[T1 T2] _]. unfold as_u64. rewrite Z.mod_small by lia. lia.
      * intros j. now rewrite B5, M3.
    + destruct n as [|i0|tt0 mm].
      * rewrite M5 in Ek. exact Ek.
      * destruct M5 as (addr & M5 & Hf). rewrite M5 in *. split; [exact Ek|]. destruct (Hcont _ Hf) as [C1 C2]. split; [exact C1|]. intros Hop. apply (C2 Hop).
      * rewrite M5 in *. split; [exact Ek|exact Hcont].
Qed.
Print Assumptions C64_mount.

(** ** From Python *)
Theorem C64_python : forall w o w' inputs a s p, created_archive w o w' inputs a -> stands_for s p -> p <> [] ->
  (forall q n, source_at w' inputs p q n -> exists e, py_get_entry a s = Ok e /\
     match n with
     | HDir => py_is_dir e = true
     | HLink t _ => py_is_link e = true /\ py_get_target e = Ok t
     | HFile i => py_is_file e = true /\ exists st, py_get_content a e = Ok st /\
         forall ns, N.of_nat (length (h_data (w_fs w') i)) <= fold_right N.add 0 ns -> concat (snd (reads st ns)) = h_data (w_fs w') i
     end) /\
  ((forall q n, ~ source_at w' inputs p q n) -> ~ made_above inputs p -> raises (py_get_entry a s)).
Proof.
  intros w o w' inputs a s p Hc Hst Hne. destruct (created_session _ _ _ _ _ Hc) as (l & contents & Hs & Ha & Har). destruct Hc as (Hp & _).
  destruct (forallb utf8 p) eqn:Hu.
  - assert (Hu' : Forall (fun n => utf8 n = true) p) by (apply Forall_forall; now apply forallb_forall).
    destruct (C58_get_entry l _ a s p Hs Ha Hst Hne Hu') as [G1 G2]. split.
    + intros q n Hsrc. destruct (source_stored _ _ _ _ Har _ _ _ Hsrc Hne) as (nd & Hh & M1 & M2 & M3 & M4 & M5).
      destruct (G1 nd Hh) as (i & e & E1 & E2 & E3). exists e. split; [exact E1|].
      destruct (C58_attributes l _ a i p nd e Hs Ha E2 E3) as (_ & _ & _ & _ & _ & _ & K).
      destruct n as [|i0|t mm].
      * rewrite M5 in K. tauto.
      * destruct nd as [k mt]. cbn [fst] in *. destruct M5 as (addr & -> & Hf). split; [tauto|].
        pose proof (C58_content l _ a i p _ addr mt e Hs Ha E2 E3) as C. rewrite Hf in C. destruct C as (st & C1 & _ & C2). eauto.
      * rewrite M5 in K. tauto.
    + intros H1 H2. apply G2. intros nd Hh. destruct (stored_source _ _ _ _ Har _ _ Hh) as [(q & n & Hsrc & _)|[_ Hm]]; [now apply H1 in Hsrc|auto].
  - assert (Hbad : exists n, In n p /\ utf8 n = false).
    { clear -Hu. induction p as [|x p IH]; [discriminate Hu|]. cbn in Hu. destruct (utf8 x) eqn:Ex; [|exists x; split; auto; now left].
      destruct (IH Hu) as (n & H1 & H2). exists n. split; auto. now right. }
    destruct Hbad as (n & Hn & Hbad). split.
    + intros q m Hsrc. destruct (source_names _ _ _ _ _ _ n (pr_inputs _ _ _ _ Hp) Hsrc Hn). congruence.
    + intros _ _. apply C58_bad_path. right. destruct Hst as [Hr Hst]. split; [exact Hr|]. exists n. rewrite <- Hst in Hn. apply filter_In in Hn as [Hn Hd].
      split; [exact Hn|]. split; [|exact Hbad]. intros ->. discriminate Hd.
Qed.
Print Assumptions C64_python.

(** ** Extracted *)
Theorem C64_extract : forall w o w' inputs a w2 od out rc pol sched last g res, created_archive w o w' inputs a ->
  tidy (w_fs w2) -> outdir (w_fs w2) (base_of w2 od) out -> (forall p, p <> [] -> h_names (w_fs w2) (out ++ p) = None) ->
  extract_cmd w2 a od [] None None rc pol sched last = (g, res) ->
  (quiet sched last -> res <> Diverge -> res = Ok tt) /\
  (res = Ok tt ->
   (forall p q n, source_at w' inputs p q n -> p <> [] ->
      match n with
      | HDir => h_names g (out ++ p) = Some HDir
      | HFile i => has_file g (out ++ p) (h_data (w_fs w') i)
      | HLink t _ => has_link g (out ++ p) t
      end) /\
   (forall p, made_above inputs p -> h_names g (out ++ p) = Some HDir) /\
   (forall p, p <> [] -> h_names g (out ++ p) <> None -> (exists q n, source_at w' inputs p q n) \/ made_above inputs p)) /\
  (forall q, ~ below out q ->
     unchanged (w_fs w2) g q \/ (h_names (w_fs w2) q = None /\ h_names g q = Some HDir /\ exists t, out = q ++ t)).
Proof.
  intros w o w' inputs a w2 od out rc pol sched last g res Hc Htidy Hout Hempty Hrun.
  destruct (created_session _ _ _ _ _ Hc) as (l & contents & Hs & Ha & Har). destruct Hc as (Hp & _).
  pose proof (pr_inputs _ _ _ _ Hp) as Hg.
  destruct (C56_extract_root_dir w2 l _ a None [] od out rc pol sched last g res Hs Ha eq_refl) as (R1 & R2 & R3); auto.
  - intros p nd n _ Hh Hn. eapply stored_good; eauto.
  - intros p size addr mt _ Hh. cbn [app] in Hh. destruct (stored_source _ _ _ _ Har _ _ Hh) as [(q & n & Hsrc & _ & _ & _ & _ & Hm)|[E _]]; [|discriminate E].
    destruct n as [|i|t mm]; [discriminate Hm| |discriminate Hm]. destruct Hm as (addr' & E & Hf). injection E as _ ->. eauto.
  - intros p t mt _ Hh. cbn [app] in Hh. destruct (stored_source _ _ _ _ Har _ _ Hh) as [(q & n & (x & u & Hx & -> & -> & Hu) & _ & _ & _ & _ & Hm)|[E _]]; [|discriminate E].
    destruct n as [|i|t' mm]; [discriminate Hm|destruct Hm as (addr' & E & _); discriminate E|]. injection Hm as <-.
    rewrite Forall_forall in Hg. destruct (Hg x Hx) as (_ & _ & _ & _ & Hn). destruct u as [|y u].
    + cbn in Hu. now rewrite <- Hu in Hn.
    + destruct Hu as [Ed Hu]. rewrite Ed in Hn. destruct (sr_targets _ _ _ Hn (y :: u) t mm); auto; easy.
  - split; [exact R1|]. split; [|exact R3]. intros Hok. specialize (R2 Hok). split; [|split].
    + intros p q n Hsrc Hne. destruct (source_stored _ _ _ _ Har _ _ _ Hsrc Hne) as ([k mt] & Hh & _ & _ & _ & _ & M). destruct (R2 p Hne) as (D & F & L).
      cbn [fst app] in *. destruct n as [|i|t mm].
      * subst k. apply D. eauto.
      * destruct M as (addr & -> & Hf). apply F. eauto 6.
      * subst k. apply L. eauto.
    + intros p Hm. destruct (made_stored _ _ _ _ Har _ Hm) as (mt & Hh). apply (proj1 (R2 p (proj1 Hm))). eauto.
    + intros p Hne Hn. destruct (R2 p Hne) as (D & F & L). cbn [app] in *.
      assert (Hh : exists nd, has l p nd).
      { destruct (h_names g (out ++ p)) as [[|i|t mm]|] eqn:E; [| | |easy].
        - destruct (proj1 D eq_refl) as (mt & Hh). eauto.
        - destruct (proj1 (F (h_data g i))) as (sz & addr & mt & Hh & _); [exists i; auto|eauto].
        - destruct (proj1 (L t)) as (mt & Hh); [exists mm; auto|eauto]. }
      destruct Hh as [nd Hh]. destruct (stored_source _ _ _ _ Har _ _ Hh) as [(q & n & Hsrc & _)|[_ Hm]]; eauto.
Qed.
Print Assumptions C64_extract.

(** The hypotheses are met: a file and, through a link, a directory, seen from "-C src/..". *)
Definition two_inputs : list input :=
  [mkInput (b "src/a/f.txt") [b "h"; b "src"; b "a"; b "f.txt"] (HFile 0) [b "src"; b "a"; b "f.txt"] 0;
   mkInput (b "./ln/") src_root HDir [b "ln"] 2].
Definition o_two : create_opts := mkOpts false (b "out.arx") None (Some (b "src/..")) [b "src/a/f.txt"; b "./ln/"] None true None false false.

Example C64_proper : proper src_world o_two src_world two_inputs.
Proof.
  assert (Ho : forall l, forallb ordinaryb l = true -> Forall ordinary l).
  { intros l H. apply Forall_forall. intros x Hx. apply ordinaryb_spec. rewrite forallb_forall in H. auto. }
  constructor; try reflexivity.
  - exists []. reflexivity.
  - exists [b "h"], (b "out.arx"). split; [reflexivity|]. split; [eexists; vm_compute; reflexivity|].
    intros (q & n & H). vm_compute in H. discriminate H.
  - split; [vm_compute; reflexivity|reflexivity].
  - constructor; [|constructor; [|constructor]].
    + split; [vm_compute; auto|]. split; [reflexivity|]. split; [now apply Ho|]. split; [reflexivity|]. split; [discriminate|]. split; reflexivity.
    + split; [vm_compute; auto|]. split; [reflexivity|]. split; [now apply Ho|]. split; [reflexivity|]. exact src_tree.
  - constructor; [constructor; [|constructor]|constructor; [constructor|constructor]]. split; intros t H; discriminate H.
Qed.

Example C64_meets_hypotheses : exists a, created_archive src_world o_two src_world two_inputs a /\ presentable src_world two_inputs /\
  source_at src_world two_inputs [b "ln"; b "a"; b "l"] [b "h"; b "src"; b "a"; b "l"] (HLink (b "f.txt") 7%Z) /\
  made_above two_inputs [b "src"; b "a"] /\
  fst (list_cmd a None) = text [b "ln"; b "ln/a"; b "ln/a/f.txt"; b "ln/a/l"; b "ln/z"; b "src"; b "src/a"; b "src/a/f.txt"] /\
  dump src_world a (b "ln/a/f.txt") None = (b "hello", Ok tt).
Proof.
  eexists. split.
  { split; [exact C64_proper|]. split; [|exists 3%nat; eexists; split; [repeat constructor|]; split; [vm_compute; reflexivity|right; left; reflexivity]].
    vm_compute. reflexivity. }
  split.
  { intros p q n (x & t & [<-|[<-|[]]] & -> & -> & Ht).
    - split; [cbn; lia|]. destruct t as [|y t]; [cbn in Ht; subst n; vm_compute; reflexivity|destruct Ht as [Ht _]; discriminate Ht].
    - split; [cbn; lia|]. destruct t as [|y t]; [cbn in Ht; subst n; exact I|]. destruct Ht as [_ Ht]. cbn [src_world w_fs in_root] in Ht. apply src_cases in Ht.
      destruct Ht as [[_ ->]|[[_ ->]|[[_ ->]|[[_ ->]|[_ ->]]]]]; vm_compute; auto. }
  split; [exists (mkInput (b "./ln/") src_root HDir [b "ln"] 2), [b "a"; b "l"]; split; [right; left; reflexivity|]; repeat split|].
  split; [split; [discriminate|]; eexists _, (b "f.txt"), []; split; [left; reflexivity|reflexivity]|].
  split; vm_compute; reflexivity.
Qed.
