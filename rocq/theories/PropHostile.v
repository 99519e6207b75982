(** C60-C62: archives that no creator wrote. *)
From Verif Require Export DemoHost SpecHostile SpecWalk ReadFacts.
From Verif Require Import HostileProofs ForeignProofs.

(** C60: whatever the table of records, a harmless one (no ".." in the names, the names of the links
    not used by other entries) is extracted below the output directory only: at any moment of the run
    ([fuel] bounds the walk, [last] continues the writers), for every policy, selection and schedule. *)
Theorem C60_confined : forall a cfg f out rg fuel sched last c res q,
  harmless a -> calm a f out -> outdir f (x_base cfg) out ->
  run_from_range x_builder a (extractor a cfg sched) fuel rg (mkCtx [] f [] false 0) = (c, res) -> ~ below out q ->
  let g := x_fs (run_turns last c) in
  unchanged f g q \/ (h_names f q = None /\ h_names g q = Some HDir /\ exists t, out = q ++ t).
Proof.
  intros a cfg f out rg fuel sched last c res q Hh Hc Ho Hrun Hq g.
  assert (G : cinv a out f c); [|exact (iv_out _ _ _ _ (ci_fs _ _ _ _ (run_turns_inv a out f last c G)) q Hq)].
  unfold run_from_range in Hrun. cbn [on_start on_stop extractor] in Hrun.
  set (c0 := tick sched (mkCtx [] f [] false 0)) in *.
  assert (E : forall l, run_turns l (mkCtx [] f [] false 0) = mkCtx [] f [] false 0).
  { induction l as [|[[|n] o] l IH]; cbn; auto. }
  assert (E0 : c0 = mkCtx [] f [] false 1) by (unfold c0, tick; cbn [x_tick]; rewrite E; reflexivity).
  destruct (inv_start a cfg out f Ho Hc c0) as (g0 & Hg & Hi); try (rewrite E0; reflexivity).
  unfold io in Hrun. replace (x_fs c0) with f in Hrun by (rewrite E0; reflexivity). rewrite Hg in Hrun.
  cbn [fst snd andthen] in Hrun.
  pose proof (run_inv a cfg out f Hh Ho sched fuel (fst rg) (fst rg + snd rg) (with_fs c0 g0) Hi) as H.
  destruct (run_range x_builder a (extractor a cfg sched) fuel (fst rg) (fst rg + snd rg) (with_fs c0 g0)) as [c1 [u|e| |]];
    cbn [fst andthen] in *; assert (c = c1) as -> by congruence; exact H.
Qed.
Print Assumptions C60_confined.

(** In particular when the extraction returns. *)
Theorem C60_confined_extract : forall a cfg f out rg sched last g res q,
  harmless a -> calm a f out -> outdir f (x_base cfg) out ->
  extract_range a rg cfg sched last f = (g, res) -> ~ below out q ->
  unchanged f g q \/ (h_names f q = None /\ h_names g q = Some HDir /\ exists t, out = q ++ t).
Proof.
  intros a cfg f out rg sched last g res q Hh Hc Ho Hrun Hq. unfold extract_range in Hrun.
  destruct (run_from_range x_builder a (extractor a cfg sched) (walk_fuel a) rg (mkCtx [] f [] false 0)) as [c r] eqn:E.
  assert (g = x_fs (run_turns last c)) as -> by congruence.
  exact (C60_confined a cfg f out rg (walk_fuel a) sched last c r q Hh Hc Ho E Hq).
Qed.
Print Assumptions C60_confined_extract.

(** Without the condition on link names: a crafted archive with a link "a" and a directory "a" holding
    a file "z" writes through the link, anywhere, under every policy, into an empty directory. *)
Definition trap_arx (target : bytes) : archive := mkArchive
  [mkRec (b "a") 0 0 0 0 0 (RLink target); mkRec (b "a") 0 0 0 0 0 (RDir 2 1); mkRec (b "z") 2 0 0 0 0 (RFile (mkAddr 0 0) 3)]
  (0, 2) (0, 3) (fun _ => Found (b "xyz")).
Definition host_else : hostfs := host_of [(at_t, HDir); (at_out, HDir); ([b "etc"], HDir)] [].
Theorem C60_link_directory_refuted : forall pol, exists g,
  extract_range (trap_arx (b "/etc")) (0, 2) (cfg_all pol) idle all_turns host_else = (g, Ok tt) /\
  h_names host_else [b "etc"; b "z"] = None /\ has_file g [b "etc"; b "z"] (b "xyz").
Proof. intros []; (eexists; split; [vm_compute; reflexivity|]; split; [reflexivity|]; exists 0; vm_compute; auto). Qed.
Print Assumptions C60_link_directory_refuted.

(** A table the creator never writes (a directory whose range holds itself, a name with a separator,
    two records of one name) that is harmless. *)
Definition odd_arx : archive := mkArchive
  [mkRec (b "l") 0 0 0 0 0 (RLink (b "/etc")); mkRec (b "d") 0 0 0 0 0 (RDir 1 3); mkRec (b "x/y") 9 0 0 0 0 (RFile (mkAddr 0 0) 3);
   mkRec (b "x") 9 0 0 0 0 (RDir 0 1); mkRec (b "d") 0 0 0 0 0 (RFile (mkAddr 0 0) 3)]
  (0, 5) (0, 5) (fun _ => Found (b "xyz")).
Example C60_meets_hypotheses : harmless odd_arx /\ calm odd_arx host_else at_out /\
  outdir host_else (x_base (cfg_all Overwrite)) at_out /\
  (exists c, run_from_range x_builder odd_arx (extractor odd_arx (cfg_all Overwrite) idle) 4 (0, 5) (mkCtx [] host_else [] false 0) = (c, Diverge)
     /\ h_names (x_fs c) (at_out ++ [b "d"; b "d"; b "d"]) = Some HDir) /\
  ~ below at_out [b "etc"].
Proof.
  assert (Hl : forall x, link_name odd_arx x -> x = b "l").
  { intros x (r & t & q & Hr & Hp & E). cbn [odd_arx a_recs In] in Hr.
    destruct Hr as [<-|[<-|[<-|[<-|[<-|[]]]]]]; try discriminate Hp.
    change (pieces (r_name _)) with [b "l"] in E. destruct q as [|y [|z q]]; cbn [app] in E; try discriminate E. congruence. }
  repeat apply conj.
  - constructor.
    + intros r Hr. cbn [odd_arx a_recs In] in Hr.
      destruct Hr as [<-|[<-|[<-|[<-|[<-|[]]]]]]; vm_compute; intuition discriminate.
    + intros r x Hr Hn Hx ->%Hl. cbn [odd_arx a_recs In] in Hr.
      destruct Hr as [<-|[<-|[<-|[<-|[<-|[]]]]]]; [elim (Hn (b "/etc")); reflexivity| | | |]; revert Hx; vm_compute; intuition discriminate.
    + intros r t Hr Hp. cbn [odd_arx a_recs In] in Hr.
      destruct Hr as [<-|[<-|[<-|[<-|[<-|[]]]]]]; try discriminate Hp.
      exists [], (b "l"). split; [reflexivity|]. split; [discriminate|]. intros y [].
  - assert (Hn : forall p n, h_names host_else p = Some n -> n = HDir).
    { intros p n H. apply lookup_in in H. cbn in H. intuition congruence. }
    constructor.
    + intros q x t m _ H. now apply Hn in H.
    + intros p q i H. now apply Hn in H.
    + intros p i H. now apply Hn in H.
  - constructor; [right; apply ordinaryb_spec; reflexivity|]. constructor; [now left|].
    constructor; [right; apply ordinaryb_spec; reflexivity|constructor].
  - reflexivity.
  - intros q x t E. destruct q; discriminate E.
  - intros q t E Hq. right. destruct q as [|y [|z [|? q]]]; [easy| | |]; unfold at_out in E; cbn [app] in E.
    + assert (y = b "t") as -> by congruence. reflexivity.
    + assert (y = b "t") as -> by congruence. assert (z = b "out") as -> by congruence. reflexivity.
    + discriminate E.
  - eexists. split; vm_compute; reflexivity.
  - intros (x & t & E). discriminate E.
Qed.

(** C61: in any table, what a look-up returns is a record that the path spells from the root; a
    look-up always ends; it only fails by "not found" or by an unknown variant of record; and when
    the ranges stay in the table, only a path without components aborts it. *)
Theorem C61_sound : forall F L D (B : builder F L D) a p e, get_entry B a p = Ok e ->
  exists i, spelled a (a_root a) (pieces p) i /\ get_entry_at_idx B a i = Ok e.
Proof.
  intros F L D B a p e H. unfold get_entry in H. rewrite iter_pieces in H.
  exact (get_entry_in_sound B a (pieces p) (a_root a) e H).
Qed.
Print Assumptions C61_sound.

Theorem C61_total : forall a p, pieces p <> [] ->
  (exists e, get_entry full_builder a p = Ok e) \/ get_entry full_builder a p = Err ENotFound \/
  get_entry full_builder a p = Err EBadVariant \/ (get_entry full_builder a p = Panic /\ ~ within a).
Proof.
  intros a p Hp. unfold get_entry. rewrite iter_pieces.
  pose proof (get_entry_in_total a (pieces p) (a_root a) Hp) as H.
  destruct (get_entry_in full_builder a (a_root a) (pieces p)) as [e|e| |].
  - eauto.
  - destruct H as [-> | ->]; auto.
  - right. right. right. split; [reflexivity|]. intros Hw. exact (H Hw (wi_root a Hw)).
  - elim H.
Qed.
Print Assumptions C61_total.

Example C61_meets_hypotheses : within odd_arx /\ (exists e, get_entry full_builder odd_arx (b "d/d/d") = Ok e) /\
  get_entry full_builder (trap_arx []) (b "a/y") = Err ENotFound /\
  get_entry full_builder (mkArchive [] (0, 1) (0, 0) (fun _ => NoContent)) (b "a") = Panic.
Proof.
  repeat apply conj.
  - constructor.
    + cbn. lia.
    + intros r f n Hr Hp. cbn [odd_arx a_recs In] in Hr.
      destruct Hr as [<-|[<-|[<-|[<-|[<-|[]]]]]]; try discriminate Hp; cbn in Hp; injection Hp as <- <-; vm_compute; discriminate.
    + intros r Hr. cbn [odd_arx a_recs In] in Hr.
      destruct Hr as [<-|[<-|[<-|[<-|[<-|[]]]]]]; reflexivity.
  - eexists. vm_compute. reflexivity.
  - reflexivity.
  - reflexivity.
Qed.

(** C62: the walk of a table whose ranges stay inside and lead forward ends, for every operator whose
    callbacks end. *)
Theorem C62_forward_walk_ends : forall C F L D (B : builder F L D) (op : operator C F L D) a rg c,
  ends B op -> within a -> forward a -> fst rg + snd rg <= N.of_nat (length (a_recs a)) ->
  snd (run_from_range B a op (walk_fuel a) rg c) <> Diverge.
Proof.
  intros C F L D B op a rg c He Hw Hf Hrg. unfold run_from_range.
  pose proof (en_start B op He c) as H1. destruct (on_start op c) as [c1 [u|e| |]]; cbn [andthen snd] in *; try discriminate; [|easy].
  pose proof (forward_ends B op a He Hw Hf (walk_fuel a) (fst rg) (fst rg + snd rg) c1 ltac:(lia) Hrg ltac:(unfold walk_fuel; lia)) as H2.
  destruct (run_range B a op (walk_fuel a) (fst rg) (fst rg + snd rg) c1) as [c2 [u2|e| |]]; cbn [andthen snd] in *; try discriminate; [|easy].
  apply (en_stop B op He).
Qed.
Print Assumptions C62_forward_walk_ends.

(** Every archive the creator writes is such a table. *)
Theorem C62_creator_tables : forall l fetch a, small l -> archive_of l fetch a -> within a /\ forward a.
Proof. intros l fetch a Hs Ha. destruct (archive_ok l fetch a Hs Ha) as (m & _ & _ & _ & Hw & _). now apply wf_within_forward. Qed.
Print Assumptions C62_creator_tables.

(** So is this one, with a directory shared by two others and records in no order. *)
Definition shared_arx : archive := mkArchive
  [mkRec (b "y") 0 0 0 0 0 (RDir 2 1); mkRec (b "x") 0 0 0 0 0 (RDir 2 1); mkRec (b "a") 7 0 0 0 0 (RFile (mkAddr 0 0) 3)]
  (0, 2) (0, 3) (fun _ => Found (b "xyz")).
Example C62_meets_hypotheses : small demo /\ archive_of demo demo_fetch demo_arx /\ within shared_arx /\ forward shared_arx /\
  ends full_builder (recorder (fun _ => true)) /\
  length (fst (run full_builder shared_arx (recorder (fun _ => true)) [])) = 6%nat.
Proof.
  split; [exact demo_small|]. split; [exact demo_built|]. split; [|split; [|split; [|vm_compute; reflexivity]]].
  - constructor.
    + cbn. lia.
    + intros r f n Hr Hp. cbn [shared_arx a_recs In] in Hr.
      destruct Hr as [<-|[<-|[<-|[]]]]; try discriminate Hp; cbn in Hp; injection Hp as <- <-; vm_compute; discriminate.
    + intros r Hr. cbn [shared_arx a_recs In] in Hr. destruct Hr as [<-|[<-|[<-|[]]]]; reflexivity.
  - intros i r f n Hi Hp _. unfold at_ in Hi. cbn [shared_arx a_recs length] in Hi.
    destruct (i <? N.of_nat 3) eqn:E; [|discriminate Hi]. apply N.ltb_lt in E.
    assert (Hk : i = 0 \/ i = 1 \/ i = 2) by lia.
    destruct Hk as [-> | [-> | ->]]; cbn in Hi; injection Hi as <-; try discriminate Hp; cbn in Hp; injection Hp as <- <-; vm_compute; reflexivity.
  - constructor; intros; cbn; try discriminate.
    all: unfold create_common; destruct (r_parent r =? 0); cbn [bind]; [|destruct (as_u32 (r_parent r) =? 0); cbn [bind]; [discriminate|]];
      destruct (r_payload r); discriminate.
Qed.

(** A directory that holds itself: the walk never ends (in reality, the stack overflows). *)
Definition loop_arx : archive := mkArchive [mkRec (b "d") 0 0 0 0 0 (RDir 0 1)] (0, 1) (0, 1) (fun _ => NoContent).
Theorem C62_own_child_refuted : forall fuel,
  snd (run_from_range full_builder loop_arx (recorder (fun _ => true)) fuel (a_root loop_arx) []) = Diverge.
Proof.
  intros fuel. unfold run_from_range. cbn [on_start recorder andthen].
  enough (G : forall fuel c, snd (run_range full_builder loop_arx (recorder (fun _ => true)) fuel 0 1 c) = Diverge).
  { specialize (G fuel). cbn [a_root loop_arx fst snd N.add].
    match goal with |- context [run_range ?B ?a ?op fuel ?x ?y ?c] => specialize (G c); change y with 1; destruct (run_range B a op fuel x 1 c) as [c2 r] end.
    cbn [snd] in G. rewrite G. reflexivity. }
  clear fuel. induction fuel as [|k IH]; intros c; [reflexivity|]. cbn [run_range]. change (0 =? 1) with false. cbn [andthen].
  change (create_entry full_builder loop_arx 0) with (Ok (GDir (0, 1) (mkCommon 0 (b "d") None 0 0 0 0, (0, 1))) : res full_entry).
  cbn [andthen on_enter recorder fst snd]. change (0 + 1) with 1.
  match goal with |- context [run_range _ _ _ k 0 1 ?c] => specialize (IH c);
    destruct (run_range full_builder loop_arx (recorder (fun _ => true)) k 0 1 c) as [c2 r] end.
  cbn [snd] in IH. rewrite IH. reflexivity.
Qed.
Print Assumptions C62_own_child_refuted.
