(** C95: several archives are created at the same time. *)
From Verif Require Export Together2 PropCreateHost.
From Verif Require Import PropOwn.

Local Ltac bad := let H := fresh in intros H; discriminate H.

(** Whatever the order of their system calls, and whenever they are killed: every path of the host is as
    before, a temporary file of one of them (where nothing was), or a complete file of one of them at an
    output. *)
Theorem C95_moments : forall J T asked f0 s p, in_progress J T asked f0 s ->
  unchanged f0 (tg_fs s) p \/
  (h_names f0 p = None /\ ~ asked p /\ exists x i, In x (tg_all s) /\ In (p, i) (ct_temps x) /\ h_names (tg_fs s) p = Some (HFile i)) \/
  (asked p /\ h_names f0 p <> Some HDir /\ exists x k d, In x (tg_all s) /\ p = ct_dir x ++ [k] /\ has_file (tg_fs s) p d /\ yields J x k d).
Proof.
  intros J T asked f0 s p (Hi & Ho & Hl & S). pose proof (tinv_steps J T asked f0 Ho Hl _ _ S (tinv_start J T asked f0)) as I.
  destruct (ti_path _ _ _ _ _ I p) as [E|[(i & a & x & H & Hin)|(P1 & P2 & a & x & k & i & H & Eq & Hk & Hn & Hg & _)]].
  - left. split; [exact E|]. intros i Hp. apply (nr_old _ _ _ (ti_near _ _ _ _ _ I _ (ti_now _ _ _ _ _ I))). eapply Hi; eauto.
  - right. left. destruct (ti_temp _ _ _ _ _ I a x p i H Hin) as (K1 & _ & K3 & K4 & _). split; [exact K3|]. split; [exact K4|]. exists x, i. split; [eapply nth_error_In; eauto|auto].
  - right. right. split; [exact P1|]. split; [exact P2|]. exists x, k, (h_data (tg_fs s) i). split; [eapply nth_error_In; eauto|]. split; [exact Eq|]. split; [exists i; auto|exact Hg].
Qed.
Print Assumptions C95_moments.

(** The files of the host that are not outputs are as they were, whatever the creations do. *)
Theorem C95_elsewhere : forall J T asked f0 s p, in_progress J T asked f0 s -> h_names f0 p <> None -> ~ asked p -> unchanged f0 (tg_fs s) p.
Proof.
  intros J T asked f0 s p H Hp Ha. destruct (C95_moments J T asked f0 s p H) as [K|[(K & _)|(K & _)]]; [exact K|contradiction..].
Qed.
Print Assumptions C95_elsewhere.

Lemma entered_eq w base w' : entered w base w' -> w' = from w (w_cwd w').
Proof. unfold entered, from. destruct base; [tauto|]. intros ->. now destruct w. Qed.

Lemma separate_create T asked f0 fuel cwd o w' files : separate T asked f0 fuel cwd o w' files -> o_list_compressions o = false ->
  exists m c a, create fuel (world_of T cwd f0) true o = ([Opened m; Written a], Ok tt) /\ fill fuel (world_of T cwd f0) w' o = (c, Ok tt) /\ finalize c = Some a /\ create_concat (o_concat o) = Ok m.
Proof.
  intros (P & He & _ & _ & _ & Hr) Hlc. destruct (create fuel (world_of T cwd f0) true o) as [evs r] eqn:E. cbn [snd] in Hr. subst r.
  destruct (create_shape _ _ _ _ _ _ E) as [[_ K]|[(m & _ & K)|(m & a & c & w'' & -> & _ & Hf & Hfin & Hm & Hb)]]; [rewrite K in Hlc; [discriminate Hlc|reflexivity]|now destruct K|].
  assert (w'' = w') as ->.
  { unfold entered in He. destruct (o_base o) as [d|]; [|congruence]. destruct He as [H1 H2]. unfold chdir in Hb. rewrite H1 in Hb. rewrite H2. congruence. }
  exists m, c, a. auto.
Qed.

(** What a creation finds when it starts, the others being at work. *)
Lemma start_in J T (asked : path -> Prop) f0 s a x o fuel w' files : local T -> (forall q t m, asked q -> h_names f0 q <> Some (HLink t m)) -> inodes_given f0 -> tinv J T asked f0 s ->
  nth_error (tg_all s) a = Some x -> ct_opts x = Some o -> separate T asked f0 fuel (ct_from x) o w' files -> ct_in x = w_cwd w' /\ o_list_compressions o = false /\ create_concat (o_concat o) = Ok (ct_mode x).
Proof.
  intros HT Hl Hi I Ha Ho (P & He & _). destruct (ti_start _ _ _ _ _ I a x o Ha Ho) as (g & w1 & Hg & Hlc & _ & _ & Hm & Hb & ->). split; [|auto].
  pose proof (near_calm T asked f0 Hi Hl (ct_from x) g HT (ti_near _ _ _ _ _ I g Hg)) as Hc.
  unfold entered in He. destruct (o_base o) as [d|]; [|subst w1 w'; reflexivity]. destruct He as [H1 _]. unfold chdir in Hb.
  rewrite (look_calm asked (world_of T (ct_from x) f0) (fun w1 => w1 = world_of T (ct_from x) g)) with (q := w_cwd w') (n := HDir) in Hb; [injection Hb as <-; reflexivity|intros w2 ->; exact Hc|reflexivity|exact H1|].
  right. discriminate.
Qed.

Lemma past_calm J T (asked : path -> Prop) f0 s cwd : local T -> (forall q t m, asked q -> h_names f0 q <> Some (HLink t m)) -> inodes_given f0 -> tinv J T asked f0 s ->
  forall past w1, incl past (tg_past s) -> past_world T past cwd w1 -> calm asked (world_of T cwd f0) w1.
Proof. intros HT Hl Hi I past w1 Hp (g & Hg & ->). apply near_calm; auto. eapply ti_near; eauto. Qed.

(** However the system calls of the others fall between those of a creation that alone would succeed, and
    that reads aside of the outputs: it collects what it would collect alone, and does not fail. *)
Theorem C95_no_failure : forall J T asked f0 s x o fuel w' files c r, local T -> in_progress J T asked f0 s ->
  In x (tg_all s) -> ct_opts x = Some o -> separate T asked f0 fuel (ct_from x) o w' files ->
  live_fill (past_world T (tg_past s) (ct_from x)) (past_world T (tg_past s) (ct_in x)) o c r ->
  r = Ok tt /\ exists m a, create fuel (world_of T (ct_from x) f0) true o = ([Opened m; Written a], Ok tt) /\ finalize c = Some a.
Proof.
  intros J T asked f0 s x o fuel w' files c r HT (Hi & Ho & Hl & S) Hx Hox Hs L. pose proof (tinv_steps J T asked f0 Ho Hl _ _ S (tinv_start J T asked f0)) as I.
  apply In_nth_error in Hx as [a Ha]. destruct (start_in J T asked f0 s a x o fuel w' files HT Hl Hi I Ha Hox Hs) as (E1 & E2 & E3). rewrite E1 in L.
  destruct (separate_create _ _ _ _ _ _ _ _ Hs E2) as (m & c0 & ar & Hc & Hf & Hfin & Hm). destruct Hs as (P & He & Hlo & Hp & Hr & _).
  pose proof (entered_eq _ _ _ He) as Ew. rewrite Ew in Hf, Hp, Hr. cbn [w_cwd from] in *.
  destruct (fill_calm asked fuel (world_of T (ct_from x) f0) (w_cwd w') (past_world T (tg_past s) (ct_from x)) (past_world T (tg_past s) (w_cwd w')) o files c0 c r P) as [-> ->]; auto.
  - rewrite <- Ew. eapply possible_entered; eauto.
  - intros w1. apply (past_calm J T asked f0 s _ HT Hl Hi I). apply incl_refl.
  - intros w1. apply (past_calm J T asked f0 s (w_cwd w') HT Hl Hi I). apply incl_refl.
  - split; [reflexivity|]. exists m, ar. auto.
Qed.
Print Assumptions C95_no_failure.

(** The archive of such a creation, once [finalize] is called, is the one it would be alone. *)
Theorem C95_alone : forall J T asked f0 s x o fuel w' files c, local T -> in_progress J T asked f0 s ->
  In x (tg_all s) -> ct_opts x = Some o -> separate T asked f0 fuel (ct_from x) o w' files -> ct_sealed x = Some c ->
  fill fuel (world_of T (ct_from x) f0) w' o = (c, Ok tt) /\
  exists a, create fuel (world_of T (ct_from x) f0) true o = ([Opened (ct_mode x); Written a], Ok tt) /\ finalize c = Some a.
Proof.
  intros J T asked f0 s x o fuel w' files c HT (Hi & Ho & Hl & S) Hx Hox Hs Hc0. pose proof (tinv_steps J T asked f0 Ho Hl _ _ S (tinv_start J T asked f0)) as I.
  apply In_nth_error in Hx as [a Ha]. destruct (start_in J T asked f0 s a x o fuel w' files HT Hl Hi I Ha Hox Hs) as (E1 & E2 & E3).
  destruct (ti_seal _ _ _ _ _ I a x c Ha Hc0) as [_ K]. destruct (K o Hox) as (past & Hpast & L). rewrite E1 in L.
  destruct (separate_create _ _ _ _ _ _ _ _ Hs E2) as (m & c0 & ar & Hc & Hf & Hfin & Hm). destruct Hs as (P & He & Hlo & Hp & Hr & _).
  pose proof (entered_eq _ _ _ He) as Ew. rewrite Ew in Hf, Hp, Hr.
  destruct (fill_calm asked fuel (world_of T (ct_from x) f0) (w_cwd w') (past_world T past (ct_from x)) (past_world T past (w_cwd w')) o files c0 c (Ok tt) P) as [-> _]; auto.
  - rewrite <- Ew. eapply possible_entered; eauto.
  - intros w1. now apply (past_calm J T asked f0 s _ HT Hl Hi I).
  - intros w1. now apply (past_calm J T asked f0 s (w_cwd w') HT Hl Hi I).
  - rewrite Ew. split; [exact Hf|]. exists ar. rewrite Hc. split; [|exact Hfin]. assert (m = ct_mode x) as -> by congruence. reflexivity.
Qed.
Print Assumptions C95_alone.

(** And its files, once in place, have the bytes that they have after the run alone, as long as no other
    creation is asked for the same ones. *)
Theorem C95_as_alone : forall J T asked f0 s x o fuel w' files c g k, local T -> in_progress J T asked f0 s ->
  In x (tg_all s) -> ct_opts x = Some o -> separate T asked f0 fuel (ct_from x) o w' files -> ct_sealed x = Some c ->
  In k (ct_done x) ->
  (forall y k', In y (tg_all s) -> ct_dir y ++ [k'] = ct_dir x ++ [k] -> In k' (jb_names J (ct_mode y) (ct_name y)) -> y = x) ->
  create_run J fuel (world_of T (ct_from x) f0) true o (Some (Ok tt)) g ->
  exists d, has_file (tg_fs s) (ct_dir x ++ [k]) d /\ has_file g (ct_dir x ++ [k]) d.
Proof.
  intros J T asked f0 s x o fuel w' files c g k HT HP Hx Hox Hs Hc Hk Hy R.
  destruct (C95_alone J T asked f0 s x o fuel w' files c HT HP Hx Hox Hs Hc) as [Hf (ar & Ecr & Hfin)].
  destruct HP as (Hi & Ho & Hl & S). pose proof (tinv_steps J T asked f0 Ho Hl _ _ S (tinv_start J T asked f0)) as I.
  pose proof Hx as Hx'. apply In_nth_error in Hx' as [a Ha]. destruct (start_in J T asked f0 s a x o fuel w' files HT Hl Hi I Ha Hox Hs) as (E1 & E2 & E3).
  destruct (ti_done _ _ _ _ _ I a x k Ha Hk) as (_ & _ & a' & y & k' & i & Hy' & Eq & Hk' & Hn & Hg & _). pose proof (nth_error_In _ _ Hy') as Hyin. destruct Hg as [G1 (c' & arc & G2 & G3 & G4)].
  assert (y = x) as -> by (apply (Hy y k'); auto). apply app_inv_head in Eq. injection Eq as <-. assert (c' = c) as -> by congruence.
  exists (h_data (tg_fs s) i). split; [exists i; auto|]. rewrite G4.
  destruct (run_state _ _ _ _ _ _ _ R) as [[_ K]|(dir & n & m & st & Hop & -> & HI)]; [rewrite K in E2; [discriminate E2|reflexivity]|].
  destruct HI as [(_ & [H|[_ H]])|(a1 & c1 & w1 & E & Hf1 & _ & Hb & IH & [H|[(Ht & Hd & _)|(_ & _ & e & H)]])]; try discriminate H; [now destruct H|].
  assert (m = ct_mode x) as -> by congruence.
  assert (w1 = w') as ->.
  { destruct Hs as (_ & He & _). unfold entered in He. destruct (o_base o) as [d|]; [|congruence]. destruct He as [H1 H2]. unfold chdir in Hb. rewrite H1 in Hb. rewrite H2. congruence. }
  assert (c1 = c) as -> by congruence.
  assert (Epl : dir = ct_dir x /\ n = ct_name x).
  { destruct (ti_start _ _ _ _ _ I a x o Ha Hox) as (h & w1 & Hh & _ & _ & Hop' & _).
    pose proof (near_calm T asked f0 Hi Hl (ct_from x) h HT (ti_near _ _ _ _ _ I h Hh)) as Hcm.
    unfold out_place in Hop, Hop'. destruct (rev (filter not_dot (pieces (o_out o)))) as [|nn rr]; [discriminate Hop|]. destruct (bytes_eqb nn (b "..")); [discriminate Hop|]. unfold look in Hop, Hop'. cbn [world_of w_fs w_cwd] in Hop, Hop'.
    destruct (namei max_links f0 true _ _) as [q0 [|i0|t0 m0]|q0|e0] eqn:En; try discriminate Hop.
    pose proof (namei_calm asked f0 h (cm_kept _ _ _ Hcm) _ _ _ _ _ _ En (or_intror (fun j (E : HDir = HFile j) => ltac:(discriminate E)))) as En'. rewrite En' in Hop'. split; congruence. }
  destruct Epl as [-> ->]. pose proof (hv_done _ _ _ _ _ IH k (Hd k G1)) as (_ & _ & j & content & Hcc & H1 & H2 & _). injection Hcc as <-. exists j. split; [exact H1|exact H2].
Qed.
Print Assumptions C95_as_alone.

(** Even if the host changes under a creation in other ways than those above (an input that is itself an
    output of another one, say): what it archives was seen in the past, under the path it has, and every
    input that was there all the time, or line of the list, was seen and is in the archive. *)
Theorem C95_seen : forall J T asked f0 s x o c, in_progress J T asked f0 s -> In x (tg_all s) -> ct_opts x = Some o -> ct_sealed x = Some c ->
  let W := past_world T (tg_past s) (ct_in x) in
  let pre := match o_prefix o with Some p => p | None => [] end in
  exists a files l, finalize c = Some a /\ lines_then (past_world T (tg_past s) (ct_from x)) o files /\ cr_entries c = after l /\ all_ok l /\
    (forall p nd, has l p nd ->
       (exists s follow, gone_by W o files s /\ stands_for s (pieces pre ++ p) /\ seen_then W follow s (cr_contents c) nd) \/
       (nd = (KDir, mkMeta 1000 1000 493 0) /\ p <> [] /\ exists s t, gone_by W o files s /\ t <> [] /\ stands_for s (pieces pre ++ p ++ t))) /\
    (forall s, match files with Some ls => In s ls | None => In s (o_infiles o) /\ forall w, W w -> exists q n, look_str w true s = At q n end ->
       arrived W pre s l (cr_contents c)).
Proof.
  intros J T asked f0 s x o c (Hi & Ho & Hl & S) Hx Hox Hc W pre. pose proof (tinv_steps J T asked f0 Ho Hl _ _ S (tinv_start J T asked f0)) as I.
  apply In_nth_error in Hx as [a Ha]. destruct (ti_seal _ _ _ _ _ I a x c Ha Hc) as [[y Hy] K]. destruct (K o Hox) as (past & Hpast & L).
  assert (HW : forall cwd w, past_world T past cwd w -> past_world T (tg_past s) cwd w) by (intros cwd w (f & Hf & E); exists f; split; [now apply Hpast|exact E]).
  destruct (fill_then_more _ _ (past_world T (tg_past s) (ct_from x)) (past_world T (tg_past s) (ct_in x)) o c (HW _) (HW _) L) as (files & l & A1 & A2 & A3 & A4 & A5).
  exists y, files, l. do 5 (split; [assumption|]). exact A5.
Qed.
Print Assumptions C95_seen.

(** Whoever has a file of this host open reads, as long as it likes and whatever is put in place under the
    name meanwhile, the bytes that were there when it opened it: those from before or those of a complete
    file of a creation.  (Temporary files excepted.) *)
Theorem C95_open_files : forall J T asked f0 s s' p i, in_progress J T asked f0 s -> together_steps J T asked s s' ->
  h_names (tg_fs s) p = Some (HFile i) -> (forall x, In x (tg_all s) -> ~ In (p, i) (ct_temps x)) ->
  h_data (tg_fs s') i = h_data (tg_fs s) i /\
  ((h_names f0 p = Some (HFile i) /\ h_data (tg_fs s') i = h_data f0 i) \/
   (asked p /\ exists x k, In x (tg_all s) /\ p = ct_dir x ++ [k] /\ yields J x k (h_data (tg_fs s') i))).
Proof.
  intros J T asked f0 s s' p i (Hi & Ho & Hl & S) S' Hp Hx. pose proof (tinv_steps J T asked f0 Ho Hl _ _ S (tinv_start J T asked f0)) as I.
  destruct (ti_path _ _ _ _ _ I p) as [E|[(j & a & x & H & Hin)|(P1 & P2 & a & x & k & j & H & Eq & Hk & Hn & Hg & Hj & Ht)]].
  - rewrite Hp in E. symmetry in E. pose proof (Hi p i E) as Hlt.
    assert (Hs : settled s i).
    { split; [pose proof (ti_next _ _ _ _ _ I); lia|]. intros x q Hin Hq. apply In_nth_error in Hin as [a Ha]. destruct (ti_temp _ _ _ _ _ I a x q i Ha Hq) as (_ & [Hge _] & _). lia. }
    destruct (settled_steps _ _ _ _ _ _ S' Hs) as [_ Hd]. split; [exact Hd|]. left. split; [exact E|]. rewrite Hd.
    apply (nr_old _ _ _ (ti_near _ _ _ _ _ I _ (ti_now _ _ _ _ _ I))). exact Hlt.
  - exfalso. destruct (ti_temp _ _ _ _ _ I a x p j H Hin) as (K1 & _). assert (j = i) as -> by congruence. apply (Hx x); [eapply nth_error_In; eauto|exact Hin].
  - assert (j = i) as -> by congruence.
    assert (Hs : settled s i). { split; [lia|]. intros y q Hy Hq. apply In_nth_error in Hy as [b Hb]. apply (Ht q). exists b, y. auto. }
    destruct (settled_steps _ _ _ _ _ _ S' Hs) as [_ Hd]. split; [exact Hd|]. right. split; [exact P1|]. exists x, k. split; [eapply nth_error_In; eauto|]. split; [exact Eq|]. now rewrite Hd.
Qed.
Print Assumptions C95_open_files.

(** Two creations in /h, of the directory src and of the file src/z; the second one to [out2]. *)
Definition two_jbk : jbk := mkJbk (fun m n => match m with OneFile => [n] | _ => [n; n ++ b "c"] end) (fun _ _ c _ => concat (cr_contents c)).
Definition two_told : told := mkTold (fun _ => src_attr) (fun _ => src_list).
Definition o_other (out2 : bytes) : create_opts := mkOpts false out2 None None [b "src/z"] None true None false false.
Definition two_c1 : creator := fst (fill 3 src_world src_world o_src).
Definition two_c2 (out2 : bytes) : creator := fst (fill 3 src_world src_world (o_other out2)).
Definition two_asked (out2 : bytes) (q : path) : Prop := q = [b "h"; b "out.arx"] \/ q = [b "h"; out2].
Definition two_t1 : path := [b "h"; b ".tmp7"].
Definition two_t2 : path := [b "h"; b ".tmp8"].
Definition two_fs2 : hostfs := make_temp (make_temp src_fs two_t1) two_t2.
Definition two_fs3 : hostfs := touch (set_data two_fs2 3 (b "xyzhello")) 3.
Definition two_fs4 : hostfs := touch (set_data two_fs3 4 (b "xyz")) 4.
Definition two_fs5 : hostfs := rename_file two_fs4 two_t1 [b "h"; b "out.arx"].
Definition two_fs6 (out2 : bytes) : hostfs := rename_file two_fs5 two_t2 [b "h"; out2].
Definition two_past (out2 : bytes) : list hostfs := [two_fs6 out2; two_fs5; two_fs4; two_fs3; two_fs2; make_temp src_fs two_t1; src_fs].
Definition two_x1 : creation := mkCreation (Some o_src) [b "h"] [b "h"] OneFile [b "h"] (b "out.arx") (Some two_c1) [] [b "out.arx"].
Definition two_x2 (out2 : bytes) : creation := mkCreation (Some (o_other out2)) [b "h"] [b "h"] OneFile [b "h"] out2 (Some (two_c2 out2)) [] [out2].
Definition two_end (out2 : bytes) : together := mkTogether (two_fs6 out2) (two_past out2) [two_x1; two_x2 out2].

Lemma src_places s fl q n : In s [b "src"; b "src/a"; b "src/z"; b "src/a/f.txt"; b "src/a/l"] -> look_str src_world fl s = At q n ->
  In q [src_root; src_root ++ [b "a"]; src_root ++ [b "z"]; src_root ++ [b "a"; b "f.txt"]; src_root ++ [b "a"; b "l"]] /\
  (n = HDir -> (s = b "src" /\ q = src_root) \/ (s = b "src/a" /\ q = src_root ++ [b "a"])).
Proof.
  intros Hs. destruct fl; cbn [In] in Hs; repeat (destruct Hs as [<-|Hs]; [intros H; vm_compute in H; injection H as <- <-; split; [vm_compute; auto 10|intros E; first [discriminate E|vm_compute; auto]]|]); destruct Hs.
Qed.
Lemma src_walked x s : In x [b "src"; b "src/z"] -> walked src_world true x s -> In s [b "src"; b "src/a"; b "src/z"; b "src/a/f.txt"; b "src/a/l"].
Proof.
  intros Hx W. induction W as [|d q names n _ _ IH He Hl Hn]; [destruct Hx as [<-|[<-|[]]]; vm_compute; auto|].
  assert (Hq : (d = b "src" /\ q = src_root) \/ (d = b "src/a" /\ q = src_root ++ [b "a"])).
  { destruct He as [[-> He]|He]; exact (proj2 (src_places _ _ _ _ IH He) eq_refl). }
  destruct Hq as [[-> ->]|[-> ->]].
  - assert (names = [b "z"; b "a"]) as -> by (vm_compute in Hl; injection Hl as <-; reflexivity). destruct Hn as [<-|[<-|[]]]; vm_compute; auto.
  - assert (names = [b "f.txt"; b "l"]) as -> by (vm_compute in Hl; injection Hl as <-; reflexivity). destruct Hn as [<-|[<-|[]]]; vm_compute; auto 10.
Qed.
Lemma two_aside out2 o : out2 = b "out.arx" \/ out2 = b "out2.arx" -> o_recurse o = true -> o_file_list o = None -> incl (o_infiles o) [b "src"; b "src/z"] -> reads_aside (two_asked out2) src_world o src_world None.
Proof.
  intros Ho Hr Hf Hi. split; [|intros fl q n E; rewrite Hf in E; discriminate E].
  intros s fl q n (x & Hx & Hw & _) Hl. rewrite Hr in Hw. pose proof (src_walked x s (Hi x Hx) Hw) as Hs. destruct (src_places s fl q n Hs Hl) as [Hq _].
  destruct Ho as [->| ->]; cbn [In] in Hq; repeat (destruct Hq as [<-|Hq]; [split; [intros [E|E]; discriminate E|intros k [E|E]; discriminate E]|]); destruct Hq.
Qed.
Lemma two_separate out2 : out2 = b "out.arx" \/ out2 = b "out2.arx" -> separate two_told (two_asked out2) src_fs 3 [b "h"] o_src src_world None.
Proof.
  intros Ho. split; [exact src_possible|]. split; [reflexivity|]. split; [reflexivity|]. split; [apply (src_listing src_fs src_attr)|]. split; [|vm_compute; reflexivity].
  apply two_aside; [exact Ho|reflexivity|reflexivity|]. intros z [<-|[]]. now left.
Qed.
Lemma two_output : names_output two_jbk.
Proof. split; [intros m n; destruct m; now left|reflexivity]. Qed.
Lemma two_local : local two_told.
Proof. intros f g q _ _ _ _. split; reflexivity. Qed.

Lemma two_pair {A B} (x : A * B) v : snd x = v -> x = (fst x, v).
Proof. destruct x as [u w]. cbn [fst snd]. now intros ->. Qed.
Ltac two_run out2 :=
  eapply ts_more; [eapply ts_more; [eapply ts_more; [eapply ts_more; [eapply ts_more; [eapply ts_more; [eapply ts_more; [eapply ts_more; [eapply ts_more; [eapply ts_more; [apply ts_none|
    apply (tg_start two_jbk two_told (two_asked out2) src_fs [src_fs] [] o_src [b "h"] [b "h"] (b "out.arx") OneFile src_world); [reflexivity|vm_compute; reflexivity|vm_compute; reflexivity|reflexivity|reflexivity|intros k [<-|[]]; left; reflexivity]]|
    apply (tg_start two_jbk two_told (two_asked out2) src_fs [src_fs] _ (o_other out2) [b "h"] [b "h"] out2 OneFile src_world); [reflexivity|vm_compute; reflexivity|vm_compute; reflexivity|reflexivity|reflexivity|intros k [<-|[]]; right; reflexivity]]|
    apply (tg_call two_jbk two_told (two_asked out2) src_fs [src_fs] [] [mkCreation (Some (o_other out2)) [b "h"] [b "h"] OneFile [b "h"] out2 None [] []] (Some o_src) [b "h"] [b "h"] OneFile [b "h"] (b "out.arx") None [] [] (make_temp src_fs two_t1) [(two_t1, 3)] []);
      [apply (call_temp [b "h"] [b "out.arx"] None src_fs [] [] (b ".tmp7")); [intros [E|[]]; discriminate E|reflexivity]|intros q i [E|[]]; injection E as <- <-; right; intros [E|E]; discriminate E]]|
    apply (tg_call two_jbk two_told (two_asked out2) (make_temp src_fs two_t1) [make_temp src_fs two_t1; src_fs] [mkCreation (Some o_src) [b "h"] [b "h"] OneFile [b "h"] (b "out.arx") None [(two_t1, 3)] []] [] (Some (o_other out2)) [b "h"] [b "h"] OneFile [b "h"] out2 None [] [] two_fs2 [(two_t2, 4)] []);
      [apply (call_temp [b "h"] [out2] None (make_temp src_fs two_t1) [] [] (b ".tmp8")); [intros [E|[]]; discriminate E|reflexivity]|intros q i [E|[]]; injection E as <- <-; right; intros [E|E]; discriminate E]]|
    apply (tg_seal two_jbk two_told (two_asked out2) two_fs2 [two_fs2; make_temp src_fs two_t1; src_fs] [] [mkCreation (Some (o_other out2)) [b "h"] [b "h"] OneFile [b "h"] out2 None [(two_t2, 4)] []] o_src [b "h"] [b "h"] OneFile [b "h"] (b "out.arx") [(two_t1, 3)] [] two_c1 (match finalize two_c1 with Some a => a | None => demo_arx end));
      [apply (fill_alone src_world src_world _ _ src_possible) with (fuel := 3%nat); [exists src_fs; split; [right; right; now left|reflexivity]..|apply two_pair; vm_compute; reflexivity]|vm_compute; reflexivity]]|
    apply (tg_seal two_jbk two_told (two_asked out2) two_fs2 [two_fs2; make_temp src_fs two_t1; src_fs] [mkCreation (Some o_src) [b "h"] [b "h"] OneFile [b "h"] (b "out.arx") (Some two_c1) [(two_t1, 3)] []] [] (o_other out2) [b "h"] [b "h"] OneFile [b "h"] out2 [(two_t2, 4)] [] (two_c2 out2) (match finalize (two_c2 out2) with Some a => a | None => demo_arx end));
      [apply (fill_alone src_world src_world _ _ src_possible) with (fuel := 3%nat); [exists src_fs; split; [right; right; now left|reflexivity]..|apply two_pair; vm_compute; reflexivity]|vm_compute; reflexivity]]|
    apply (tg_call two_jbk two_told (two_asked out2) two_fs2 [two_fs2; make_temp src_fs two_t1; src_fs] [] [mkCreation (Some (o_other out2)) [b "h"] [b "h"] OneFile [b "h"] out2 (Some (two_c2 out2)) [(two_t2, 4)] []] (Some o_src) [b "h"] [b "h"] OneFile [b "h"] (b "out.arx") (Some two_c1) [(two_t1, 3)] [] two_fs3 [(two_t1, 3)] []);
      [apply (call_write [b "h"] [b "out.arx"] _ two_fs2 [(two_t1, 3)] [] two_t1 3); now left|intros q i E; now left]]|
    apply (tg_call two_jbk two_told (two_asked out2) two_fs3 [two_fs3; two_fs2; make_temp src_fs two_t1; src_fs] [mkCreation (Some o_src) [b "h"] [b "h"] OneFile [b "h"] (b "out.arx") (Some two_c1) [(two_t1, 3)] []] [] (Some (o_other out2)) [b "h"] [b "h"] OneFile [b "h"] out2 (Some (two_c2 out2)) [(two_t2, 4)] [] two_fs4 [(two_t2, 4)] []);
      [apply (call_write [b "h"] [out2] _ two_fs3 [(two_t2, 4)] [] two_t2 4); now left|intros q i E; now left]]|
    apply (tg_call two_jbk two_told (two_asked out2) two_fs4 [two_fs4; two_fs3; two_fs2; make_temp src_fs two_t1; src_fs] [] [mkCreation (Some (o_other out2)) [b "h"] [b "h"] OneFile [b "h"] out2 (Some (two_c2 out2)) [(two_t2, 4)] []] (Some o_src) [b "h"] [b "h"] OneFile [b "h"] (b "out.arx") (Some two_c1) [(two_t1, 3)] [] two_fs5 [] [b "out.arx"]);
      [apply (call_rename [b "h"] [b "out.arx"] _ two_fs4 [(two_t1, 3)] [] two_t1 3 (b "out.arx") (jb_bytes two_jbk OneFile (b "out.arx") two_c1)); [reflexivity|now left|now left|vm_compute; reflexivity|vm_compute; discriminate]|intros q i []]]|
    apply (tg_call two_jbk two_told (two_asked out2) two_fs5 [two_fs5; two_fs4; two_fs3; two_fs2; make_temp src_fs two_t1; src_fs] [two_x1] [] (Some (o_other out2)) [b "h"] [b "h"] OneFile [b "h"] out2 (Some (two_c2 out2)) [(two_t2, 4)] [] (two_fs6 out2) [] [out2]);
      [apply (call_rename [b "h"] [out2] _ two_fs5 [(two_t2, 4)] [] two_t2 4 out2 (jb_bytes two_jbk OneFile out2 (two_c2 out2))); [reflexivity|now left|now left|vm_compute; reflexivity|vm_compute; discriminate]|intros q i []]].
Lemma two_runs out2 : out2 = b "out.arx" \/ out2 = b "out2.arx" -> in_progress two_jbk two_told (two_asked out2) src_fs (two_end out2).
Proof.
  intros Ho. split; [exact src_given|]. split; [exact two_output|]. split.
  - intros q t m [->| ->]; destruct Ho as [->| ->]; vm_compute; discriminate.
  - destruct Ho as [->| ->]; unfold two_end; [two_run (b "out.arx")|two_run (b "out2.arx")].
Qed.

(** Without [--force], two creations to the same free output both pass the check, both succeed, and the
    archive of the first one is lost. *)
Theorem C95_race_refuted : exists J T asked f0 s x1 x2 o1 o2 k d1, in_progress J T asked f0 s /\ local T /\ tg_all s = [x1; x2] /\
  ct_opts x1 = Some o1 /\ ct_opts x2 = Some o2 /\ o_force o1 = false /\ o_force o2 = false /\ h_names f0 (ct_dir x1 ++ [k]) = None /\
  ct_dir x2 = ct_dir x1 /\ ct_temps x1 = [] /\ ct_temps x2 = [] /\
  jb_names J (ct_mode x1) (ct_name x1) = [k] /\ ct_done x1 = [k] /\ jb_names J (ct_mode x2) (ct_name x2) = [k] /\ ct_done x2 = [k] /\
  yields J x1 k d1 /\ forall q, ~ has_file (tg_fs s) q d1.
Proof.
  exists two_jbk, two_told, (two_asked (b "out.arx")), src_fs, (two_end (b "out.arx")), two_x1, (two_x2 (b "out.arx")), o_src, (o_other (b "out.arx")), (b "out.arx"), (b "xyzhello").
  split; [apply two_runs; now left|]. split; [exact two_local|]. do 13 (split; [reflexivity|]). split.
  - split; [now left|]. exists two_c1, (match finalize two_c1 with Some a => a | None => demo_arx end). repeat split; vm_compute; reflexivity.
  - intros q (i & Hn & Hd). cbn [two_end tg_fs two_fs6 two_fs5 rename_file set_name h_names h_data] in Hn, Hd. unfold two_fs4, two_fs3, two_fs2 in Hn. cbn [make_temp touch set_data bump set_name h_names h_next] in Hn.
    repeat match type of Hn with context [path_eqb' q ?p] => destruct (path_eqb' q p) end; try discriminate Hn;
      try (vm_compute in Hn; injection Hn as <-; vm_compute in Hd; discriminate Hd); try (vm_compute in Hn; discriminate Hn).
    cbn [src_fs host_of h_names] in Hn. apply lookup_in in Hn. cbn [src_names In] in Hn.
    repeat (destruct Hn as [Hn|Hn]; [try discriminate Hn; injection Hn as _ <-; vm_compute in Hd; discriminate Hd|]). destruct Hn.
Qed.
Print Assumptions C95_race_refuted.

(** Two creations at once to out.arx and out2.arx; the first one is as alone. *)
Example C95_meets_hypotheses :
  in_progress two_jbk two_told (two_asked (b "out2.arx")) src_fs (two_end (b "out2.arx")) /\ local two_told /\
  separate two_told (two_asked (b "out2.arx")) src_fs 3 [b "h"] o_src src_world None /\
  (forall y k', In y (tg_all (two_end (b "out2.arx"))) -> ct_dir y ++ [k'] = ct_dir two_x1 ++ [b "out.arx"] -> In k' (jb_names two_jbk (ct_mode y) (ct_name y)) -> y = two_x1) /\
  has_file (tg_fs (two_end (b "out2.arx"))) [b "h"; b "out.arx"] (b "xyzhello") /\ has_file (tg_fs (two_end (b "out2.arx"))) [b "h"; b "out2.arx"] (b "xyz") /\
  (exists g, create_run two_jbk 3 (world_of two_told [b "h"] src_fs) true o_src (Some (Ok tt)) g).
Proof.
  split; [apply two_runs; now right|]. split; [exact two_local|]. split; [apply two_separate; now right|]. split.
  { intros y k' [<-|[<-|[]]] E Hk; [reflexivity|]. injection E as ->. destruct Hk as [Hk|[]]. discriminate Hk. }
  split; [exists 3; split; vm_compute; reflexivity|]. split; [exists 4; split; vm_compute; reflexivity|].
  eexists. eapply (run_written two_jbk 3 src_world true o_src OneFile _ two_c1 src_world [b "h"] (b "out.arx") (mkWriting (make_temp src_fs two_t1) [(two_t1, 3)] [])).
  - vm_compute. reflexivity.
  - vm_compute. reflexivity.
  - reflexivity.
  - apply two_pair. vm_compute. reflexivity.
  - eapply calls_more; [apply calls_none|]. apply (call_temp [b "h"] [b "out.arx"] None src_fs [] [] (b ".tmp7")); [intros [E|[]]; discriminate E|reflexivity].
  - eapply calls_more; [eapply calls_more; [apply calls_none|]|].
    + apply (call_write [b "h"] [b "out.arx"] _ (make_temp src_fs two_t1) [(two_t1, 3)] [] two_t1 3 (b "xyzhello")); now left.
    + apply (call_rename [b "h"] [b "out.arx"] _ _ [(two_t1, 3)] [] two_t1 3 (b "out.arx") (jb_bytes two_jbk OneFile (b "out.arx") two_c1)); [reflexivity|now left|now left|vm_compute; reflexivity|vm_compute; discriminate].
  - right. left. split; [reflexivity|]. split; [intros k [<-|[]]; now left|reflexivity].
Qed.
