(** C91: the same bytes are stored once. *)
From Verif Require Export OnceFacts PropPython2 PropConvert.

Local Ltac bad := let H := fresh in intros H; discriminate H.

(** C91: [arx create] stores the bytes of each file, the same bytes once, and nothing else. *)
Theorem C91_create : forall fuel w can_open o evs r a, create fuel w can_open o = (evs, r) -> In (Written a) evs ->
  N.of_nat (length (a_recs a)) < 2^32 -> each_once a /\ no_stray a.
Proof.
  intros fuel w can_open o evs r a H Hin Hn.
  destruct (create_shape _ _ _ _ _ _ H) as [(-> & _)|[(m & -> & _)|(m & a' & c & w' & -> & _ & Hf & Ha & _)]]; [destruct Hin|destruct Hin as [Hin|[]]; discriminate Hin|].
  destruct Hin as [Hin|[Hin|[]]]; [discriminate Hin|]. injection Hin as ->.
  destruct (fill_session _ _ _ _ _ Hf) as (l & Hl & _). destruct (written_once c a (after_sound c l Hl) Ha Hn) as [G1 G2].
  destruct (fill_steady _ _ _ _ _ _ Hf) as [S1 S2]. split; [apply G1, S1, tidy_empty|apply G2, S2; [reflexivity|apply lean_empty]].
Qed.
Print Assumptions C91_create.

(** C91: so do tar2arx and zip2arx. *)
Theorem C91_tar : forall o input can_open evs r out a, tar_main o input can_open = (evs, r) -> In (CWritten out a) evs ->
  N.of_nat (length (a_recs a)) < 2^32 -> each_once a /\ no_stray a.
Proof.
  intros o input can_open evs r out a H Hin Hn.
  destruct (tar_main_shape _ _ _ _ _ H) as [(_ & [->|(out' & m & _ & ->)])|(_ & out' & m & items' & c & a' & _ & _ & E1 & E2 & E3 & ->)];
    [destruct Hin|destruct Hin as [Hin|[]]; discriminate Hin|].
  destruct Hin as [Hin|[Hin|[]]]; [discriminate Hin|]. injection Hin as -> ->. rewrite tar_loop in E2.
  destruct (written_once c a (loop_sound _ _ _ _ _ _ E2 sound_empty) E3 Hn) as [G1 G2].
  destruct (loop_steady _ _ tar_conv_brings _ _ _ _ E2) as [S1 S2]. split; [apply G1, S1, tidy_empty|apply G2, S2; [reflexivity|apply lean_empty]].
Qed.
Print Assumptions C91_tar.

Theorem C91_zip : forall o input reopen can_open evs r out a, zip_main o input reopen can_open = (evs, r) -> In (CWritten out a) evs ->
  N.of_nat (length (a_recs a)) < 2^32 -> each_once a /\ no_stray a.
Proof.
  intros o input reopen can_open evs r out a H Hin Hn.
  destruct (zip_main_shape _ _ _ _ _ _ H) as [(_ & [->|(m & ->)])|(_ & m & items' & c & a' & _ & E1 & E2 & E3 & ->)];
    [destruct Hin|destruct Hin as [Hin|[]]; discriminate Hin|].
  destruct Hin as [Hin|[Hin|[]]]; [discriminate Hin|]. injection Hin as _ ->. rewrite zip_loop in E2.
  destruct (written_once c a (loop_sound _ _ _ _ _ _ E2 sound_empty) E3 Hn) as [G1 G2].
  destruct (loop_steady _ _ (zip_conv_brings reopen) _ _ _ _ E2) as [S1 S2]. split; [apply G1, S1, tidy_empty|apply G2, S2; [reflexivity|apply lean_empty]].
Qed.
Print Assumptions C91_zip.

(** C91: whatever a Python program does, the archive it writes has the same bytes once; it has nothing else
    when every [add] worked. *)
Theorem C91_python : forall fuel can_open st h st' ws os a, py_new can_open = Ok st -> py_run fuel st h = (st', ws, os) -> In a ws ->
  N.of_nat (length (a_recs a)) < 2^32 ->
  each_once a /\
  (Forall2 (fun k r => forall w p rc, k = PyAdd w p rc -> r = Ok tt) h os -> no_stray a).
Proof.
  intros fuel can_open st h st' ws os a Hst Hrun Hin Hn. destruct can_open; [|discriminate Hst]. injection Hst as <-.
  destruct (py_run_once _ _ _ _ _ _ a Hrun) as (c & C1 & C2 & C3 & C4); [|exact Hin|].
  - intros c E. cbn [py_creator] in E. injection E as <-. split; [apply sound_empty|apply tidy_empty].
  - destruct (written_once c a C1 C3 Hn) as [G1 G2]. split; auto. intros HF. apply G2, C4.
    + clear -HF. induction HF as [|k r h os K HF IH]; constructor; auto. destruct k; cbn; eauto.
    + intros c0 E. cbn [py_creator] in E. injection E as <-. apply lean_empty.
Qed.
Print Assumptions C91_python.

(** C91: two files of such an archive have one content address exactly when they have the same bytes. *)
Theorem C91_addresses : forall l fetch a i j p q e f sp sq x y mp mq, small l -> archive_of l fetch a -> each_once a ->
  astored a i p (KFile sp x, mp) -> get_entry_at_idx full_builder a i = Ok e ->
  astored a j q (KFile sq y, mq) -> get_entry_at_idx full_builder a j = Ok f ->
  (py_content_address e = py_content_address f <->
   exists s, py_get_content a e = Ok s /\ py_get_content a f = Ok s).
Proof.
  intros l fetch a i j p q e f sp sq x y mp mq Hs Ha [H1 H2] Hi He Hj Hf.
  destruct (C58_attributes l fetch a i p _ e Hs Ha Hi He) as (_ & _ & _ & _ & _ & _ & K). cbn [fst] in K. destruct K as (Ke & _ & _ & Ae & _).
  destruct (C58_attributes l fetch a j q _ f Hs Ha Hj Hf) as (_ & _ & _ & _ & _ & _ & K). cbn [fst] in K. destruct K as (Kf & _ & _ & Af & _).
  rewrite Ae, Af. destruct e as [[[ce xe] ze]|[ce te]|re [ce ze]]; try discriminate Ke. destruct f as [[[cf xf] zf]|[cf tf]|rf [cf zf]]; try discriminate Kf.
  cbn [py_content_address] in Ae, Af. injection Ae as ->. injection Af as ->. cbn [py_get_content]. unfold py_content.
  destruct (H1 p x) as [d Hd]; [exists i, sp, mp; exact Hi|]. destruct (H1 q y) as [d' Hd']; [exists j, sq, mq; exact Hj|].
  rewrite Hd, Hd'. split.
  - intros E. injection E as ->. assert (d = d') as -> by congruence. eauto.
  - intros (s & E & E'). injection E as <-. injection E' as ->. f_equal. eapply H2; eauto.
Qed.
Print Assumptions C91_addresses.

(** The tree "src" with the same bytes in both files. *)
Definition twin_world (x y : bytes) : world := mkWorld (host_of src_names [x; y; []]) src_attr src_list [b "h"].
Example C91_meets_hypotheses : exists a e f,
  create 3 (twin_world (b "hello") (b "hello")) true o_src = ([Opened OneFile; Written a], Ok tt) /\
  length (a_recs a) = 4%nat /\
  py_get_entry a (b "z") = Ok e /\ py_get_entry a (b "a/f.txt") = Ok f /\ py_content_address e = py_content_address f /\
  py_get_content a f = Ok (mkStream (b "hello") 0).
Proof. do 3 eexists. repeat (split; [vm_compute; reflexivity|]). vm_compute. reflexivity. Qed.
Example C91_converters_meet :
  (exists evs a, tar_main t_opts (Ok (Some (Ok (t_items ++ [Ok (t_member TRegular (b "d/g") [] (b "hello"))])))) true = (evs, Ok tt) /\
     In (CWritten (b "x.arx") a) evs /\ length (a_recs a) = 5%nat) /\
  (exists evs a, zip_main (z_opts CNone) (Ok (Some z_items)) (Ok z_file) true = (evs, Ok tt) /\ In (CWritten (b "x.arx") a) evs /\ length (a_recs a) = 3%nat).
Proof.
  split.
  - do 2 eexists. split; [vm_compute; reflexivity|]. split; [right; left; reflexivity|reflexivity].
  - do 2 eexists. split; [vm_compute; reflexivity|]. split; [right; left; reflexivity|reflexivity].
Qed.

(** An [add] refused inside the block leaves the bytes it had read in the archive, as the content of no
    file. *)
Definition py_again : list pycall :=
  [PyEnter; PyAdd (twin_world (b "hello") (b "xyz")) (b "src") true; PyAdd (twin_world (b "hello") (b "new")) (b "src") true; PyExit false].
Theorem C91_stray_refuted : exists st ws os a x,
  py_run 3 st_fresh py_again = (st, ws, os) /\ ws = [a] /\ os = [Ok tt; Ok tt; Err EFileClash; Ok tt] /\
  a_fetch a x = Found (b "new") /\ ~ exists p, file_at a p x.
Proof.
  do 4 eexists. exists (mkAddr 1 2). split; [vm_compute; reflexivity|]. split; [reflexivity|]. split; [reflexivity|]. split; [vm_compute; reflexivity|].
  intros (p & i & size & mt & r & Hr & _ & Hn). unfold at_ in Hr. cbn [a_recs] in Hr.
  match type of Hr with (if ?t then _ else _) = _ => destruct t; [|discriminate Hr] end. apply nth_error_In in Hr. cbn [In] in Hr.
  repeat (destruct Hr as [Hr|Hr]; [subst r; discriminate Hn|]). destruct Hr.
Qed.
Print Assumptions C91_stray_refuted.
