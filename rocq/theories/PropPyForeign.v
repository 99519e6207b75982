(** C98: reading an archive that no creator wrote from Python. *)
From Verif Require Export SpecPyForeign PropHostile.
From Verif Require Import ForeignProofs PropRead PropPython PropPython2.

(** ** Looking up *)
(** An entry that get_entry gives is one that the names of the path lead to. *)
Theorem C98_get_entry_sound : forall a s e, py_get_entry a s = Ok e ->
  exists p i, stands_for s p /\ spelled a (a_root a) p i /\ get_entry_at_idx full_builder a i = Ok e.
Proof.
  intros a s e H. unfold py_get_entry in H. destruct (from_path s) as [p| | |] eqn:Ep; cbn [bind] in H; try discriminate H.
  destruct (get_entry full_builder a p) as [e0| | |] eqn:Ee; try discriminate H. injection H as ->.
  destruct (C61_sound _ _ _ full_builder a p e Ee) as (i & H1 & H2). exists (pieces p), i. split; [|auto]. apply (from_path_means s p Ep).
Qed.
Print Assumptions C98_get_entry_sound.

(** Otherwise there is an exception: it always ends. *)
Theorem C98_get_entry_ends : forall a s, (exists e, py_get_entry a s = Ok e) \/ raised (py_get_entry a s).
Proof.
  intros a s. unfold py_get_entry. destruct (from_path s) as [p|e| |] eqn:Ep; cbn [bind]; [|right; right; eexists; reflexivity|right; now left|].
  - destruct (pieces p) as [|n ps] eqn:En.
    + unfold get_entry. rewrite iter_pieces, En. right. now left.
    + destruct (C61_total a p) as [(e & ->)|[-> |[-> |[-> _]]]]; [rewrite En; discriminate|left; eexists; reflexivity|right; right; eexists; reflexivity|right; right; eexists; reflexivity|right; now left].
  - exfalso. destruct s as [|c s]; [discriminate Ep|]. unfold from_path in Ep. destruct (is_sep c); [discriminate Ep|]. destruct (forallb _ _); discriminate Ep.
Qed.
Print Assumptions C98_get_entry_ends.

(** ** Iterating *)
(** A loop over the archive or a directory gets the entries of its range one after the other; then, the
    end or an exception, for ever the same however often it is called again. *)
Theorem C98_iterate : forall a it, fst it <= snd it -> exists es r,
  (forall j e, nth_error es j = Some e -> get_entry_at_idx full_builder a (fst it + N.of_nat j) = Ok e) /\
  (forall n, py_nexts a (length es + n) it = map (fun e => Ok (Some e)) es ++ repeat r n) /\
  ((r = Ok None /\ N.of_nat (length es) = snd it - fst it) \/
   (raised r /\ N.of_nat (length es) < snd it - fst it /\ (within a -> snd it <= N.of_nat (length (a_recs a)) -> r = Err EBadVariant))).
Proof.
  intros a [lo hi] H. cbn [fst snd] in *. remember (N.to_nat (hi - lo)) as k eqn:Ek. revert lo H Ek.
  induction k as [|k IH]; intros lo H Ek.
  - assert (lo = hi) as -> by lia. exists [], (Ok None). split; [intros [|j] e E; discriminate E|]. split; [|left; split; [reflexivity|cbn; lia]].
    intros n. cbn [length Nat.add map app]. induction n as [|n IHn]; [reflexivity|]. cbn [py_nexts repeat]. unfold py_next at 1. cbn [fst snd]. rewrite N.eqb_refl. now rewrite IHn.
  - assert (Hlt : lo < hi) by lia. assert (Ene : lo =? hi = false) by (apply N.eqb_neq; lia).
    assert (Stuck : forall r, py_next a (lo, hi) = ((lo, hi), r) -> forall n, py_nexts a n (lo, hi) = repeat r n).
    { intros r Hr n. induction n as [|n IHn]; [reflexivity|]. cbn [py_nexts repeat]. rewrite Hr. now rewrite IHn. }
    unfold py_next in Stuck. cbn [fst snd] in Stuck. rewrite Ene in Stuck. unfold get_entry_at_idx in Stuck.
    pose proof (full_entry_cases a lo) as Hcase.
    destruct (create_entry full_builder a lo) as [e|x| |] eqn:Ee.
    + destruct (IH (lo + 1)) as (es & r & H1 & H2 & H3); [lia|lia|]. exists (e :: es), r. split; [|split].
      * intros [|j] e' E; cbn [nth_error] in E.
        -- injection E as <-. rewrite N.add_0_r. exact Ee.
        -- replace (lo + N.of_nat (S j)) with (lo + 1 + N.of_nat j) by lia. now apply H1.
      * intros n. cbn [length Nat.add map app py_nexts]. unfold py_next at 1. cbn [fst snd]. rewrite Ene. unfold get_entry_at_idx. rewrite Ee. cbn [fst snd]. now rewrite H2.
      * cbn [length]. destruct H3 as [[-> H3]|(Hr & H3 & H4)]; [left; split; [reflexivity|lia]|right; split; [exact Hr|]; split; [lia|exact H4]].
    + exists [], (Err x). split; [intros [|j] e E; discriminate E|]. split; [intros n; apply Stuck; reflexivity|]. right. split; [right; eexists; reflexivity|]. split; [cbn; lia|].
      intros _ _. now rewrite Hcase.
    + exists [], Panic. split; [intros [|j] e E; discriminate E|]. split; [intros n; apply Stuck; reflexivity|]. right. split; [now left|]. split; [cbn; lia|].
      intros Hw Hhi. exfalso. destruct Hcase as [Hn|(r & Hr & Hp & Hz)].
      * destruct (ForeignProofs.at_some a lo) as [r Hr]; [lia|]. rewrite Hn in Hr. discriminate Hr.
      * apply ForeignProofs.at_in in Hr as [Hr _]. pose proof (wi_parent a Hw r Hr) as Hb. unfold as_u32 in Hz. rewrite N.mod_small in Hz by exact Hb. now apply Hp.
    + elim Hcase.
Qed.
Print Assumptions C98_iterate.

(** ** An entry *)
(** Its attributes are those of its record. *)
Theorem C98_attributes : forall a i e, get_entry_at_idx full_builder a i = Ok e -> exists r,
  at_ (a_recs a) i = Some r /\ py_idx e = i /\
  (if utf8 (r_name r) then py_path e = Ok (r_name r) else raised (py_path e)) /\
  py_owner e = r_owner r mod 2^32 /\ py_group e = r_group r mod 2^32 /\ py_rights e = r_rights r mod 2^8 /\ py_mtime e = r_mtime r /\
  match r_payload r with
  | RFile x _ => py_is_file e = true /\ py_content_address e = Ok x /\
      match a_fetch a x with
      | Found data => exists st, py_get_content a e = Ok st /\ stream_size st = N.of_nat (length data) /\ snd (stream_read st (stream_size st)) = data
      | _ => raised (py_get_content a e)
      end
  | RDir f n => py_is_dir e = true /\ py_first_child e = Ok (f mod 2^32) /\ py_nb_children e = Ok (n mod 2^32) /\
      (f mod 2^32 + n mod 2^32 < 2^32 -> py_iter_entry e = Ok (f mod 2^32, f mod 2^32 + n mod 2^32)) /\ raised (py_get_content a e)
  | RLink t => py_is_link e = true /\ py_get_target e = Ok t /\ raised (py_get_content a e) /\ raised (py_iter_entry e)
  | RBad _ => False
  end.
Proof.
  intros a i e H. unfold get_entry_at_idx, create_entry, rec_at in H. destruct (at_ (a_recs a) i) as [r|] eqn:Er; cbn [bind] in H; [|discriminate H].
  exists r. split; [reflexivity|].
  assert (K : forall c, create_common i r = Ok c -> c_idx c = i /\ c_path c = r_name r /\ c_owner c = r_owner r mod 2^32 /\ c_group c = r_group r mod 2^32 /\ c_rights c = r_rights r mod 2^8 /\ c_mtime c = r_mtime r).
  { unfold create_common. intros c Hc. destruct (if r_parent r =? 0 then _ else _) as [p| | |]; cbn [bind] in Hc; try discriminate Hc. injection Hc as <-. repeat split. }
  assert (Kp : forall c e0, e_common e0 = c -> c_path c = r_name r -> if utf8 (r_name r) then py_path e0 = Ok (r_name r) else raised (py_path e0)).
  { intros c e0 <- E. unfold py_path. rewrite E. cbv zeta. destruct (utf8 (r_name r)); [reflexivity|now left]. }
  assert (Te : forall A, raised (@type_error A)) by (intros A; right; eexists; reflexivity).
  destruct (r_payload r) as [x sz|f n|t|v] eqn:Ep; cbn [full_builder b_file b_link b_dir] in H; [| | |discriminate H];
    (destruct (create_common i r) as [c| | |]; cbn [bind] in H; try discriminate H; rewrite Ep in H; cbn [bind] in H; injection H as <-;
     destruct (K c eq_refl) as (K1 & K2 & K3 & K4 & K5 & K6); unfold py_idx, py_owner, py_group, py_rights, py_mtime; cbn [e_common];
     split; [exact K1|]; split; [apply (Kp c); [reflexivity|exact K2]|]; split; [exact K3|]; split; [exact K4|]; split; [exact K5|]; split; [exact K6|]).
  - split; [reflexivity|]. split; [reflexivity|]. cbn [py_get_content]. unfold py_content. destruct (a_fetch a x) as [data| | |].
    + eexists. split; [reflexivity|]. split; [reflexivity|]. unfold stream_read, stream_left, stream_size; cbn [sm_data sm_pos snd]. rewrite N.sub_0_r, N.min_id, Nat2N.id. cbn [N.to_nat skipn]. apply firstn_all.
    + right. eexists. reflexivity.
    + now left.
    + now left.
  - split; [reflexivity|]. split; [reflexivity|]. split; [reflexivity|]. split; [reflexivity|apply Te].
  - split; [reflexivity|]. split; [reflexivity|]. split; apply Te.
Qed.
Print Assumptions C98_attributes.

Lemma entry_parent a i e : get_entry_at_idx full_builder a i = Ok e ->
  exists r, at_ (a_recs a) i = Some r /\ c_parent (e_common e) = if r_parent r =? 0 then None else Some (as_u32 (r_parent r) - 1).
Proof.
  intros H. unfold get_entry_at_idx, create_entry, rec_at in H. destruct (at_ (a_recs a) i) as [r|] eqn:Er; cbn [bind] in H; [|discriminate H].
  exists r. split; [reflexivity|].
  assert (K : forall c, create_common i r = Ok c -> c_parent c = if r_parent r =? 0 then None else Some (as_u32 (r_parent r) - 1)).
  { unfold create_common. intros c Hc. destruct (r_parent r =? 0); cbn [bind] in Hc; [injection Hc as <-; reflexivity|]. destruct (as_u32 (r_parent r) =? 0); cbn [bind] in Hc; [discriminate Hc|]. injection Hc as <-. reflexivity. }
  destruct (r_payload r) as [x sz|f n|t|v] eqn:Ep; cbn [full_builder b_file b_link b_dir] in H; [| | |discriminate H];
    (destruct (create_common i r) as [c| | |]; cbn [bind] in H; try discriminate H; rewrite Ep in H; cbn [bind] in H; injection H as <-; now apply K).
Qed.

(** ** Going up *)
(** When parents come first in the table, going up comes to an end. *)
Theorem C98_parents : forall a i e, upward a -> get_entry_at_idx full_builder a i = Ok e ->
  exists k, (k <= S (N.to_nat i))%nat /\ (py_parents a k e = Ok None \/ raised (py_parents a k e)).
Proof.
  intros a i e Hup. remember (N.to_nat i) as n eqn:En. revert i e En. induction n as [n IH] using lt_wf_ind. intros i e En H.
  destruct (entry_parent a i e H) as (r & Hr & Hp). destruct (r_parent r =? 0) eqn:E0.
  - exists 1%nat. split; [lia|]. left. cbn [py_parents]. unfold py_parent. rewrite Hp. reflexivity.
  - apply N.eqb_neq in E0. pose proof (Hup i r Hr E0) as Hlt. set (j := as_u32 (r_parent r) - 1) in *.
    destruct (get_entry_at_idx full_builder a j) as [e'|x| |] eqn:Ej.
    + destruct (IH (N.to_nat j)) with (i := j) (e := e') as (k & Hk & Hres); [lia|reflexivity|exact Ej|]. exists (S k). split; [lia|].
      cbn [py_parents]. unfold py_parent. rewrite Hp, Ej. cbn [bind]. exact Hres.
    + exists 1%nat. split; [lia|]. right. cbn [py_parents]. unfold py_parent. rewrite Hp, Ej. right. eexists. reflexivity.
    + exists 1%nat. split; [lia|]. right. cbn [py_parents]. unfold py_parent. rewrite Hp, Ej. now left.
    + exfalso. pose proof (full_entry_cases a j) as Hc. unfold get_entry_at_idx in Ej. now rewrite Ej in Hc.
Qed.
Print Assumptions C98_parents.

(** ** The README's recursive walk *)
Lemma forward_walk a : within a -> forward a -> forall fuel root lo hi, lo <= hi -> hi <= N.of_nat (length (a_recs a)) ->
  (N.to_nat (N.of_nat (length (a_recs a)) - lo) < fuel)%nat -> py_walk fuel a root (lo, hi) <> Diverge.
Proof.
  intros Hw Hf. induction fuel as [|k IH]; intros root lo hi H1 H2 H3; [lia|]. cbn [py_walk]. unfold py_next. cbn [fst snd].
  destruct (lo =? hi) eqn:E; [discriminate|]. apply N.eqb_neq in E.
  pose proof (full_entry_cases a lo) as Hc. unfold get_entry_at_idx. destruct (create_entry full_builder a lo) as [e|x| |] eqn:Ee; try discriminate; [|elim Hc].
  assert (Next : py_walk k a root (lo + 1, hi) <> Diverge) by (apply IH; lia).
  unfold py_path. cbv zeta. destruct (utf8 _); cbn [bind]; [|discriminate].
  match goal with |- bind ?x _ <> Diverge => assert (Hx : x <> Diverge) end.
  { destruct e as [[[c x] sz]|[c t]|rg [c rg2]]; cbn [py_is_file py_is_dir py_get_content py_get_target py_nb_children py_iter_entry bind].
    - unfold py_content. destruct (a_fetch a x); cbn [bind]; discriminate.
    - discriminate.
    - destruct Hc as (r & f & n & R1 & R2 & ->). cbn [fst snd].
      match goal with |- bind ?y _ <> Diverge => assert (Hy : y <> Diverge); [|destruct y; cbn [bind]; try discriminate; exact Hy] end.
      destruct (N.eq_dec (as_u32 n) 0) as [Z|Z].
      + destruct k as [|k]; [lia|]. rewrite Z, N.add_0_r. cbn [py_walk]. unfold py_next. cbn [fst snd]. rewrite N.eqb_refl. discriminate.
      + apply IH; [lia| |].
        * apply (wi_dir a Hw r); auto. now apply ForeignProofs.at_in in R1.
        * pose proof (Hf lo r f n R1 R2 Z). apply ForeignProofs.at_in in R1 as [R0 _]. pose proof (wi_dir a Hw r f n R0 R2). lia. }
  match goal with |- bind ?x _ <> Diverge => destruct x; cbn [bind]; try discriminate; [|exact Hx] end.
  destruct (py_walk k a root (lo + 1, hi)); cbn [bind]; try discriminate. exact Next.
Qed.

(** It ends when directories lead forward in the table. *)
Theorem C98_walk_ends : forall a fuel, within a -> forward a -> (length (a_recs a) < fuel)%nat -> py_walk fuel a [] (py_iter a) <> Diverge.
Proof. intros a fuel Hw Hf Hk. apply (forward_walk a Hw Hf); [lia|exact (wi_root a Hw)|lia]. Qed.
Print Assumptions C98_walk_ends.

(** Every archive a creator writes is such a table. *)
Theorem C98_creator_tables : forall l fetch a, small l -> archive_of l fetch a -> within a /\ forward a /\ upward a.
Proof.
  intros l fetch a Hs Ha. destruct (C62_creator_tables l fetch a Hs Ha) as [H1 H2]. split; [exact H1|]. split; [exact H2|].
  destruct (archive_ok l fetch a Hs Ha) as (m & _ & _ & _ & Hw & _). intros i r Hr Hp.
  destruct (wf_parent a Hw i r Hr) as [E|(j & rj & f & n & E & Hj & _)]; [now destruct Hp|].
  apply ForeignProofs.at_in in Hr as [_ Hb]. pose proof (wf_size a Hw). unfold as_u32. rewrite N.mod_small by lia. lia.
Qed.
Print Assumptions C98_creator_tables.

(** ** What does not hold *)
(** A directory that contains itself: the walk never ends. *)
Theorem C98_own_child_refuted : within loop_arx /\ forall fuel, py_walk fuel loop_arx [] (py_iter loop_arx) = Diverge.
Proof.
  split.
  - constructor.
    + cbn. lia.
    + intros r f n [<-|[]] Hp. cbn in Hp. injection Hp as <- <-. vm_compute. discriminate.
    + intros r [<-|[]]. reflexivity.
  - intros fuel. change (py_iter loop_arx) with (0, 1). generalize (@nil byte) as root. induction fuel as [|k IH]; intros root; [reflexivity|]. cbn [py_walk]. unfold py_next. cbn [fst snd]. change (0 =? 1) with false.
    unfold get_entry_at_idx. change (create_entry full_builder loop_arx 0) with (Ok (GDir (0, 1) (mkCommon 0 (b "d") None 0 0 0 0, (0, 1))) : res full_entry).
    cbv beta iota. cbn [py_is_file py_is_dir py_nb_children py_iter_entry fst snd bind]. unfold py_path. cbn [e_common c_path]. cbv zeta. change (utf8 (b "d")) with true. cbv iota. cbn [bind].
    change (0 + 1) with 1. now rewrite IH.
Qed.
Print Assumptions C98_own_child_refuted.

(** An entry that is its own parent: going up never ends. *)
Definition self_arx : archive := mkArchive [mkRec (b "d") 1 0 0 0 0 (RDir 0 0)] (0, 1) (0, 1) (fun _ => NoContent).
Theorem C98_own_parent_refuted : within self_arx /\ exists e, py_get_entry self_arx (b "d") = Ok e /\ forall k, py_parents self_arx k e = Ok (Some e).
Proof.
  split.
  - constructor.
    + cbn. lia.
    + intros r f n [<-|[]] Hp. cbn in Hp. injection Hp as <- <-. vm_compute. discriminate.
    + intros r [<-|[]]. reflexivity.
  - eexists. split; [vm_compute; reflexivity|]. intros k. set (e := GDir _ _).
    assert (E : py_parent self_arx e = Ok (Some e)) by (vm_compute; reflexivity).
    clearbody e. induction k as [|k IH]; [reflexivity|]. cbn [py_parents]. rewrite E. cbn [bind]. exact IH.
Qed.
Print Assumptions C98_own_parent_refuted.

(** A program that catches the exception of a record it cannot read and goes on iterating never gets
    past it: the entries after it are out of reach, although get_entry finds them. *)
Definition half_arx : archive :=
  mkArchive [mkRec (b "a") 0 0 0 0 0 (RBad 9); mkRec (b "x") 0 0 0 0 0 (RFile (mkAddr 0 0) 3)] (0, 2) (0, 2) (fun _ => Found (b "xyz")).
Theorem C98_skipping_refuted : within half_arx /\ exists e, py_get_entry half_arx (b "x") = Ok e /\
  forall n, ~ In (Ok (Some e)) (py_nexts half_arx n (py_iter half_arx)).
Proof.
  split.
  - constructor.
    + cbn. lia.
    + intros r f n [<-|[<-|[]]] Hp; cbn in Hp; discriminate Hp.
    + intros r [<-|[<-|[]]]; reflexivity.
  - eexists. split; [vm_compute; reflexivity|]. intros n.
    assert (E : py_next half_arx (py_iter half_arx) = (py_iter half_arx, Err EBadVariant)) by (vm_compute; reflexivity).
    induction n as [|n IH]; [intros []|]. cbn [py_nexts]. rewrite E. intros [H|H]; [discriminate H|]. exact (IH H).
Qed.
Print Assumptions C98_skipping_refuted.

(** The table of C61 with names in no order, and one with a directory shared by two. *)
Example C98_meets_hypotheses : within shared_arx /\ forward shared_arx /\ upward demo_arx /\
  (exists e e', get_entry_at_idx full_builder demo_arx 4 = Ok e /\ py_parents demo_arx 2 e = Ok (Some e') /\ py_parents demo_arx 3 e = Ok None) /\
  (exists l, py_walk 9 shared_arx [] (py_iter shared_arx) = Ok l /\ length l = 4%nat) /\
  (exists e, get_entry_at_idx full_builder half_arx 1 = Ok e) /\ fst (py_iter half_arx) <= snd (py_iter half_arx).
Proof.
  destruct C62_meets_hypotheses as (_ & _ & H1 & H2 & _). split; [exact H1|]. split; [exact H2|].
  split.
  { intros i r Hi Hp. pose proof Hi as Hb. apply ForeignProofs.at_in in Hb as [_ Hb]. change (N.of_nat (length (a_recs demo_arx))) with 5 in Hb.
    assert (Hc : i = 0 \/ i = 1 \/ i = 2 \/ i = 3 \/ i = 4) by lia.
    destruct Hc as [-> |[-> |[-> |[-> | ->]]]]; vm_compute in Hi; injection Hi as <-; vm_compute in Hp |- *; try reflexivity; now destruct Hp. }
  split; [eexists; eexists; split; [vm_compute; reflexivity|]; split; vm_compute; reflexivity|].
  split; [eexists; split; vm_compute; reflexivity|]. split; [eexists; vm_compute; reflexivity|]. vm_compute. discriminate.
Qed.
