(** C75: what [arx list] and [arx dump] print, and the status they exit with. *)
From Verif Require Export OutputFacts Demo PropList PropCli.

(** The first bytes of a text: all of it when there is no limit. *)
Definition first_bytes (room : option nat) (x : bytes) : bytes := match room with None => x | Some n => firstn n x end.

Lemma start_ok room : held_ok (mkPrinter [] room [] []).
Proof. split; [split; [cbn; lia|intros []]|cbn; lia]. Qed.

Lemma app_first (x y z : bytes) n : x ++ y = z -> length x = n -> x = firstn n z.
Proof. intros <- <-. rewrite firstn_app, firstn_all, Nat.sub_diag. cbn. now rewrite app_nil_r. Qed.

(** Everything about a run. *)
Lemma process_spec dv bu cs r x e : process dv bu cs r = (x, e) -> r <> Diverge ->
  x = first_bytes (dv_room dv) (concat cs) /\
  ((e = exit_of r /\ x = concat cs) \/
   (e = Signal 13 /\ dv_pipe dv = true /\ x <> concat cs) \/
   (e = Exits 1 /\ dv_pipe dv = false /\ x <> concat cs) \/
   (e = exit_of r /\ dv_pipe dv = false /\ exists rest, concat cs = x ++ rest /\ rest <> [] /\
      (length rest <= (if bu then line_cap + buf_cap else line_cap))%nat /\ (bu = false -> ~ In 10 rest))).
Proof.
  unfold process. set (p0 := mkPrinter [] (dv_room dv) [] []).
  destruct (print_all_wrote bu cs p0 (start_ok _) (fun _ => eq_refl)) as (A & B).
  destruct (print_all bu p0 cs) as [p ok]. cbn [fst snd] in *. destruct A as (G & s & E & A). cbn [p0 pr_sent app] in E. change (all_held p0) with (@nil N) in A. cbn [app] in A.
  intros H Hr.
  assert (H' : (let (q, ok') := drop_all p in if dv_pipe dv && negb (ok && ok') then (pr_sent q, Signal 13) else (pr_sent q, if ok then exit_of r else Exits 1)) = (x, e)).
  { destruct r, ok; try exact H; now destruct Hr. }
  clear H. destruct ok.
  - destruct (B eq_refl) as (Hok & Hbu). pose proof (drop_wrote p Hok) as D. destruct (drop_all p) as [q ok']. cbn [andb] in H'.
    destruct D as (G' & s' & rest & E' & D' & D). rewrite E in E'. rewrite D' in A. rewrite <- A. clear A.
    assert (GG : gave p0 q) by (eapply gave_trans; eauto).
    destruct ok'.
    + subst rest. rewrite andb_false_r in H'. injection H' as <- <-. rewrite app_nil_r, E'. split; [|left; auto].
      unfold first_bytes. destruct (dv_room dv) as [n|] eqn:En; auto. unfold gave in GG. cbn [p0 pr_room pr_sent length Nat.add] in GG.
      destruct (pr_room q) as [r'|]; [|destruct GG]. rewrite E' in GG. rewrite firstn_all2; auto. lia.
    + destruct D as (Hrest & R). cbn [negb] in H'. rewrite andb_true_r in H'.
      assert (Hx : x = s ++ s') by (destruct (dv_pipe dv); injection H' as <- _; exact E').
      assert (Hne : x <> s ++ s' ++ rest).
      { rewrite Hx. intros K. apply (f_equal (@length N)) in K. rewrite !app_length in K. destruct rest; [easy|cbn [length] in K; lia]. }
      split.
      * unfold gave in GG. cbn [p0 pr_room pr_sent length Nat.add] in GG. rewrite R in GG. destruct (dv_room dv) as [n|]; [|destruct GG]. cbn [first_bytes]. subst x.
        eapply app_first; [now rewrite <- app_assoc|]. rewrite E' in GG. lia.
      * destruct (dv_pipe dv); injection H' as H1 H2; [right; left; auto|]. right. right. right. split; auto. split; auto. exists rest.
        rewrite Hx, <- app_assoc. split; auto. split; auto.
        assert (K : incl rest (all_held p) /\ (length rest <= length (all_held p))%nat).
        { rewrite D'. split; [intros c Hc; apply in_app_iff; now right|rewrite app_length; lia]. }
        destruct K as [K1 K2]. unfold all_held in K1, K2. destruct Hok as [[L1 L2] L3]. rewrite app_length in K2. destruct bu.
        -- split; [lia|discriminate].
        -- rewrite (Hbu eq_refl) in *. rewrite app_nil_r in K1. cbn [length] in K2. split; [lia|]. intros _ Hc. apply L2, K1, Hc.
  - destruct A as (R & rest & Hrest & A). pose proof (drop_full p R) as D. destruct (drop_all p) as [q ok']. cbn [fst] in D. cbn [andb negb] in H'. rewrite andb_true_r in H'.
    assert (Hx : x = s) by (destruct (dv_pipe dv); injection H' as <- _; congruence). idtac.
    assert (Hne : x <> concat cs).
    { rewrite Hx, A. intros K. apply (f_equal (@length N)) in K. rewrite app_length in K. destruct rest; [easy|cbn [length] in K; lia]. }
    split.
    + unfold gave in G. cbn [p0 pr_room pr_sent length Nat.add] in G. rewrite R in G. destruct (dv_room dv) as [n|]; [|destruct G]. cbn [first_bytes]. subst x.
      eapply app_first; [now rewrite A|]. rewrite E in G. lia.
    + destruct (dv_pipe dv); injection H' as H1 H2; [right; left; auto|]. right. right. left. auto.
Qed.

(** Whatever the buffers and the sizes of the writes, the device gets the first bytes of the text, as many
    as it takes: nothing is lost, repeated or reordered before. *)
Theorem C75_delivered : forall dv bu cs r x e, process dv bu cs r = (x, e) -> r <> Diverge -> x = first_bytes (dv_room dv) (concat cs).
Proof. intros dv bu cs r x e H Hr. apply (process_spec _ _ _ _ _ _ H Hr). Qed.
Print Assumptions C75_delivered.

(** With room for it the whole text is delivered, and the status is the command's. *)
Theorem C75_enough : forall dv bu cs r, r <> Diverge -> (forall n, dv_room dv = Some n -> (length (concat cs) <= n)%nat) ->
  process dv bu cs r = (concat cs, exit_of r).
Proof.
  intros dv bu cs r Hr Hn. destruct (process dv bu cs r) as [x e] eqn:E. destruct (process_spec _ _ _ _ _ _ E Hr) as [Hx H].
  assert (Hall : x = concat cs).
  { rewrite Hx. unfold first_bytes. destruct (dv_room dv) as [n|]; auto. apply firstn_all2. now apply Hn. }
  destruct H as [[-> _]|[(_ & _ & H)|[(_ & _ & H)|(_ & _ & rest & H & H' & _)]]]; try contradiction; [now rewrite Hall|].
  exfalso. rewrite Hall in H. rewrite <- (app_nil_r (concat cs)) in H at 1. apply app_inv_head in H. congruence.
Qed.
Print Assumptions C75_enough.

(** Into a pipe: success means that the reader got everything; a reader that leaves early ends the
    process by a signal (as [arx list | head] should). *)
Theorem C75_pipe : forall dv bu cs r x e, process dv bu cs r = (x, e) -> r <> Diverge -> dv_pipe dv = true ->
  (x = concat cs /\ e = exit_of r) \/ (x <> concat cs /\ e = Signal 13).
Proof.
  intros dv bu cs r x e H Hr Hp. destruct (process_spec _ _ _ _ _ _ H Hr) as [_ [[-> Hx]|[(-> & _ & Hx)|[(_ & K & _)|(_ & K & _)]]]]; auto; congruence.
Qed.
Print Assumptions C75_pipe.

(** Into a file: a failure of a command that did not fail itself means that something is missing; success
    means that at most what the buffers hold is missing. *)
Theorem C75_status : forall dv bu cs r x e, process dv bu cs r = (x, e) -> r <> Diverge -> dv_pipe dv = false ->
  (r = Ok tt -> e <> Exits 0 -> e = Exits 1 /\ x <> concat cs) /\
  (e = Exits 0 -> r = Ok tt /\ exists rest, concat cs = x ++ rest /\ N.of_nat (length rest) <= (if bu then 9216 else 1024) /\ (bu = false -> ~ In 10 rest)).
Proof.
  assert (Hcap : N.of_nat (line_cap + buf_cap) = 9216 /\ N.of_nat line_cap = 1024) by (split; vm_compute; reflexivity).
  intros dv bu cs r x e H Hr Hp. destruct (process_spec _ _ _ _ _ _ H Hr) as [_ [[-> Hx]|[(_ & K & _)|[(-> & _ & Hx)|(-> & _ & rest & E & _ & Hl & Hn)]]]].
  - split; [intros -> K; now destruct K|]. intros K. split; [destruct r as [[]| | |]; easy|]. exists []. rewrite app_nil_r. split; auto. split; [destruct bu; cbn; discriminate|]. intros _ [].
  - congruence.
  - split; [auto|discriminate].
  - split; [intros -> K; now destruct K|]. intros K. split; [destruct r as [[]| | |]; easy|]. exists rest. split; auto. split; auto. destruct Hcap. destruct bu; lia.
Qed.
Print Assumptions C75_status.

(** In particular [arx dump] that exits with 0 delivered every complete line. *)
Theorem C75_dump_lines : forall dv l fetch a s n addr m data output w cs x, small l -> archive_of l fetch a -> pieces s <> [] ->
  output = None \/ output = Some (b "-") -> has l (pieces s) (KFile n addr, m) -> fetch addr = Found data ->
  concat cs = fst (dump w a s output) -> process dv false cs (snd (dump w a s output)) = (x, Exits 0) ->
  exists rest, data = x ++ rest /\ N.of_nat (length rest) <= 1024 /\ ~ In 10 rest /\ (dv_pipe dv = true -> rest = []).
Proof.
  intros dv l fetch a s n addr m data output w cs x Hs Ha Hne Ho Hh Hd Hcs H. rewrite (C44_dump_file w l fetch a s n addr m data output) in Hcs, H by auto. cbn [fst snd] in *.
  rewrite <- Hcs. destruct (dv_pipe dv) eqn:Ep.
  - destruct (C75_pipe _ _ _ _ _ _ H) as [[-> _]|[_ K]]; [discriminate|exact Ep| |discriminate K]. exists []. rewrite app_nil_r. cbn [length In]. repeat split; auto; lia.
  - destruct (C75_status _ _ _ _ _ _ H) as [_ K]; [discriminate|exact Ep|]. destruct (K eq_refl) as (_ & rest & E & L & N). exists rest. repeat split; auto. discriminate.
Qed.
Print Assumptions C75_dump_lines.

(** And a reader of [arx list] that sees a success through a pipe has the paths of all entries. *)
Theorem C75_list_piped : forall dv l fetch a cs x, small l -> archive_of l fetch a -> dv_pipe dv = true ->
  concat cs = fst (list_cmd a None) -> process dv true cs (snd (list_cmd a None)) = (x, Exits 0) ->
  exists ps, StronglySorted path_lt (map fst ps) /\ (forall p nd, In (p, nd) ps <-> has l p nd) /\ x = text (map (fun y => join (fst y)) ps).
Proof.
  intros dv l fetch a cs x Hs Ha Hp Hcs H. destruct (C42_plain_listing l fetch a Hs Ha) as (ps & H1 & H2 & E). rewrite E in Hcs, H. cbn [fst snd] in *.
  destruct (C75_pipe _ _ _ _ _ _ H) as [[-> _]|[_ K]]; [discriminate|exact Hp| |discriminate K]. exists ps. auto.
Qed.
Print Assumptions C75_list_piped.

(** But success is no proof that anything was written: on a full device, [arx list] prints nothing and
    exits with 0 (the buffer is never flushed explicitly), and so does [arx dump] for a short file
    without a newline. *)
Theorem C75_full_device_refuted :
  let full := mkDevice (Some O) false in
  fst (list_cmd demo_arx None) <> [] /\ process full true [fst (list_cmd demo_arx None)] (snd (list_cmd demo_arx None)) = ([], Exits 0) /\
  fst (dump src_world demo_arx (b "a/b/f.txt") None) = b "hello" /\
  process full false [b "hello"] (snd (dump src_world demo_arx (b "a/b/f.txt") None)) = ([], Exits 0).
Proof. cbv zeta. split; [vm_compute; discriminate|]. split; [vm_compute; reflexivity|]. split; vm_compute; reflexivity. Qed.
Print Assumptions C75_full_device_refuted.

Example C75_meets_hypotheses :
  (* cut in the middle of a line, into a pipe and into a file *)
  process (mkDevice (Some 4%nat) true) false [b "one"; [10]; b "two"; [10]] (Ok tt) = (b "one" ++ [10], Signal 13) /\
  process (mkDevice (Some 5%nat) false) false [b "one"; [10]; b "two"; [10]] (Ok tt) = (b "one" ++ [10] ++ b "t", Exits 1) /\
  process (mkDevice None false) true [b "one"; [10]; b "two"; [10]] (Err EFoundDir) = (b "one" ++ [10] ++ b "two" ++ [10], Exits 1) /\
  archive_of demo demo_fetch demo_arx /\ has demo (pieces (b "a/b/f.txt")) (KFile 5 (mkAddr 1 0), d_meta).
Proof. split; [vm_compute; reflexivity|]. split; [vm_compute; reflexivity|]. split; [vm_compute; reflexivity|]. split; [exact demo_built|]. apply C44_meets_hypotheses. Qed.
