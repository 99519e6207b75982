(** The writers lose nothing before the device is full. *)
From Verif Require Export Output ListSession.

Definition gave (p p' : printer) : Prop :=
  match pr_room p, pr_room p' with
  | None, None => True
  | Some r, Some r' => (length (pr_sent p) + r = length (pr_sent p') + r')%nat
  | _, _ => False
  end.
Lemma gave_refl p : gave p p.
Proof. unfold gave. destruct (pr_room p); auto. Qed.
Lemma gave_trans p q r : gave p q -> gave q r -> gave p r.
Proof. unfold gave. destruct (pr_room p), (pr_room q), (pr_room r); try easy; lia. Qed.

(** From [p], the text [x] was written after what was held, giving [p'].  [held] says what is held. *)
Definition wrote (held : printer -> bytes) (p : printer) (x : bytes) (o : printer * bool) : Prop :=
  let (p', ok) := o in
  gave p p' /\ exists sent, pr_sent p' = pr_sent p ++ sent /\
  if ok then sent ++ held p' = held p ++ x
  else pr_room p' = Some O /\ exists rest, rest <> [] /\ held p ++ x = sent ++ rest.

Lemma wrote_more held p x y p1 o : wrote held p x (p1, true) -> wrote held p1 y o -> wrote held p (x ++ y) o.
Proof.
  intros (G1 & s1 & E1 & H1) H2. destruct o as [p2 ok]. destruct H2 as (G2 & s2 & E2 & H2). split; [eapply gave_trans; eauto|].
  exists (s1 ++ s2). split; [rewrite E2, E1; now rewrite app_assoc|]. destruct ok.
  - rewrite <- app_assoc, H2, app_assoc, H1. now rewrite <- !app_assoc.
  - destruct H2 as (R & rest & Hr & H2). split; auto. exists rest. split; auto. rewrite <- app_assoc, <- H2, !app_assoc. now rewrite H1.
Qed.
Lemma wrote_less held p x y p1 : wrote held p x (p1, false) -> wrote held p (x ++ y) (p1, false).
Proof.
  intros (G1 & s & E & R & rest & Hr & H2). split; auto. exists s. split; auto. split; auto. exists (rest ++ y). split; [destruct rest; easy|].
  rewrite app_assoc, H2. now rewrite <- app_assoc.
Qed.
Lemma wrote_nothing held p q : gave p q -> pr_sent q = pr_sent p -> forall x, held q = held p ++ x -> wrote held p x (q, true).
Proof. intros G E x H. split; auto. exists []. rewrite app_nil_r. auto. Qed.

Lemma send_wrote p x : let (p', ok) := send p x in gave p p' /\ pr_line p' = pr_line p /\ pr_buf p' = pr_buf p /\
  exists sent, pr_sent p' = pr_sent p ++ sent /\
  if ok then sent = x else pr_room p' = Some O /\ exists rest, rest <> [] /\ x = sent ++ rest.
Proof.
  unfold send, gave. destruct (pr_room p) as [r|] eqn:E; cbn [pr_sent pr_room pr_line pr_buf]; rewrite ?E; eauto 7.
  rewrite app_length, firstn_length. destruct (Nat.leb_spec (length x) r) as [H|H].
  - split; [lia|]. repeat split. exists x. now rewrite firstn_all2.
  - split; [lia|]. repeat split. exists (firstn r x). split; auto. split; [f_equal; lia|]. exists (skipn r x). split.
    + intros K. apply (f_equal (@length N)) in K. rewrite skipn_length in K. cbn in K. lia.
    + now rewrite firstn_skipn.
Qed.

(** *** The LineWriter *)
Definition line_ok (p : printer) : Prop := (length (pr_line p) <= line_cap)%nat /\ ~ In 10 (pr_line p).

Lemma line_flush_wrote p : wrote pr_line p [] (line_flush p) /\ pr_line (fst (line_flush p)) = [] /\ pr_buf (fst (line_flush p)) = pr_buf p.
Proof.
  unfold line_flush. pose proof (send_wrote (set_line p []) (pr_line p)) as H. destruct (send (set_line p []) (pr_line p)) as [p' ok].
  cbn [set_line pr_sent pr_room pr_line pr_buf fst] in *. destruct H as (G & L & B & s & E & H). rewrite L, B. split; auto. split; auto.
  exists s. split; auto. rewrite L, !app_nil_r. exact H.
Qed.

Lemma line_put_wrote p x : (length (pr_line p) <= line_cap)%nat -> ~ In 10 (pr_line p) ->
  wrote pr_line p x (line_put p x) /\ (length (pr_line (fst (line_put p x))) <= line_cap)%nat /\ pr_buf (fst (line_put p x)) = pr_buf p /\
  (~ In 10 x -> ~ In 10 (pr_line (fst (line_put p x)))).
Proof.
  intros Hl Hn. unfold line_put. destruct (Nat.ltb_spec (length x) (line_cap - length (pr_line p))) as [H|H].
  - cbn [fst]. split; [|split; [|split]].
    + apply wrote_nothing; [exact (gave_refl p)|reflexivity|reflexivity].
    + cbn [set_line pr_line]. rewrite app_length. lia.
    + reflexivity.
    + cbn [set_line pr_line]. intros Hx. rewrite in_app_iff. tauto.
  - set (o := if (line_cap - length (pr_line p) <? length x)%nat then line_flush p else (p, true)).
    assert (G : wrote pr_line p [] o /\ pr_buf (fst o) = pr_buf p /\ ~ In 10 (pr_line (fst o)) /\ (length (pr_line (fst o)) <= line_cap)%nat /\
      ((length x < line_cap)%nat -> length (pr_line (fst o)) + length x <= line_cap)%nat /\ ((line_cap <= length x)%nat -> pr_line (fst o) = [])).
    { unfold o. destruct (Nat.ltb_spec (line_cap - length (pr_line p)) (length x)) as [H'|H'].
      - destruct (line_flush_wrote p) as (A & B & C). split; auto. split; auto. rewrite B. cbn [length In]. repeat split; auto; lia.
      - split; [apply wrote_nothing; [apply gave_refl|auto|now rewrite app_nil_r]|]. split; auto. cbn [fst]. repeat split; auto; [lia|]. intros K. destruct (pr_line p); auto. cbn [length] in *. lia. }
    destruct o as [q ok]. cbn [fst] in G. destruct G as (W & B & K1 & K2 & K3 & K4).
    destruct ok.
    + destruct (Nat.leb_spec line_cap (length x)) as [H'|H'].
      * pose proof (send_wrote q x) as S. destruct (send q x) as [p' ok]. cbn [fst]. destruct S as (G & L & B' & s & E & S).
        rewrite L, B'. split; [|split; auto]. change x with ([] ++ x). eapply wrote_more; [exact W|]. split; auto. exists s. split; auto. rewrite L, (K4 H') in *. cbn [app].
        rewrite app_nil_r. exact S.
      * cbn [fst]. split; [|split; [|split]].
        -- change x with ([] ++ x) at 1. eapply wrote_more; [exact W|]. apply wrote_nothing; [exact (gave_refl q)|reflexivity|reflexivity].
        -- cbn [set_line pr_line]. rewrite app_length. auto.
        -- exact B.
        -- cbn [set_line pr_line]. intros Hx. rewrite in_app_iff. tauto.
    + cbn [fst]. split; [|split; auto]. change x with ([] ++ x). now apply wrote_less.
Qed.

Lemma split_last_some x u v : split_last_line x = Some (u, v) -> x = u ++ v /\ ~ In 10 v /\ u <> [].
Proof.
  revert u v. induction x as [|c r IH]; intros u v; cbn [split_last_line]; [discriminate|].
  destruct (split_last_line r) as [[u' v']|] eqn:E.
  - intros H. injection H as <- <-. destruct (IH u' v' eq_refl) as (-> & H & _). repeat split; auto. discriminate.
  - destruct (N.eqb_spec c 10); [|discriminate]. intros H. injection H as <- <-. repeat split; [|discriminate].
    clear -E. induction r as [|c r IH]; cbn in *; auto. destruct (split_last_line r) as [[? ?]|]; [discriminate|]. destruct (N.eqb_spec c 10); [discriminate|].
    intros [H|H]; auto. now apply IH.
Qed.
Lemma split_last_none x : split_last_line x = None -> ~ In 10 x.
Proof.
  induction x as [|c r IH]; cbn [split_last_line In]; auto. destruct (split_last_line r) as [[? ?]|]; [discriminate|]. destruct (N.eqb_spec c 10); [discriminate|].
  intros _ [H|H]; auto. now apply IH.
Qed.

Lemma line_write_wrote p x : line_ok p ->
  wrote pr_line p x (line_write p x) /\ pr_buf (fst (line_write p x)) = pr_buf p /\ (snd (line_write p x) = true -> line_ok (fst (line_write p x))).
Proof.
  intros [Hl Hn]. unfold line_write. destruct (split_last_line x) as [[lines tail]|] eqn:E.
  - apply split_last_some in E as (-> & Ht & Hne).
    assert (G : let o := match pr_line p with [] => send p lines | _ => let (p, ok) := line_put p lines in if ok then line_flush p else (p, false) end in
       wrote pr_line p lines o /\ pr_buf (fst o) = pr_buf p /\ (snd o = true -> pr_line (fst o) = [])).
    { cbv zeta. destruct (pr_line p) as [|c r] eqn:El.
      - pose proof (send_wrote p lines) as S. destruct (send p lines) as [q ok]. destruct S as (A & B & C & s & E & D). cbn [fst snd]. rewrite B. split; [|auto].
        split; auto. exists s. split; auto. rewrite B, El. cbn [app]. rewrite app_nil_r. exact D.
      - rewrite <- El in *. destruct (line_put_wrote p lines Hl Hn) as (A & B & C & _). destruct (line_put p lines) as [q ok]. cbn [fst] in *. destruct ok; [|cbn [fst snd]; repeat split; auto; try apply A; discriminate].
        destruct (line_flush_wrote q) as (A' & B' & C'). rewrite C'. split; [|auto]. rewrite <- (app_nil_r lines). eapply wrote_more; eauto. }
    cbv zeta in G. destruct (match pr_line p with [] => send p lines | _ => let (p, ok) := line_put p lines in if ok then line_flush p else (p, false) end) as [q ok].
    cbn [fst snd] in G. destruct G as (A & B & C). destruct ok.
    + specialize (C eq_refl). destruct (line_put_wrote q tail) as (A' & B' & C' & D'); [rewrite C; cbn; lia|rewrite C; auto|].
      destruct (line_put q tail) as [q' ok']. cbn [fst snd] in *. split; [eapply wrote_more; eauto|]. split; [congruence|]. intros _. split; auto.
    + cbn [fst snd]. split; [now apply wrote_less|]. split; auto. discriminate.
  - apply split_last_none in E.
    assert (G : completed (pr_line p) = false).
    { unfold completed. destruct (rev (pr_line p)) as [|c r] eqn:Er; auto. destruct (N.eqb_spec c 10) as [->|]; auto. destruct Hn. apply in_rev. rewrite Er. now left. }
    rewrite G. destruct (line_put_wrote p x Hl Hn) as (A & B & C & D). split; auto. split; auto. intros _. split; auto.
Qed.

(** *** The BufWriter *)
Definition all_held (p : printer) : bytes := pr_line p ++ pr_buf p.
Definition held_ok (p : printer) : Prop := line_ok p /\ (length (pr_buf p) <= buf_cap)%nat.

Lemma buf_flush_wrote p : line_ok p -> wrote all_held p [] (buf_flush p) /\ pr_buf (fst (buf_flush p)) = [] /\ (snd (buf_flush p) = true -> line_ok (fst (buf_flush p))).
Proof.
  intros H. unfold buf_flush. destruct (line_write_wrote (set_buf p []) (pr_buf p) H) as (A & B & C).
  destruct (line_write (set_buf p []) (pr_buf p)) as [q ok]. cbn [fst snd set_buf pr_buf] in *. split; auto. unfold all_held. destruct A as (G & s & E & A). split; auto.
  cbn [set_buf pr_sent pr_line] in *. exists s. split; auto. rewrite B, !app_nil_r. exact A.
Qed.

Lemma line_all p x o : pr_buf p = [] -> pr_buf (fst o) = [] -> wrote pr_line p x o -> wrote all_held p x o.
Proof. destruct o as [q ok]. cbn [fst]. intros H1 H2. unfold wrote, all_held. now rewrite H1, H2, !app_nil_r. Qed.

Lemma buf_write_wrote p x : held_ok p -> wrote all_held p x (buf_write p x) /\ (snd (buf_write p x) = true -> held_ok (fst (buf_write p x))).
Proof.
  intros [Hl Hb]. unfold buf_write. destruct (Nat.ltb_spec (length x) (buf_cap - length (pr_buf p))) as [H|H].
  - cbn [fst snd]. split.
    + apply wrote_nothing; [exact (gave_refl p)|reflexivity|]. unfold all_held. cbn [set_buf pr_line pr_buf]. now rewrite <- !app_assoc.
    + intros _. split; auto. cbn [set_buf pr_buf]. rewrite app_length. lia.
  - set (o := if (buf_cap - length (pr_buf p) <? length x)%nat then buf_flush p else (p, true)).
    assert (G : wrote all_held p [] o /\ (snd o = true -> line_ok (fst o) /\
       ((length x < buf_cap)%nat -> length (pr_buf (fst o)) + length x <= buf_cap)%nat /\ ((buf_cap <= length x)%nat -> pr_buf (fst o) = []))).
    { unfold o. destruct (Nat.ltb_spec (buf_cap - length (pr_buf p)) (length x)) as [H'|H'].
      - destruct (buf_flush_wrote p Hl) as (A & B & C). split; auto. intros K. rewrite B. cbn [length]. repeat split; try (apply C, K); auto; lia.
      - split; [apply wrote_nothing; [apply gave_refl|auto|now rewrite app_nil_r]|]. intros _. cbn [fst]. repeat split; try apply Hl; [lia|]. intros K. destruct (pr_buf p); auto. cbn [length] in *. lia. }
    destruct o as [q ok]. cbn [fst snd] in G. destruct G as (A & B). destruct ok.
    + destruct (B eq_refl) as (K1 & K2 & K3). destruct (Nat.leb_spec buf_cap (length x)) as [H'|H'].
      * destruct (line_write_wrote q x K1) as (A' & B' & C'). rewrite (K3 H') in B'. split.
        -- change x with ([] ++ x) at 1. eapply wrote_more; [exact A|]. apply line_all; auto.
        -- intros K. split; [apply C', K|]. rewrite B'. cbn [length]. lia.
      * cbn [fst snd]. split.
        -- change x with ([] ++ x) at 1. eapply wrote_more; [exact A|]. apply wrote_nothing; [exact (gave_refl q)|reflexivity|]. unfold all_held. cbn [set_buf pr_line pr_buf]. now rewrite <- !app_assoc.
        -- intros _. split; auto. cbn [set_buf pr_buf]. rewrite app_length. auto.
    + cbn [fst snd]. split; [|discriminate]. change x with ([] ++ x). now apply wrote_less.
Qed.

Lemma print_all_wrote bu cs : forall p, held_ok p -> (bu = false -> pr_buf p = []) ->
  wrote all_held p (concat cs) (print_all bu p cs) /\
  (snd (print_all bu p cs) = true -> held_ok (fst (print_all bu p cs)) /\ (bu = false -> pr_buf (fst (print_all bu p cs)) = [])).
Proof.
  induction cs as [|x cs IH]; intros p Hp Hbu; cbn [print_all concat].
  - split; [apply wrote_nothing; [apply gave_refl|auto|now rewrite app_nil_r]|]. auto.
  - set (o := if bu then buf_write p x else line_write p x).
    assert (G : wrote all_held p x o /\ (snd o = true -> held_ok (fst o) /\ (bu = false -> pr_buf (fst o) = []))).
    { unfold o. destruct bu.
      - destruct (buf_write_wrote p x Hp) as (A & B). split; auto. intros K. split; auto. discriminate.
      - destruct (line_write_wrote p x (proj1 Hp)) as (A & B & C). rewrite (Hbu eq_refl) in B. split; [apply line_all; auto|].
        intros K. split; auto. split; [apply C, K|]. rewrite B. cbn [length]. lia. }
    destruct o as [q ok]. cbn [fst snd] in G. destruct G as (A & B). destruct ok.
    + destruct (B eq_refl) as (K1 & K2). destruct (IH q K1 K2) as (A' & B'). split; auto. eapply wrote_more; eauto.
    + cbn [fst snd]. split; [now apply wrote_less|discriminate].
Qed.

Lemma send_full p x : pr_room p = Some O -> pr_sent (fst (send p x)) = pr_sent p /\ pr_room (fst (send p x)) = Some O.
Proof. intros H. unfold send. rewrite H. cbn [fst pr_sent pr_room firstn Nat.sub]. now rewrite app_nil_r. Qed.
Lemma line_flush_full p : pr_room p = Some O -> pr_sent (fst (line_flush p)) = pr_sent p /\ pr_room (fst (line_flush p)) = Some O.
Proof. intros H. unfold line_flush. now apply (send_full (set_line p [])). Qed.
Lemma line_put_full p x : pr_room p = Some O -> pr_sent (fst (line_put p x)) = pr_sent p /\ pr_room (fst (line_put p x)) = Some O.
Proof.
  intros H. unfold line_put. destruct (_ <? _)%nat; [auto|]. destruct (_ <? _)%nat.
  - destruct (line_flush_full p H) as [A B]. destruct (line_flush p) as [q ok]. cbn [fst] in *. destruct ok; auto. destruct (_ <=? _)%nat; [|auto].
    destruct (send_full q x B) as [A' B']. rewrite A'. auto.
  - destruct (_ <=? _)%nat; auto. now apply send_full.
Qed.
Lemma line_write_full p x : pr_room p = Some O -> pr_sent (fst (line_write p x)) = pr_sent p /\ pr_room (fst (line_write p x)) = Some O.
Proof.
  intros H. unfold line_write. destruct (split_last_line x) as [[u v]|].
  - assert (G : let o := match pr_line p with [] => send p u | _ => let (p, ok) := line_put p u in if ok then line_flush p else (p, false) end in
       pr_sent (fst o) = pr_sent p /\ pr_room (fst o) = Some O).
    { cbv zeta. destruct (pr_line p); [now apply send_full|]. destruct (line_put_full p u H) as [A B]. destruct (line_put p u) as [q ok]. cbn [fst] in *. destruct ok; auto.
      destruct (line_flush_full q B) as [A' B']. rewrite A'. auto. }
    cbv zeta in G. destruct (match pr_line p with [] => send p u | _ => let (p, ok) := line_put p u in if ok then line_flush p else (p, false) end) as [q ok].
    cbn [fst] in G. destruct G as [A B]. destruct ok; auto. destruct (line_put_full q v B) as [A' B']. rewrite A'. auto.
  - assert (G : let o := if completed (pr_line p) then line_flush p else (p, true) in pr_sent (fst o) = pr_sent p /\ pr_room (fst o) = Some O).
    { cbv zeta. destruct (completed _); auto. now apply line_flush_full. }
    cbv zeta in G. destruct (if completed (pr_line p) then line_flush p else (p, true)) as [q ok]. cbn [fst] in G. destruct G as [A B]. destruct ok; auto.
    destruct (line_put_full q x B) as [A' B']. rewrite A'. auto.
Qed.
Lemma drop_full p : pr_room p = Some O -> pr_sent (fst (drop_all p)) = pr_sent p.
Proof.
  intros H. unfold drop_all, buf_flush. destruct (line_write_full (set_buf p []) (pr_buf p) H) as [A B]. destruct (line_write (set_buf p []) (pr_buf p)) as [q ok].
  cbn [fst] in *. destruct (line_flush_full q B) as [A' B']. destruct (line_flush q) as [q' ok']. cbn [fst] in *. rewrite A', A. reflexivity.
Qed.

(** The end of a process that could print everything: what was held is sent, or the device is full. *)
Lemma drop_wrote p : held_ok p -> let (q, ok) := drop_all p in
  gave p q /\ exists sent rest, pr_sent q = pr_sent p ++ sent /\ all_held p = sent ++ rest /\
    if ok then rest = [] else rest <> [] /\ pr_room q = Some O.
Proof.
  intros [Hl Hb]. unfold drop_all. destruct (buf_flush_wrote p Hl) as (A & B & C). destruct (buf_flush p) as [q ok]. cbn [fst snd] in *.
  destruct A as (G & s & E & A). rewrite app_nil_r in A. destruct ok.
  - destruct (line_flush_wrote q) as (A' & B' & C'). destruct (line_flush q) as [q' ok']. cbn [fst] in *. destruct A' as (G' & s' & E' & A'). rewrite app_nil_r in A'.
    unfold all_held in A at 1. rewrite B, app_nil_r in A. split; [eapply gave_trans; eauto|]. cbn [andb].
    rewrite E', E, <- app_assoc. destruct ok'.
    + rewrite B', app_nil_r in A'. exists (s ++ s'), []. rewrite app_nil_r. repeat split. now rewrite A'.
    + destruct A' as (R & rest & Hr & A'). exists (s ++ s'), rest. split; auto. split; auto. now rewrite <- app_assoc, <- A'.
  - destruct A as (R & rest & Hr & A). pose proof (line_flush_full q R) as [K1 K2].
    destruct (line_flush q) as [q' ok']. cbn [fst] in *. cbn [andb].
    split; [|exists s, rest; rewrite K1; auto].
    eapply gave_trans; [exact G|]. unfold gave. rewrite R, K2, K1. reflexivity.
Qed.
