(** [String::from_utf8_lossy] as modelled in ListCmd.v reads as Unicode says. *)
From Coq Require Import ZifyBool.
From Verif Require Export SpecText ListCmd.

Local Ltac bad := let H := fresh in intros H; discriminate H.

Definition snd3 (c c1 : N) : bool := if c =? 224 then inr 160 c1 191 else if c =? 237 then inr 128 c1 159 else cont c1.
Definition snd4 (c c1 : N) : bool := if c =? 240 then inr 144 c1 191 else if c =? 244 then inr 128 c1 143 else cont c1.
Definition charb (u : bytes) : bool :=
  match u with
  | [c] => c <=? 127
  | [c; c1] => inr 194 c 223 && cont c1
  | [c; c1; c2] => inr 224 c 239 && snd3 c c1 && cont c2
  | [c; c1; c2; c3] => inr 240 c 244 && snd4 c c1 && cont c2 && cont c3
  | _ => false
  end.
(** Beginnings of characters. *)
Definition prefixb (x : bytes) : bool :=
  match x with
  | [] => true
  | [c] => (c <=? 127) || inr 194 c 244
  | [c; c1] => charb x || (inr 224 c 239 && snd3 c c1) || (inr 240 c 244 && snd4 c c1)
  | [c; c1; c2] => charb x || (inr 240 c 244 && snd4 c c1 && cont c2)
  | _ => charb x
  end.

Local Ltac num := unfold inr, cont in *; lia.

Lemma utf8_first s : utf8 s = true -> s <> [] -> exists u v, s = u ++ v /\ charb u = true /\ utf8 v = true.
Proof.
  destruct s as [|c r]; [easy|]. intros H _. cbn [utf8] in H. destruct (c <=? 127) eqn:E0; [exists [c], r; auto|].
  destruct r as [|c1 r1]; [discriminate H|]. destruct (inr 194 c 223) eqn:E1.
  { apply andb_true_iff in H as [H1 H2]. exists [c; c1], r1. cbn [charb]. rewrite E1, H1. auto. }
  destruct r1 as [|c2 r2]; [discriminate H|]. destruct (inr 224 c 239) eqn:E2.
  { apply andb_true_iff in H as [H H2]. apply andb_true_iff in H as [H0 H1]. exists [c; c1; c2], r2. cbn [charb]. unfold snd3. rewrite E2, H0, H1. auto. }
  destruct r2 as [|c3 r3]; [discriminate H|]. destruct (inr 240 c 244) eqn:E3; [|discriminate H].
  apply andb_true_iff in H as [H H2]. apply andb_true_iff in H as [H H1]. apply andb_true_iff in H as [H0 H1']. exists [c; c1; c2; c3], r3.
  cbn [charb]. unfold snd4. rewrite E3, H0, H1', H1. auto.
Qed.

Lemma charb_utf8 u s : charb u = true -> utf8 (u ++ s) = utf8 s.
Proof.
  destruct u as [|c [|c1 [|c2 [|c3 [|c4 u]]]]]; cbn [charb]; try bad; intros H; cbn [app utf8].
  - now rewrite H.
  - assert ((c <=? 127) = false) as -> by num. apply andb_true_iff in H as [-> ->]. reflexivity.
  - apply andb_true_iff in H as [H H2]. apply andb_true_iff in H as [H0 H1]. assert ((c <=? 127) = false) as -> by num. assert (inr 194 c 223 = false) as -> by num.
    unfold snd3 in H1. now rewrite H0, H1, H2.
  - apply andb_true_iff in H as [H H3]. apply andb_true_iff in H as [H H2]. apply andb_true_iff in H as [H0 H1].
    assert ((c <=? 127) = false) as -> by num. assert (inr 194 c 223 = false) as -> by num. assert (inr 224 c 239 = false) as -> by num.
    unfold snd4 in H1. now rewrite H0, H1, H2, H3.
Qed.

Lemma charb_prefix u v : charb u = true -> charb (u ++ v) = true -> v = [].
Proof.
  destruct u as [|c [|c1 [|c2 [|c3 [|c4 u]]]]]; cbn [charb]; try bad; intros H; destruct v as [|d0 [|d1 [|d2 [|d3 [|d4 v]]]]]; cbn [app charb]; try bad; try reflexivity; intros H'; exfalso; num.
Qed.

Lemma one_char_charb u : one_char u <-> charb u = true.
Proof.
  split.
  - intros (Hne & Hu & Hmin). destruct (utf8_first u Hu Hne) as (x & y & -> & Hx & Hy). destruct y as [|d y]; [now rewrite app_nil_r|].
    assert (Hx0 : x <> []) by (intros ->; discriminate Hx). 
    pose proof (charb_utf8 x [] Hx) as E. rewrite app_nil_r in E. cbn [utf8] in E. specialize (Hmin x (d :: y) eq_refl Hx0). rewrite E in Hmin. now discriminate Hmin.
  - intros H. split; [intros ->; discriminate H|]. split.
    + pose proof (charb_utf8 u [] H) as E. rewrite app_nil_r in E. exact E.
    + intros x y -> Hx Hy. destruct (utf8 x) eqn:E; [|reflexivity]. destruct (utf8_first x E Hx) as (p & q & -> & Hp & _).
      rewrite <- app_assoc in H. apply (charb_prefix p _ Hp) in H. destruct q; [now cbn [app] in H|discriminate H].
Qed.

Lemma begins_prefixb x : begins_char x -> prefixb x = true.
Proof.
  intros [y H]. apply one_char_charb in H. destruct x as [|c [|c1 [|c2 [|c3 [|c4 x]]]]]; try reflexivity; destruct y as [|d0 [|d1 [|d2 [|d3 y]]]]; cbn [app charb prefixb] in *; try discriminate H; num.
Qed.
Lemma prefixb_begins x : prefixb x = true -> begins_char x.
Proof.
  assert (K : forall y, charb (x ++ y) = true -> begins_char x) by (intros y H; exists y; now apply one_char_charb).
  destruct x as [|c [|c1 [|c2 [|c3 [|c4 x]]]]]; cbn [prefixb]; intros H.
  - apply (K [97]). reflexivity.
  - destruct (c <=? 127) eqn:E0; [apply (K []); exact E0|]. cbn [orb] in H. destruct (inr 194 c 223) eqn:E1; [apply (K [128]); cbn [app charb]; rewrite E1; reflexivity|].
    destruct (inr 224 c 239) eqn:E2.
    + destruct (c =? 224) eqn:Ea; [apply (K [160; 128])|apply (K [128; 128])]; cbn [app charb]; unfold snd3; rewrite Ea, E2; [reflexivity|]. destruct (c =? 237); reflexivity.
    + destruct (c =? 240) eqn:Ea; [apply (K [144; 128; 128])|apply (K [128; 128; 128])]; cbn [app charb]; unfold snd4; rewrite Ea; (assert (inr 240 c 244 = true) as -> by num); [reflexivity|destruct (c =? 244); reflexivity].
  - destruct (charb [c; c1]) eqn:E; [apply (K []); rewrite app_nil_r; exact E|]. cbn [orb] in H. destruct (inr 224 c 239 && snd3 c c1) eqn:E1.
    + apply (K [128]). cbn [app charb]. rewrite E1. reflexivity.
    + cbn [orb] in H. apply (K [128; 128]). cbn [app charb]. rewrite H. reflexivity.
  - destruct (charb [c; c1; c2]) eqn:E; [apply (K []); rewrite app_nil_r; exact E|]. cbn [orb] in H. apply (K [128]). cbn [app charb]. rewrite H. reflexivity.
  - apply (K []). rewrite app_nil_r. exact H.
  - discriminate H.
Qed.

(** Is there a character at the beginning? *)
Definition starts (s : bytes) : bool :=
  match s with
  | [] => false
  | c :: r => (c <=? 127) ||
      match r with
      | [] => false
      | c1 :: r1 => (inr 194 c 223 && cont c1) ||
          match r1 with
          | [] => false
          | c2 :: r2 => (inr 224 c 239 && snd3 c c1 && cont c2) || match r2 with [] => false | c3 :: _ => inr 240 c 244 && snd4 c c1 && cont c2 && cont c3 end
          end
      end
  end.
Lemma starts_with u v : charb u = true -> starts (u ++ v) = true.
Proof.
  destruct u as [|c [|c1 [|c2 [|c3 [|c4 u]]]]]; cbn [charb]; try bad; intros H; cbn [app starts]; rewrite H, ?orb_true_r; reflexivity.
Qed.

(** One step of the rule, with the booleans. *)
Lemma reads_good u s t : charb u = true -> reads_as s t -> reads_as (u ++ s) (u ++ t).
Proof. intros H. apply reads_char. now apply one_char_charb. Qed.
Lemma reads_replaced x s t : prefixb x = true \/ (exists c, x = [c]) -> x <> [] ->
  starts (x ++ s) = false -> (forall c v, s = c :: v -> prefixb (x ++ [c]) = false) -> reads_as s t -> reads_as (x ++ s) (replacement ++ t).
Proof.
  intros Hx Hne Hno Hext H. apply reads_bad; auto.
  - intros u v E Hu. apply one_char_charb in Hu. rewrite E, (starts_with u v Hu) in Hno. discriminate Hno.
  - destruct Hx as [Hx|Hx]; [right; now apply prefixb_begins|now left].
  - intros c v Es Hb. apply begins_prefixb in Hb. rewrite (Hext c v Es) in Hb. discriminate Hb.
Qed.

Local Ltac fl := repeat match goal with
  | |- (_ || _) = false => apply orb_false_iff; split
  | |- (match ?l with [] => _ | _ :: _ => _ end) = false => destruct l
  | H : ?x = false |- context [?x] => rewrite H, ?andb_false_r
  end; try reflexivity; try num.

Local Ltac bad2 := let H := fresh in intros ? ? H; discriminate H.
Lemma lossy_reads : forall s, reads_as s (lossy s).
Proof.
  intros s. remember (length s) as k eqn:Hk. assert (Hle : (length s <= k)%nat) by lia. clear Hk. revert s Hle.
  induction k as [|k IH]; intros s Hle; [destruct s; [constructor|cbn [length] in Hle; lia]|].
  destruct s as [|c r]; [constructor|]. cbn [length] in Hle.
  assert (Hone : starts (c :: r) = false -> (forall c1 v, r = c1 :: v -> prefixb [c; c1] = false) -> reads_as (c :: r) (replacement ++ lossy r)).
  { intros Hn He. apply (reads_replaced [c] r); [right; eauto|easy|exact Hn|exact He|]. apply IH. lia. }
  cbn [lossy].
  destruct (c <=? 127) eqn:E0; [apply (reads_good [c] r); [exact E0|apply IH; lia]|].
  destruct (inr 194 c 223) eqn:E1.
  { assert (E2 : inr 224 c 239 = false) by num. assert (E3 : inr 240 c 244 = false) by num. destruct r as [|c1 r1].
    - rewrite <- (app_nil_r replacement). apply Hone; [cbn [starts]; fl|bad2].
    - destruct (cont c1) eqn:Ec; [apply (reads_good [c; c1] r1); [cbn [charb]; now rewrite E1, Ec|apply IH; cbn [length] in Hle; lia]|].
      apply Hone; [cbn [starts]; fl|]. intros d v E. injection E as <- <-. cbn [prefixb charb]. fl. }
  destruct (inr 224 c 239) eqn:E2.
  { assert (E3 : inr 240 c 244 = false) by num. destruct r as [|c1 r1]; [rewrite <- (app_nil_r replacement); apply Hone; [cbn [starts]; fl|bad2]|].
    fold (snd3 c c1). destruct (snd3 c c1) eqn:Es.
    - destruct r1 as [|c2 r2].
      + rewrite <- (app_nil_r replacement). apply (reads_replaced [c; c1] []); [left; cbn [prefixb]; rewrite E2, Es, orb_true_r; reflexivity|easy|cbn [app starts]; fl|bad2|constructor].
      + cbn [length] in Hle. destruct (cont c2) eqn:Ec; [apply (reads_good [c; c1; c2] r2); [cbn [charb]; now rewrite E2, Es, Ec|apply IH; lia]|].
        apply (reads_replaced [c; c1] (c2 :: r2)); [left; cbn [prefixb]; rewrite E2, Es, orb_true_r; reflexivity|easy|cbn [app starts]; fl| |apply IH; cbn [length]; lia].
        intros d v E. injection E as <- <-. cbn [app prefixb charb]. fl.
    - apply Hone; [cbn [starts]; fl|]. intros d v E. injection E as <- <-. cbn [prefixb charb]. fl. }
  destruct (inr 240 c 244) eqn:E3.
  { destruct r as [|c1 r1]; [rewrite <- (app_nil_r replacement); apply Hone; [cbn [starts]; fl|bad2]|].
    fold (snd4 c c1). destruct (snd4 c c1) eqn:Es.
    - destruct r1 as [|c2 r2].
      + rewrite <- (app_nil_r replacement). apply (reads_replaced [c; c1] []); [left; cbn [prefixb]; rewrite E3, Es, orb_true_r; reflexivity|easy|cbn [app starts]; fl|bad2|constructor].
      + cbn [length] in Hle. destruct (cont c2) eqn:Ec.
        * destruct r2 as [|c3 r3].
          -- rewrite <- (app_nil_r replacement). apply (reads_replaced [c; c1; c2] []); [left; cbn [prefixb]; rewrite E3, Es, Ec, orb_true_r; reflexivity|easy|cbn [app starts]; fl|bad2|constructor].
          -- cbn [length] in Hle. destruct (cont c3) eqn:Ed; [apply (reads_good [c; c1; c2; c3] r3); [cbn [charb]; now rewrite E3, Es, Ec, Ed|apply IH; lia]|].
             apply (reads_replaced [c; c1; c2] (c3 :: r3)); [left; cbn [prefixb]; rewrite E3, Es, Ec, orb_true_r; reflexivity|easy|cbn [app starts]; fl| |apply IH; cbn [length]; lia].
             intros d v E. injection E as <- <-. cbn [app prefixb charb]. fl.
        * apply (reads_replaced [c; c1] (c2 :: r2)); [left; cbn [prefixb]; rewrite E3, Es, orb_true_r; reflexivity|easy|cbn [app starts]; fl| |apply IH; cbn [length]; lia].
          intros d v E. injection E as <- <-. cbn [app prefixb charb]. fl.
    - apply Hone; [cbn [starts]; fl|]. intros d v E. injection E as <- <-. cbn [prefixb charb]. fl. }
  apply Hone; [cbn [starts]; fl|]. intros d v E. subst r. cbn [prefixb charb]. fl.
Qed.

(** A text is read in one way. *)
Lemma app_eq_split {A} : forall (x y s t : list A), x ++ s = y ++ t -> (exists z, y = x ++ z /\ s = z ++ t) \/ (exists z, x = y ++ z /\ t = z ++ s).
Proof.
  induction x as [|a x IH]; intros y s t H; [left; exists y; auto|]. destruct y as [|c y]; [right; exists (a :: x); auto|].
  injection H as -> H. destruct (IH y s t H) as [(z & -> & ->)|(z & -> & ->)]; [left|right]; exists z; auto.
Qed.
Lemma one_char_same u v s t : one_char u -> one_char v -> u ++ s = v ++ t -> u = v /\ s = t.
Proof.
  intros Hu Hv E. apply one_char_charb in Hu, Hv.
  destruct (app_eq_split u v s t E) as [(z & -> & ->)|(z & -> & ->)].
  - pose proof (charb_prefix u z Hu Hv) as ->. rewrite app_nil_r. auto.
  - pose proof (charb_prefix v z Hv Hu) as ->. rewrite app_nil_r. auto.
Qed.
Lemma begins_less x c y : begins_char (x ++ c :: y) -> begins_char (x ++ [c]).
Proof. intros [z H]. exists (y ++ z). rewrite <- !app_assoc in *. exact H. Qed.
Lemma piece_same x s x' s' : x ++ s = x' ++ s' -> (exists c, x = [c]) \/ begins_char x -> x <> [] -> (exists c, x' = [c]) \/ begins_char x' -> x' <> [] ->
  (forall c v, s = c :: v -> ~ begins_char (x ++ [c])) -> (forall c v, s' = c :: v -> ~ begins_char (x' ++ [c])) -> x = x' /\ s = s'.
Proof.
  intros E B N B' N' F F'. destruct (app_eq_split x x' s s' E) as [(z & -> & ->)|(z & -> & ->)].
  - destruct z as [|c z]; [rewrite app_nil_r; auto|]. exfalso. apply (F c (z ++ s') eq_refl). destruct B' as [[d Hd]|B']; [|eapply begins_less; eauto].
    destruct x as [|e x]; [now destruct N|]. destruct x; discriminate Hd.
  - destruct z as [|c z]; [rewrite app_nil_r; auto|]. exfalso. apply (F' c (z ++ s) eq_refl). destruct B as [[d Hd]|B]; [|eapply begins_less; eauto].
    destruct x' as [|e x']; [now destruct N'|]. destruct x'; discriminate Hd.
Qed.
Lemma reads_inv w t : reads_as w t -> (w = [] /\ t = []) \/ (exists u s r, w = u ++ s /\ t = u ++ r /\ one_char u /\ reads_as s r) \/
  (exists x s r, w = x ++ s /\ t = [239; 191; 189] ++ r /\ (forall u v, x ++ s = u ++ v -> ~ one_char u) /\ ((exists c, x = [c]) \/ begins_char x) /\ x <> [] /\
    (forall c v, s = c :: v -> ~ begins_char (x ++ [c])) /\ reads_as s r).
Proof. intros H. destruct H as [|u s t Hu H|x s t H1 H2 H3 H4 H]; [auto|right; left|right; right]; [exists u, s, t; auto|exists x, s, t; auto 10]. Qed.
Lemma reads_det s t t' : reads_as s t -> reads_as s t' -> t = t'.
Proof.
  intros H. revert t'. induction H as [|u s t Hu H IH|x s t H1 H2 H3 H4 H IH]; intros t' G.
  - destruct (reads_inv _ _ G) as [[_ ->]|[(u & s & r & E & _ & Hu & _)|(x & s & r & E & _ & _ & _ & Hx & _)]]; [reflexivity| |]; symmetry in E; apply app_eq_nil in E as [-> _]; [now destruct Hu|easy].
  - destruct (reads_inv _ _ G) as [[E _]|[(u' & s' & r & E & -> & Hu' & Hr)|(x & s' & r & E & _ & Hn & _)]].
    + apply app_eq_nil in E as [-> _]. now destruct Hu.
    + destruct (one_char_same u u' s s' Hu Hu' E) as [-> ->]. f_equal. now apply IH.
    + exfalso. apply (Hn u s); [now rewrite E|exact Hu].
  - destruct (reads_inv _ _ G) as [[E _]|[(u' & s' & r & E & _ & Hu' & _)|(x' & s' & r & E & -> & _ & B & N & F & Hr)]].
    + apply app_eq_nil in E as [-> _]. easy.
    + exfalso. apply (H1 u' s'); assumption.
    + destruct (piece_same x s x' s' E H2 H3 B N H4 F) as [-> ->]. f_equal. now apply IH.
Qed.
