(** The files of a creation in progress, as an invariant of jbk's system calls. *)
From Verif Require Export CreateHost CliSession AddWalk.
From Verif Require Import MountCmd.

Section Calls.
  Variables (f0 : hostfs) (dir : path) (names : list bytes).

  Record hinv (final : option (bytes -> bytes)) (s : writing) : Prop := {
    hv_next : h_next f0 <= h_next (wr_fs s);
    hv_old : forall i, i < h_next f0 -> h_data (wr_fs s) i = h_data f0 i /\ h_mtime (wr_fs s) i = h_mtime f0 i;
    hv_temp : forall q i, In (q, i) (wr_temps s) ->
      h_names (wr_fs s) q = Some (HFile i) /\ h_next f0 <= i < h_next (wr_fs s) /\ h_names f0 q = None /\
      exists n, q = dir ++ [n] /\ ~ In n names;
    hv_one : forall q q' i, In (q, i) (wr_temps s) -> In (q', i) (wr_temps s) -> q = q';
    hv_done : forall n, In n (wr_done s) -> In n names /\ h_names f0 (dir ++ [n]) <> Some HDir /\
      exists i content, final = Some content /\ h_names (wr_fs s) (dir ++ [n]) = Some (HFile i) /\
        h_data (wr_fs s) i = content n /\ h_next f0 <= i < h_next (wr_fs s) /\ (forall q, ~ In (q, i) (wr_temps s));
    hv_rest : forall p, (forall i, ~ In (p, i) (wr_temps s)) -> (forall n, In n (wr_done s) -> p <> dir ++ [n]) ->
      h_names (wr_fs s) p = h_names f0 p }.

  Lemma hinv_start final : hinv final (mkWriting f0 [] []).
  Proof. constructor; cbn; intros; try easy; try lia; auto. Qed.

  Lemma in_without q ts p i : In (p, i) (without q ts) <-> In (p, i) ts /\ p <> q.
  Proof.
    unfold without. rewrite filter_In. cbn [fst]. split; intros [H1 H2]; split; auto.
    - intros ->. rewrite path_eqb'_refl in H2. discriminate H2.
    - now rewrite path_eqb'_neq.
  Qed.

  Lemma hinv_call final s t : hinv final s -> jbk_call dir names final s t -> hinv final t.
  Proof.
    intros [Hn Ho Ht H1 Hd Hr] C. destruct C as [f ts dn n Hnn Hfree|f ts dn q i d Hin|f ts dn q i n content Hf Hin Hname Hcont Hdir|f ts dn q i Hin]; cbn [wr_fs wr_temps wr_done] in *.
    - (* a new temporary file *)
      assert (Hnt : forall i, ~ In (dir ++ [n], i) ts) by (intros i H; apply Ht in H as [H _]; rewrite Hfree in H; discriminate H).
      assert (H0 : h_names f0 (dir ++ [n]) = None).
      { rewrite <- Hr; auto. intros k Hk E. apply app_inj_tail in E as [_ <-]. apply Hd in Hk as [Hk _]. contradiction. }
      constructor; cbn [wr_fs wr_temps wr_done make_temp touch set_data bump set_name h_names h_data h_mtime h_next].
      + lia.
      + intros i Hi. destruct (N.eqb_spec i (h_next f)); [lia|]. now apply Ho.
      + intros p i [H|H].
        * injection H as <- <-. rewrite path_eqb'_refl. repeat split; auto; try lia. eauto.
        * pose proof (Ht p i H) as (A & B & C & D). rewrite path_eqb'_neq; [|intros ->; eapply Hnt; eauto]. repeat split; auto; lia.
      + intros p p' i [H|H] [H'|H'].
        * congruence.
        * injection H as <- <-. apply Ht in H' as (_ & B & _). lia.
        * injection H' as <- <-. apply Ht in H as (_ & B & _). lia.
        * eauto.
      + intros k Hk. destruct (Hd k Hk) as (A & B & i & c & C & D & E & F & G). split; auto. split; auto. exists i, c. split; auto.
        rewrite path_eqb'_neq; [|intros E'; apply app_inj_tail in E' as [_ ->]; contradiction]. split; auto.
        destruct (N.eqb_spec i (h_next f)); [lia|]. split; auto. split; [lia|]. intros p [H|H]; [injection H as _ H; lia|]. eapply G; eauto.
      + intros p Hp Hp'. rewrite path_eqb'_neq; [|intros ->; apply (Hp (h_next f)); now left]. apply Hr; auto. intros i H. apply (Hp i). now right.
    - (* a write *)
      pose proof (Ht q i Hin) as (Hq & Hi & _).
      constructor; cbn [wr_fs wr_temps wr_done touch set_data h_names h_data h_mtime h_next]; auto.
      + intros j Hj. destruct (N.eqb_spec j i); [lia|]. now apply Ho.
      + intros k Hk. destruct (Hd k Hk) as (A & B & j & c & C & D & E & F & G). split; auto. split; auto. exists j, c. repeat split; auto; try lia.
        destruct (N.eqb_spec j i) as [->|]; auto. now destruct (G q).
    - (* the final name *)
      pose proof (Ht q i Hin) as (Hq & Hi & Hq0 & m & -> & Hm).
      assert (Hmn : m <> n) by congruence.
      assert (Hne : forall k, In k names -> dir ++ [k] <> dir ++ [m]) by (intros k Hk E; apply app_inj_tail in E as [_ ->]; contradiction).
      constructor; cbn [wr_fs wr_temps wr_done rename_file set_name h_names h_data h_mtime h_next]; auto.
      + intros p j H. apply in_without in H as [H H']. pose proof (Ht p j H) as (A & B & C & k & -> & D).
        rewrite !path_eqb'_neq; [|auto|intros E; apply app_inj_tail in E as [_ ->]; contradiction]. repeat split; auto; try lia. eauto.
      + intros p p' j H H'. apply in_without in H as [H _], H' as [H' _]. eauto.
      + intros k Hk.
        assert (Hd0 : h_names f0 (dir ++ [n]) <> Some HDir).
        { destruct (in_dec (list_eq_dec N.eq_dec) n dn) as [H|H]; [now apply Hd|]. rewrite <- Hr; auto.
          - intros j H'. apply Ht in H' as (_ & _ & _ & k' & E & D). apply app_inj_tail in E as [_ ->]. contradiction.
          - intros k' Hk' E. apply app_inj_tail in E as [_ <-]. contradiction. }
        destruct (list_eq_dec N.eq_dec k n) as [->|Hkn].
        * split; auto. split; auto. exists i, content. rewrite path_eqb'_refl. repeat split; auto; try lia.
          intros p H. apply in_without in H as [H H']. apply H'. eauto.
        * destruct Hk as [->|Hk]; [easy|]. destruct (Hd k Hk) as (A & B & j & c & C & D & E & F & G). split; auto. split; auto. exists j, c.
          rewrite !path_eqb'_neq; [|auto|intros E'; apply app_inj_tail in E' as [_ ->]; easy]. repeat split; auto; try lia.
          intros p H. apply in_without in H as [H _]. eapply G; eauto.
      + intros p Hp Hp'. rewrite (path_eqb'_neq p (dir ++ [n])); [|apply Hp'; now left].
        destruct (list_eq_dec (list_eq_dec N.eq_dec) p (dir ++ [m])) as [->|Hpm]; [rewrite path_eqb'_refl; congruence|].
        rewrite path_eqb'_neq by auto. apply Hr; [|intros k Hk; apply Hp'; now right]. intros j H. apply (Hp j), in_without. auto.
    - (* removed *)
      pose proof (Ht q i Hin) as (Hq & Hi & Hq0 & m & -> & Hm).
      constructor; cbn [wr_fs wr_temps wr_done set_name h_names h_data h_mtime h_next]; auto.
      + intros p j H. apply in_without in H as [H H']. pose proof (Ht p j H) as (A & B & C & k & -> & D).
        rewrite path_eqb'_neq by auto. repeat split; auto; try lia. eauto.
      + intros p p' j H H'. apply in_without in H as [H _], H' as [H' _]. eauto.
      + intros k Hk. destruct (Hd k Hk) as (A & B & j & c & C & D & E & F & G). split; auto. split; auto. exists j, c.
        rewrite path_eqb'_neq; [|intros E'; apply app_inj_tail in E' as [_ ->]; contradiction]. repeat split; auto; try lia.
        intros p H. apply in_without in H as [H _]. eapply G; eauto.
      + intros p Hp Hp'.
        destruct (list_eq_dec (list_eq_dec N.eq_dec) p (dir ++ [m])) as [->|Hpm]; [rewrite path_eqb'_refl; congruence|].
        rewrite path_eqb'_neq by auto. apply Hr; auto. intros j H. apply (Hp j), in_without. auto.
  Qed.

  Lemma hinv_calls final s t : hinv final s -> jbk_calls dir names final s t -> hinv final t.
  Proof. intros H C. induction C as [s|s t u C IH D]; auto. apply (hinv_call _ t u); auto. Qed.

  Lemma hinv_unsealed s : hinv None s -> wr_done s = [].
  Proof.
    intros [_ _ _ _ Hd _]. destruct (wr_done s) as [|n l]; auto. destruct (Hd n) as (_ & _ & i & c & H & _); [now left|discriminate H].
  Qed.
  Lemma hinv_seal final s : hinv None s -> hinv final s.
  Proof. intros H. pose proof (hinv_unsealed s H) as E. destruct H as [H1 H2 H3 H4 H5 H6]. constructor; auto. rewrite E. intros n []. Qed.

  Hypothesis Hino : forall q i, h_names f0 q = Some (HFile i) -> i < h_next f0.

  Lemma hinv_unchanged final s p : hinv final s -> (forall i, ~ In (p, i) (wr_temps s)) -> (forall n, In n (wr_done s) -> p <> dir ++ [n]) ->
    unchanged f0 (wr_fs s) p.
  Proof. intros H H1 H2. split; [eapply hv_rest; eauto|]. intros i Hi. eapply hv_old; eauto. Qed.
End Calls.

(** Directories and links that stay lead to the same directories. *)
Lemma namei_stays k : forall f g, (forall p, h_names g p = h_names f p \/ (h_names f p <> Some HDir /\ forall t m, h_names f p <> Some (HLink t m))) ->
  forall c cur q, namei k f true cur c = At q HDir -> namei k g true cur c = At q HDir.
Proof.
  induction k as [|k IH]; intros f g Hfg; (induction c as [|x c IHc]; intros cur q H; rewrite namei_eq in H; rewrite namei_eq; [exact H|]);
    (destruct (bytes_eqb x (b ".")); [now apply IHc|]); (destruct (bytes_eqb x (b "..")); [now apply IHc|]);
    (destruct (Hfg (cur ++ [x])) as [E|[E1 E2]]; [rewrite E|];
     destruct (h_names f (cur ++ [x])) as [[|i|t m]|]; try easy; try (now destruct c); try now apply IHc).
  all: first [now destruct (E2 t m)|idtac].
  destruct c; cbn [negb] in *; now apply (IH f g Hfg).
Qed.

(** "." components do not matter on the way to a directory. *)
Inductive undot : list bytes -> list bytes -> Prop :=
| undot_nil : undot [] []
| undot_dot c d : undot c d -> undot (b "." :: c) d
| undot_cons x c d : undot c d -> undot (x :: c) (x :: d).
Lemma undot_refl l : undot l l.
Proof. induction l; constructor; auto. Qed.
Lemma undot_app l c d : undot c d -> undot (l ++ c) (l ++ d).
Proof. intros H. induction l; cbn [app]; [auto|now constructor]. Qed.
Lemma undot_filter l : undot l (filter not_dot l).
Proof.
  induction l as [|x l IH]; cbn [filter]; [constructor|]. unfold not_dot at 1. destruct (bytes_eqb_spec x (b ".")) as [->|]; cbn [negb]; now constructor.
Qed.
Lemma namei_undot k : forall f c d, undot c d -> forall cur q, namei k f true cur d = At q HDir -> namei k f true cur c = At q HDir.
Proof.
  induction k as [|k IH]; intros f c d U; (induction U as [|c d U IHU|x c d U IHU]; intros cur q H;
    [exact H|rewrite namei_eq; rewrite bytes_eqb_refl; now apply IHU|]);
    rewrite namei_eq in H; rewrite namei_eq;
    (destruct (bytes_eqb x (b ".")); [now apply IHU|]); (destruct (bytes_eqb x (b "..")); [now apply IHU|]);
    (destruct (h_names f (cur ++ [x])) as [[|i|t m]|]; [now apply IHU|destruct d; discriminate H| |destruct d; discriminate H]).
  - destruct d; discriminate H.
  - assert (H' : namei k f true (if is_abs t then [] else cur) (pieces t ++ d) = At q HDir) by (destruct d; exact H).
    apply (IH f (pieces t ++ c)) in H'; [|now apply undot_app]. destruct c; exact H'.
Qed.
