(** Runs of the whole program. *)
From Verif Require Export SpecMain PropCreateHost KilledKeep.
From Verif Require Import MountCmd.

(** ** What gentle runs leave in place *)
Record added (f g : hostfs) : Prop := {
  ad_names : forall q n, h_names f q = Some n ->
    h_names g q = Some n \/ exists t m i, n = HLink t m /\ h_names g q = Some (HFile i);
  ad_inodes : forall i, i < h_next f -> h_data g i = h_data f i /\ h_mtime g i = h_mtime f i;
  ad_next : h_next f <= h_next g;
  ad_given : inodes_given f -> inodes_given g }.

Lemma added_refl f : added f f.
Proof. constructor; auto; lia. Qed.
Lemma added_trans f g h : added f g -> added g h -> added f h.
Proof.
  intros A B. constructor.
  - intros q n H. destruct (ad_names _ _ A q n H) as [H'|(t & m & i & -> & H')].
    + destruct (ad_names _ _ B q n H') as [K|(t & m & i & -> & K)]; [now left|right; eauto 6].
    + right. destruct (ad_names _ _ B q _ H') as [K|(t' & m' & j & K & _)]; [eauto 6|discriminate K].
  - intros i Hi. destruct (ad_inodes _ _ A i Hi) as [<- <-]. apply (ad_inodes _ _ B). pose proof (ad_next _ _ A). lia.
  - pose proof (ad_next _ _ A). pose proof (ad_next _ _ B). lia.
  - intros H. apply (ad_given _ _ B), (ad_given _ _ A), H.
Qed.
Lemma added_time t f : added f (at_time t f).
Proof. constructor; cbn [at_time h_names h_data h_mtime h_next]; auto; try lia. Qed.

(** ** Extraction *)
Definition given (f : hostfs) : Prop := inodes_given f.
Lemma given_set f q v : given f -> (forall i, v = Some (HFile i) -> i < h_next f) -> given (set_name f q v).
Proof.
  intros H Hv p i. cbn [set_name h_names h_next]. destruct (path_eqb' p q); auto. apply H.
Qed.
Lemma mkdir_given f p : given f -> given (fst (mkdir f p)).
Proof. intros H. unfold mkdir. destruct (look f false p); cbn [fst]; auto. apply given_set; auto. intros i K; discriminate K. Qed.
Lemma create_dir_all_rev_given s l : forall f, given f -> given (fst (create_dir_all_rev f s l)).
Proof.
  induction l as [|c l IH]; intros f Hf; cbn [create_dir_all_rev]; auto.
  pose proof (mkdir_given f (s, rev (c :: l)) Hf) as H1. destruct (mkdir f (s, rev (c :: l))) as [f1 [e|]]; cbn [fst] in *; auto.
  assert (Hd : given (fst (if is_dir_path f1 (s, rev (c :: l)) then (f1, None) else (f1, Some e)))) by (destruct (is_dir_path f1 (s, rev (c :: l))); exact H1).
  destruct e; try exact Hd. specialize (IH f1 H1). destruct (create_dir_all_rev f1 s l) as [f2 [e|]]; cbn [fst] in *; auto.
  pose proof (mkdir_given f2 (s, rev (c :: l)) IH) as H3. destruct (mkdir f2 (s, rev (c :: l))) as [f3 [e|]]; cbn [fst] in *; auto.
  destruct (is_dir_path f3 (s, rev (c :: l))); exact H3.
Qed.
Lemma create_dir_all_given f p : given f -> given (fst (create_dir_all f p)).
Proof. apply create_dir_all_rev_given. Qed.
Lemma symlink_given f t p : given f -> given (fst (symlink f t p)).
Proof.
  intros H. unfold symlink. destruct t; auto. destruct (look f false p); cbn [fst]; auto. apply given_set; auto. intros i K; discriminate K.
Qed.
Lemma open_new_given f p : given f -> given (fst (open_new f p)).
Proof.
  intros H. unfold open_new. destruct (look f false p) as [q n|q|e]; cbn [fst]; auto.
  intros r i. cbn [touch set_data bump set_name h_names h_next]. destruct (path_eqb' r q); [intros K; injection K as <-; lia|].
  intros K. apply H in K. lia.
Qed.

Definition cgiven (c : ctx) : Prop := given (x_fs c).
Lemma one_turn_given c x : cgiven c -> cgiven (one_turn c x).
Proof.
  intros H. unfold one_turn. destruct (nth_error (x_tasks c) (fst x)) as [t|]; auto. unfold write_turn. destruct (t_done t); auto.
  destruct (snd x); auto.
Qed.
Lemma run_turns_given l : forall c, cgiven c -> cgiven (run_turns l c).
Proof. induction l as [|x l IH]; intros c Hc; cbn; auto. apply IH. now apply one_turn_given. Qed.
Lemma tick_given sched c : cgiven c -> cgiven (tick sched c).
Proof. intros H. exact (run_turns_given (sched (x_tick c)) c H). Qed.

Section Given.
  Variables (a : archive) (cfg : config) (sched : nat -> turns).
  Hypothesis Hpol : preserving (x_policy cfg).
  Lemma open_target_given cur m f : given f -> given (fst (open_target cfg cur m f)).
  Proof.
    intros H. unfold open_target. pose proof (open_new_given f (abs_path cfg cur) H) as H1.
    destruct (open_new f (abs_path cfg cur)) as [f' [i|e]]; cbn [fst snd] in *; auto.
    destruct e; auto. destruct Hpol as [->|[->| ->]]; auto.
  Qed.
  Lemma make_link_given cur t m f : given f -> given (fst (make_link cfg cur t m f)).
  Proof.
    intros H. unfold make_link. pose proof (symlink_given f t (abs_path cfg cur) H) as H1.
    destruct (symlink f t (abs_path cfg cur)) as [f' [e|]]; cbn [fst snd] in *; auto.
    destruct e; auto. destruct Hpol as [->|[->| ->]]; auto.
  Qed.
  Lemma file_given c x : cgiven c -> cgiven (fst (x_on_file a cfg sched c x)).
  Proof.
    intros Hc. destruct x as [[nm ad] mt]. unfold x_on_file. pose proof (tick_given sched c Hc) as Ht. set (c1 := tick sched c) in *.
    destruct (should_extract cfg (push (x_cur c1) nm) false); [|exact Ht].
    destruct (a_fetch a ad) as [data| | |]; try exact Ht.
    pose proof (open_target_given (push (x_cur c1) nm) mt (x_fs c1) Ht) as O.
    destruct (open_target cfg (push (x_cur c1) nm) mt (x_fs c1)) as [g [[i|]| | |]]; exact O.
  Qed.
  Lemma link_given c x : cgiven c -> cgiven (fst (x_on_link cfg sched c x)).
  Proof.
    intros Hc. destruct x as [[nm t] mt]. unfold x_on_link. pose proof (tick_given sched c Hc) as Ht. set (c1 := tick sched c) in *.
    destruct (should_extract cfg (push (x_cur c1) nm) false); [|exact Ht].
    pose proof (make_link_given (push (x_cur c1) nm) t mt (x_fs c1) Ht) as O.
    destruct (make_link cfg (push (x_cur c1) nm) t mt (x_fs c1)) as [g r]; exact O.
  Qed.
  Lemma enter_given c nm : cgiven c -> cgiven (fst (on_enter (extractor a cfg sched) c nm)).
  Proof.
    intros Hc. cbn [on_enter extractor]. pose proof (tick_given sched c Hc) as Ht. set (c1 := tick sched c) in *.
    destruct (should_extract cfg (push (x_cur c1) nm) true); [|exact Ht].
    apply andthen_kept; [|auto]. unfold io, cgiven. cbn [fst with_fs x_fs]. apply create_dir_all_given. exact Ht.
  Qed.
  Lemma start_given c : cgiven c -> cgiven (fst (on_start (extractor a cfg sched) c)).
  Proof.
    intros Hc. cbn [on_start extractor]. pose proof (tick_given sched c Hc) as Ht. unfold io, cgiven. cbn [fst with_fs x_fs].
    apply create_dir_all_given. exact Ht.
  Qed.
  Lemma extractor_given : preserves (extractor a cfg sched) cgiven.
  Proof. constructor; [exact start_given|auto|exact enter_given|auto|exact file_given|exact link_given]. Qed.
  Lemma killed_given n j : preserves (killed_extractor a cfg sched n j) cgiven.
  Proof.
    constructor.
    - intros c Hc. cbn [on_start killed_extractor]. destruct (x_tick c =? n)%nat; [|now apply start_given]. cbn [fst].
      unfold cgiven. cbn [with_fs x_fs]. apply create_dir_all_given. now apply tick_given.
    - auto.
    - intros c nm Hc. cbn [on_enter killed_extractor]. destruct (x_tick c =? n)%nat; [|now apply enter_given]. cbn [fst].
      pose proof (tick_given sched c Hc) as Ht. destruct (should_extract _ _ _); auto. unfold cgiven. cbn [with_fs x_fs]. apply create_dir_all_given. exact Ht.
    - auto.
    - intros c x Hc. cbn [on_file killed_extractor]. destruct (x_tick c =? n)%nat; [now apply tick_given|now apply file_given].
    - intros c [[nm t] mt] Hc. cbn [on_link killed_extractor]. destruct (x_tick c =? n)%nat; [|now apply link_given]. cbn [fst].
      pose proof (tick_given sched c Hc) as Ht. destruct (should_extract _ _ _); auto. destruct j; auto. unfold cgiven. cbn [with_fs x_fs].
      rewrite half_link_kept by auto. exact Ht.
  Qed.
End Given.

Lemma kept_added f g : kept f g -> (given f -> given g) -> added f g.
Proof. intros K G. constructor; auto; try apply K. intros q n H. left. now apply (kp_names _ _ K). Qed.

Lemma extract_added a rg cfg sched last f g res : preserving (x_policy cfg) -> extract_range a rg cfg sched last f = (g, res) -> added f g.
Proof.
  intros Hp H. apply kept_added; [eapply any_kept; eauto|]. intros Hf. unfold extract_range in H.
  pose proof (run_from_range_preserves x_builder a _ _ (extractor_given a cfg sched Hp) (walk_fuel a) rg (mkCtx [] f [] false 0) Hf) as K.
  destruct (run_from_range x_builder a (extractor a cfg sched) (walk_fuel a) rg (mkCtx [] f [] false 0)) as [c r]. cbn [fst] in K.
  injection H as <- _. now apply run_turns_given.
Qed.
Lemma killed_added a rg cfg sched last n j f : preserving (x_policy cfg) -> added f (killed_run a rg cfg sched last n j f).
Proof.
  intros Hp. apply kept_added; [now apply any_killed_kept|]. intros Hf. unfold killed_run. apply run_turns_given.
  exact (run_from_range_preserves x_builder a _ _ (killed_given a cfg sched Hp n j) (walk_fuel a) rg (mkCtx [] f [] false 0) Hf).
Qed.

(** ** Creation *)
Lemma hinv_given f dir names final s : hinv f dir names final s -> given f -> given (wr_fs s).
Proof.
  intros I Hf q i Hq. destruct (in_dec (list_eq_dec (list_eq_dec N.eq_dec)) q (map fst (wr_temps s))) as [Ht|Ht].
  - apply in_map_iff in Ht as ([q' j] & <- & Ht). cbn [fst] in Hq. destruct (hv_temp _ _ _ _ _ I q' j Ht) as (A & B & _). assert (i = j) by congruence. lia.
  - assert (Hnt : forall j, ~ In (q, j) (wr_temps s)) by (intros j H; apply Ht, in_map_iff; exists (q, j); auto).
    destruct (under_dec q dir (wr_done s)) as [(k & Hk & ->)|Hd].
    + destruct (hv_done _ _ _ _ _ I k Hk) as (_ & _ & j & c & _ & A & _ & B & _). assert (i = j) by congruence. lia.
    + rewrite (hv_rest _ _ _ _ _ I q Hnt Hd) in Hq. apply Hf in Hq. pose proof (hv_next _ _ _ _ _ I). lia.
Qed.

Lemma hinv_added f dir names final s : hinv f dir names final s ->
  (forall n, In n (wr_done s) -> forall i, h_names f (dir ++ [n]) <> Some (HFile i)) -> added f (wr_fs s).
Proof.
  intros I Hno. constructor; [|apply I|apply I|now apply hinv_given with (1 := I)].
  intros q n Hq. assert (Hnt : forall j, ~ In (q, j) (wr_temps s)) by (intros j H; apply (hv_temp _ _ _ _ _ I) in H as (_ & _ & H & _); congruence).
  destruct (under_dec q dir (wr_done s)) as [(k & Hk & ->)|Hd].
  - right. destruct (hv_done _ _ _ _ _ I k Hk) as (_ & A & j & c & _ & B & _). destruct n as [|i|t m]; [congruence|now apply Hno in Hq|eauto 6].
  - left. now rewrite (hv_rest _ _ _ _ _ I q Hnt Hd).
Qed.

Lemma output_seen w s dir n nd : out_place w s = Some (dir, n) -> ends_with_sep s = false -> (forall c, pieces s <> c ++ [b "."]) ->
  h_names (w_fs w) (dir ++ [n]) = Some nd -> (forall t m, nd <> HLink t m) -> look_str w true s = At (dir ++ [n]) nd.
Proof.
  intros Ho Hs Hd Hn Hl. destruct (C74_output_path w s dir n Ho Hs Hd) as (Hne & _ & c & Hc & Hlook).
  destruct (out_place_name _ _ _ _ Ho) as [N1 N2].
  assert (On : ordinary n). { destruct (in_pieces s n) as [H1 H2]; [rewrite Hc; apply in_app_iff; right; now left|]. repeat split; auto. }
  unfold look_str, opath_of. rewrite Hs, Hc, app_nil_r. destruct s as [|x s]; [easy|].
  unfold look in Hlook |- *. cbn [fst snd] in Hlook |- *.
  destruct (namei_app _ _ true dir [n] ltac:(discriminate) _ _ Hlook) as [k' Hk']. rewrite Hk'.
  rewrite namei_last, Hn by exact On. destruct nd as [|i|t m]; [reflexivity|reflexivity|now destruct (Hl t m)].
Qed.

Lemma create_added J fuel w can_open o x g : names_output J -> create_run J fuel w can_open o x g -> gentle (ICreate o) -> added (w_fs w) g.
Proof.
  intros [_ HJ] R (Hf & Hc & Hs & Hd). destruct (exists_path w (o_out o)) eqn:Ex.
  - assert (g = w_fs w) as ->; [|apply added_refl]. eapply C55_no_force; eauto.
    unfold exists_path in Ex. destruct (look_str w true (o_out o)) as [q n|q|e] eqn:El; try discriminate Ex. exists q, n. exact El.
  - destruct (run_state _ _ _ _ _ _ _ R) as [[-> _]|(dir & n & m & s & Ho & -> & HI)]; [apply added_refl|].
    destruct HI as [(I & _)|(a & c & w' & E & _ & _ & _ & I & _)]; eapply hinv_added; eauto.
    + rewrite (hinv_unsealed _ _ _ _ I). intros k [].
    + intros k Hk i Hi. apply (hv_done _ _ _ _ _ I) in Hk as [Hk _].
      assert (m = OneFile) as ->.
      { destruct (create_shape _ _ _ _ _ _ E) as [[K _]|[(m' & K & _)|(m' & a' & c' & w'' & K & _ & _ & _ & Hcc & _)]]; try discriminate K. injection K as -> _. congruence. }
      rewrite HJ in Hk. destruct Hk as [<-|[]].
      assert (L : look_str w true (o_out o) = At (dir ++ [n]) (HFile i)) by (apply output_seen; auto; intros t mm K; discriminate K).
      unfold exists_path in Ex. rewrite L in Ex. discriminate Ex.
Qed.

(** ** The program *)
Lemma printed_keeps parse J w dv inv h x e b : arx_run parse J w dv inv h x e -> printed parse w inv = Some b -> h = w_fs w.
Proof. intros R H. destruct R; try reflexivity; discriminate H. Qed.

Lemma arx_added parse J w dv inv h x e : names_output J -> arx_run parse J w dv inv h x e -> gentle inv -> added (w_fs w) h.
Proof.
  intros HJ R G. destruct R as [fuel can_open o x g R|inv bu cs r x e Hp Hr|inv bu cs r x e k Hp Hr|infile outdir files fl root rc pol r Hr Hn|infile outdir files fl root rc pol a sched last g r Ha Hx|infile outdir files fl root rc pol|infile outdir files fl root rc pol a rg l sched last n j Ha Hl Hrg]; try apply added_refl.
  - eapply create_added; eauto.
  - unfold extract_cmd in Hx. destruct (files_to_extract w fl files) as [l|e| |]; try (injection Hx as <- _; apply added_refl).
    cbv zeta in Hx. destruct (Fuse.mount_range a root) as [rg|e| |]; try (injection Hx as <- _; apply added_refl).
    eapply extract_added; [|exact Hx]. exact G.
  - apply killed_added. exact G.
Qed.

Lemma runs_added parse J f l g : names_output J -> runs parse J f l g -> Forall gentle l -> added f g.
Proof.
  intros HJ R. induction R as [|l g w t dv inv h x e R IH Hw Hr]; intros Hg; [apply added_refl|].
  apply Forall_app in Hg as [Hg1 Hg2]. inversion Hg2 as [|? ? Hgi _]; subst.
  apply (added_trans _ _ _ (IH Hg1)). apply (added_trans _ (at_time t g)); [apply added_time|]. rewrite <- Hw. eapply arx_added; eauto.
Qed.
