(** C55, C74: what [arx create] leaves on the host, at every system call. *)
From Verif Require Export SpecCreateHost CreateHostFacts PropCli.
From Verif Require Import MountCmd.

(** Every state of the host: the files jbk is writing, and the archive they belong to. *)
Lemma run_state J fuel w can_open o x g : create_run J fuel w can_open o x g ->
  (g = w_fs w /\ (x = Some (Ok tt) -> o_list_compressions o = true)) \/
  exists dir n m s, out_place w (o_out o) = Some (dir, n) /\ g = wr_fs s /\
    ((hinv (w_fs w) dir (jb_names J m n) None s /\ (x = None \/ (wr_temps s = [] /\ x <> Some (Ok tt)))) \/
     exists a c w', create fuel w can_open o = ([Opened m; Written a], Ok tt) /\ fill fuel w w' o = (c, Ok tt) /\ finalize c = Some a /\
       match o_base o with Some d => chdir w d = Ok w' | None => w' = w end /\
       hinv (w_fs w) dir (jb_names J m n) (Some (jb_bytes J m n c)) s /\
       (x = None \/
        (wr_temps s = [] /\ (forall k, In k (jb_names J m n) -> In k (wr_done s)) /\ x = Some (Ok tt)) \/
        (wr_temps s = [] /\ (exists k, In k (jb_names J m n) /\ ~ In k (wr_done s)) /\ exists e, x = Some (Err (EIo e))))).
Proof.
  intros [|r E|m r dir n s y Ho E C Hx|m a c w' dir n s1 s2 y Ho E Hb Hf C1 C2 Hx].
  - left. split; [reflexivity|intros H; discriminate H].
  - left. split; [reflexivity|]. intros H. injection H as ->.
    destruct (create_shape _ _ _ _ _ _ E) as [[_ K]|[(m & K & _)|(m & a & c & w' & K & _)]]; auto; discriminate K.
  - right. exists dir, n, m, s. split; auto. split; auto. left. split; [eapply hinv_calls; [apply hinv_start|eassumption]|].
    destruct Hx as [Hx|[H1 Hx]]; [now left|right]. split; auto. intros ->. injection Hx as <-.
    destruct (create_shape _ _ _ _ _ _ E) as [[K _]|[(m' & _ & K)|(m' & a & c & w' & K & _)]]; try discriminate K. now apply K.
  - right. exists dir, n, m, s2. split; auto. split; auto. right. exists a, c, w'. split; auto. split; auto. split.
    { destruct (create_shape _ _ _ _ _ _ E) as [[K _]|[(m' & K & _)|(m' & a' & c' & w'' & K & _ & Hf' & Hfin & _ & Hb')]]; try discriminate K.
      injection K as <- <-. assert (w'' = w') as -> by (destruct (o_base o); congruence). congruence. }
    split; auto. split; auto. eapply hinv_calls; [apply hinv_seal; eapply hinv_calls; [apply hinv_start|eassumption]|eassumption].
Qed.

Lemma under_dec (p dir : path) (l : list bytes) : (exists k, In k l /\ p = dir ++ [k]) \/ (forall k, In k l -> p <> dir ++ [k]).
Proof.
  induction l as [|x l IH]; [right; intros k []|]. destruct (list_eq_dec (list_eq_dec N.eq_dec) p (dir ++ [x])) as [E|E].
  - left. exists x. cbn; auto.
  - destruct IH as [(k & H1 & H2)|IH]; [left; exists k; cbn; auto|right]. intros k [<-|H]; auto.
Qed.

Lemma filled_complete J fuel w w' o c a m n k : fill fuel w w' o = (c, Ok tt) -> finalize c = Some a -> complete J m n k a (jb_bytes J m n c k).
Proof.
  intros Hf Hfin. destruct (fill_session _ _ _ _ _ Hf) as (l & E & Hok). exists l, (cr_contents c). split; auto.
  destruct c as [st ct]. cbn [cr_entries cr_contents] in *. subst st. split; [exact Hfin|reflexivity].
Qed.

(** C55: killed at any system call, or not: the output path holds what was there before, or a complete
    file of the archive of a session whose additions all succeeded. *)
Theorem C55_crash_points : forall J fuel w can_open o x g dir n, inodes_given (w_fs w) -> names_output J ->
  create_run J fuel w can_open o x g -> out_place w (o_out o) = Some (dir, n) ->
  unchanged (w_fs w) g (dir ++ [n]) \/
  exists m a d, create fuel w can_open o = ([Opened m; Written a], Ok tt) /\ complete J m n n a d /\ has_file g (dir ++ [n]) d.
Proof.
  intros J fuel w can_open o x g dir n Hino [HJ _] R Ho.
  destruct (run_state _ _ _ _ _ _ _ R) as [[-> _]|(dir' & n' & m & s & Ho' & -> & [(I & _)|(a & c & w' & E & Hf & Hfin & _ & I & _)])].
  - left. split; [reflexivity|auto].
  - assert (dir' = dir /\ n' = n) as [-> ->] by (split; congruence). left.
    eapply (hinv_unchanged (w_fs w) dir (jb_names J m n)); eauto.
    + intros i H. eapply (hv_temp _ _ _ _ _ I) in H as (_ & _ & _ & k & H & H'). apply app_inj_tail in H as [_ <-]. apply H', HJ.
    + rewrite (hinv_unsealed _ _ _ _ I). intros k [].
  - assert (dir' = dir /\ n' = n) as [-> ->] by (split; congruence).
    destruct (in_dec (list_eq_dec N.eq_dec) n (wr_done s)) as [Hd|Hd].
    + right. exists m, a. pose proof (hv_done _ _ _ _ _ I n Hd) as (_ & _ & i & content & Hc & H1 & H2 & _). injection Hc as <-.
      exists (jb_bytes J m n c n). split; auto. split; [eapply filled_complete; eauto|]. exists i. auto.
    + left. eapply (hinv_unchanged (w_fs w) dir (jb_names J m n)); eauto.
      * intros i H. eapply (hv_temp _ _ _ _ _ I) in H as (_ & _ & _ & k & H & H'). apply app_inj_tail in H as [_ <-]. apply H', HJ.
      * intros k Hk H. apply app_inj_tail in H as [_ <-]. contradiction.
Qed.
Print Assumptions C55_crash_points.

(** Everything else is untouched, but for temporary files (under names that were free, beside the
    output) and complete files of that archive; when the output has no place nothing changes at all. *)
Theorem C55_elsewhere : forall J fuel w can_open o x g p, inodes_given (w_fs w) ->
  create_run J fuel w can_open o x g ->
  unchanged (w_fs w) g p \/
  exists dir n m k, out_place w (o_out o) = Some (dir, n) /\ p = dir ++ [k] /\
    ((~ In k (jb_names J m n) /\ h_names (w_fs w) p = None /\ x = None) \/
     (In k (jb_names J m n) /\ exists a d, create fuel w can_open o = ([Opened m; Written a], Ok tt) /\ complete J m n k a d /\ has_file g p d)).
Proof.
  intros J fuel w can_open o x g p Hino R.
  destruct (run_state _ _ _ _ _ _ _ R) as [[-> _]|(dir & n & m & s & Ho & -> & HI)]; [left; split; auto|].
  assert (I : exists final, hinv (w_fs w) dir (jb_names J m n) final s) by (destruct HI as [(I & _)|(a & c & w' & _ & _ & _ & _ & I & _)]; eauto).
  destruct I as [final I].
  destruct (in_dec (list_eq_dec (list_eq_dec N.eq_dec)) p (map fst (wr_temps s))) as [Ht|Ht].
  - right. apply in_map_iff in Ht as ([q i] & <- & Ht). cbn [fst]. pose proof (hv_temp _ _ _ _ _ I q i Ht) as (_ & _ & H0 & k & -> & Hk).
    exists dir, n, m, k. split; auto. split; auto. left. split; auto. split; auto.
    destruct HI as [(_ & [H|[H _]])|(a & c & w' & _ & _ & _ & _ & _ & [H|[(H & _)|(H & _)]])]; auto; rewrite H in Ht; destruct Ht.
  - assert (Hnt : forall i, ~ In (p, i) (wr_temps s)) by (intros i H; apply Ht, in_map_iff; exists (p, i); auto).
    assert (Hd : (exists k, In k (wr_done s) /\ p = dir ++ [k]) \/ (forall k, In k (wr_done s) -> p <> dir ++ [k])) by apply under_dec.
    destruct Hd as [(k & Hk & ->)|Hd]; [|left; eapply hinv_unchanged; eauto].
    right. exists dir, n, m, k. split; auto. split; auto. right.
    destruct HI as [(I' & _)|(a & c & w' & E & Hf & Hfin & _ & I' & _)].
    + rewrite (hinv_unsealed _ _ _ _ I') in Hk. destruct Hk.
    + pose proof (hv_done _ _ _ _ _ I' k Hk) as (Hkn & _ & i & content & Hc & H1 & H2 & _). injection Hc as <-. split; auto.
      exists a, (jb_bytes J m n c k). split; auto. split; [eapply filled_complete; eauto|]. exists i. auto.
Qed.
Print Assumptions C55_elsewhere.

(** A successful run leaves the whole archive, all its files of the same session, and nothing else. *)
Theorem C55_done : forall J fuel w can_open o g, inodes_given (w_fs w) -> o_list_compressions o = false ->
  create_run J fuel w can_open o (Some (Ok tt)) g ->
  exists dir n m a l contents, out_place w (o_out o) = Some (dir, n) /\ create fuel w can_open o = ([Opened m; Written a], Ok tt) /\
    all_ok l /\ archive_of l (fetch_of contents) a /\
    (forall k, In k (jb_names J m n) -> has_file g (dir ++ [k]) (jb_bytes J m n (mkCreator (after l) contents) k)) /\
    (forall p, (forall k, In k (jb_names J m n) -> p <> dir ++ [k]) -> unchanged (w_fs w) g p).
Proof.
  intros J fuel w can_open o g Hino Hl R.
  destruct (run_state _ _ _ _ _ _ _ R) as [[_ K]|(dir & n & m & s & Ho & -> & HI)]; [rewrite K in Hl; [discriminate Hl|reflexivity]|].
  destruct HI as [(_ & [H|[_ H]])|(a & c & w' & E & Hf & Hfin & _ & I & [H|[(Ht & Hd & _)|(_ & _ & e & H)]])]; try discriminate H; [now destruct H|].
  destruct (fill_session _ _ _ _ _ Hf) as (l & El & Hok). destruct c as [st ct]. cbn [cr_entries] in El. subst st.
  exists dir, n, m, a, l, ct. split; auto. split; auto. split; auto. split; [exact Hfin|]. split.
  - intros k Hk. pose proof (hv_done _ _ _ _ _ I k (Hd k Hk)) as (_ & _ & i & content & Hc & H1 & H2 & _). injection Hc as <-. exists i. auto.
  - intros p Hp. eapply hinv_unchanged; eauto.
    + rewrite Ht. intros i [].
    + intros k Hk. apply Hp. now apply (hv_done _ _ _ _ _ I) in Hk.
Qed.
Print Assumptions C55_done.

(** A run that does not succeed leaves no temporary file; with one file (the default) it leaves the
    host as it was, whatever was at the output path, [--force] or not. *)
Theorem C55_failed : forall J fuel w can_open o r g, inodes_given (w_fs w) -> names_output J ->
  create_run J fuel w can_open o (Some r) g -> r <> Ok tt ->
  (forall p, unchanged (w_fs w) g p) \/
  (exists m a dir n, m <> OneFile /\ create fuel w can_open o = ([Opened m; Written a], Ok tt) /\ out_place w (o_out o) = Some (dir, n) /\
     forall p, unchanged (w_fs w) g p \/ exists k d, In k (jb_names J m n) /\ p = dir ++ [k] /\ complete J m n k a d /\ has_file g p d).
Proof.
  intros J fuel w can_open o r g Hino [HJ HJ1] R Hr.
  destruct (run_state _ _ _ _ _ _ _ R) as [[-> _]|(dir & n & m & s & Ho & -> & HI)]; [left; split; auto|].
  destruct HI as [(I & [H|[Ht _]])|(a & c & w' & E & Hf & Hfin & _ & I & [H|[(_ & _ & H)|(Ht & (k0 & Hk0 & Hnd) & e & H)]])]; try discriminate H.
  - left. intros p. eapply hinv_unchanged; eauto; [rewrite Ht; intros i []|rewrite (hinv_unsealed _ _ _ _ I); intros k []].
  - now injection H as ->.
  - destruct m as [| |]; [left| |].
    + intros p. rewrite HJ1 in *. eapply hinv_unchanged; eauto; [rewrite Ht; intros i []|]. intros k Hk. exfalso.
      pose proof (hv_done _ _ _ _ _ I k Hk) as (Hkn & _). destruct Hkn as [<-|[]]. destruct Hk0 as [<-|[]]. contradiction.
    + right. exists TwoFiles, a, dir, n. split; [discriminate|]. split; auto. split; auto. intros p.
      destruct (C55_elsewhere J fuel w can_open o (Some r) (wr_fs s) p Hino R) as [K|(dir' & n' & m' & k & Ho' & -> & [(_ & _ & K)|(K1 & a' & d & K2 & K3 & K4)])]; [now left|discriminate K|].
      right. exists k, d. assert (n' = n /\ dir' = dir /\ m' = TwoFiles /\ a' = a) as (-> & -> & -> & ->) by (repeat split; congruence). auto.
    + right. exists NoConcat, a, dir, n. split; [discriminate|]. split; auto. split; auto. intros p.
      destruct (C55_elsewhere J fuel w can_open o (Some r) (wr_fs s) p Hino R) as [K|(dir' & n' & m' & k & Ho' & -> & [(_ & _ & K)|(K1 & a' & d & K2 & K3 & K4)])]; [now left|discriminate K|].
      right. exists k, d. assert (n' = n /\ dir' = dir /\ m' = NoConcat /\ a' = a) as (-> & -> & -> & ->) by (repeat split; congruence). auto.
Qed.
Print Assumptions C55_failed.

(** Without [--force] an output path that leads to something is never touched, nor anything else. *)
Theorem C55_no_force : forall J fuel w can_open o x g, create_run J fuel w can_open o x g ->
  o_force o = false -> leads_to_something w (o_out o) -> g = w_fs w.
Proof.
  intros J fuel w can_open o x g R Hf (q & nd & Hq).
  assert (K : fst (create fuel w can_open o) = []).
  { unfold create. destruct (o_list_compressions o); auto. unfold check_output_path_writable, exists_path. rewrite Hq, Hf.
    destruct (out_comps w (o_out o)) as [|c l]; auto. destruct (negb _); auto. }
  destruct R as [|r E|m r dir n s y Ho E C Hx|m a c w' dir n s1 s2 y Ho E Hb Hfl C1 C2 Hx]; auto; rewrite E in K; discriminate K.
Qed.
Print Assumptions C55_no_force.

(** ** Opening what was created *)
Lemma out_place_name w s dir n : out_place w s = Some (dir, n) -> n <> b "." /\ n <> b "..".
Proof.
  unfold out_place. destruct (rev (filter not_dot (pieces s))) as [|x r] eqn:E; [discriminate|]. destruct (bytes_eqb_spec x (b "..")) as [|Hx]; [discriminate|].
  destruct (look _ _ _) as [q [|i|t m]|q|e]; try discriminate. intros H. injection H as <- <-. split; auto. intros ->.
  assert (Hin : In (b ".") (filter not_dot (pieces s))) by (apply in_rev; rewrite E; now left). apply filter_In in Hin as [_ Hin]. discriminate Hin.
Qed.

(** The output path itself leads to the output, unless it ends with "/" or "/.". *)
Theorem C74_output_path : forall w s dir n, out_place w s = Some (dir, n) -> ends_with_sep s = false -> (forall c, pieces s <> c ++ [b "."]) ->
  leads_into w s dir n.
Proof.
  intros w s dir n Ho He Hd. unfold out_place in Ho.
  destruct (rev (filter not_dot (pieces s))) as [|x r] eqn:E; [discriminate Ho|]. destruct (bytes_eqb_spec x (b "..")) as [|Hx]; [discriminate Ho|].
  destruct (look (w_fs w) true (if is_abs s then [] else w_cwd w, rev r)) as [q [|i|t m]|q|e] eqn:El; try discriminate Ho. injection Ho as <- <-.
  assert (Hne : pieces s <> []) by (intros H; rewrite H in E; discriminate E).
  split; [intros ->; now apply Hne|]. split; auto. destruct (exists_last Hne) as (c & y & Ec). rewrite Ec, filter_app in E. cbn [filter] in E.
  assert (Hy : not_dot y = true). { unfold not_dot. destruct (bytes_eqb_spec y (b ".")) as [->|]; auto. now destruct (Hd c). }
  rewrite Hy, rev_app_distr in E. cbn [rev app] in E. injection E as -> <-. exists c. split; auto.
  unfold look in *. cbn [fst snd] in *. rewrite rev_involutive in El. eapply namei_undot; [apply undot_filter|exact El].
Qed.
Print Assumptions C74_output_path.

(** C74: what a successful [create] wrote is what the readers open: by any path that leads to the
    output, from any current directory, [Arx::new] gives the archive of the session, when jbk reads
    back the bytes it wrote. *)
Theorem C74_reopened : forall parse J fuel w can_open o g w1 s dir n, inodes_given (w_fs w) -> names_output J ->
  o_list_compressions o = false -> create_concat (o_concat o) = Ok OneFile ->
  create_run J fuel w can_open o (Some (Ok tt)) g -> out_place w (o_out o) = Some (dir, n) ->
  (forall t m, h_names (w_fs w) (dir ++ [n]) <> Some (HLink t m)) ->
  (forall c a w', fill fuel w w' o = (c, Ok tt) -> finalize c = Some a ->
     match o_base o with Some d => chdir w d = Ok w' | None => w' = w end -> parse (jb_bytes J OneFile n c n) = Ok a) ->
  w_fs w1 = w_fs w -> leads_into w1 s dir n ->
  exists a l contents, create fuel w can_open o = ([Opened OneFile; Written a], Ok tt) /\
    all_ok l /\ archive_of l (fetch_of contents) a /\
    open_archive parse (mkWorld g (w_attr w1) (w_list w1) (w_cwd w1)) s = Ok a.
Proof.
  intros parse J fuel w can_open o g w1 s dir n Hino [HJ HJ1] Hl Hm R Ho Hlink Hparse Hw1 (Hs & Hsep & c & Hc & Hlook).
  destruct (run_state _ _ _ _ _ _ _ R) as [[_ K]|(dir' & n' & m & st & Ho' & -> & HI)]; [rewrite K in Hl; [discriminate Hl|reflexivity]|].
  destruct HI as [(_ & [H|[_ H]])|(a & cr & w' & E & Hf & Hfin & Hb & I & [H|[(Ht & Hd & _)|(_ & _ & e & H)]])]; try discriminate H; [now destruct H|].
  assert (dir' = dir /\ n' = n) as [-> ->] by (split; congruence).
  assert (m = OneFile) as ->.
  { destruct (create_shape _ _ _ _ _ _ E) as [[K _]|[(m' & K & _)|(m' & a' & c' & w'' & K & _ & _ & _ & Hcc & _)]]; try discriminate K. injection K as -> _. congruence. }
  rewrite HJ1 in *. destruct (fill_session _ _ _ _ _ Hf) as (l & El & Hok). exists a, l, (cr_contents cr). split; auto. split; auto.
  split; [unfold archive_of; rewrite <- El; exact Hfin|].
  assert (Hn : ordinary n).
  { destruct (out_place_name _ _ _ _ Ho). destruct (in_pieces s n) as [H1 H2]; [rewrite Hc; apply in_app_iff; right; now left|]. repeat split; auto. }
  pose proof (hv_done _ _ _ _ _ I n (Hd n (or_introl eq_refl))) as (_ & Hnd & i & content & Hct & Hi1 & Hi2 & _). injection Hct as <-.
  assert (Hstay : forall p, h_names (wr_fs st) p = h_names (w_fs w) p \/ (h_names (w_fs w) p <> Some HDir /\ forall t m, h_names (w_fs w) p <> Some (HLink t m))).
  { intros p. destruct (list_eq_dec (list_eq_dec N.eq_dec) p (dir ++ [n])) as [->|Hp]; [right; split; auto|left].
    apply (hv_rest _ _ _ _ _ I); [rewrite Ht; intros j []|]. intros k Hk. pose proof (hv_done _ _ _ _ _ I k Hk) as ([<-|[]] & _). exact Hp. }
  unfold look in Hlook. cbn [fst snd] in Hlook. rewrite Hw1 in Hlook. apply (namei_stays _ _ _ Hstay) in Hlook.
  destruct (namei_app _ _ true dir [n] ltac:(discriminate) _ _ Hlook) as [k' Hk'].
  rewrite namei_last, Hi1 in Hk' by exact Hn.
  unfold open_archive, look_str, opath_of. cbn [w_fs w_cwd]. rewrite Hsep, Hc, app_nil_r. destruct s as [|x s]; [easy|].
  unfold look. cbn [fst snd]. rewrite Hk', Hi2. now apply (Hparse cr a w').
Qed.
Print Assumptions C74_reopened.

(** ** A creation, step by step *)
Definition demo_jbk : jbk := mkJbk (fun m n => match m with OneFile => [n] | _ => [n; n ++ b "c"] end) (fun _ _ _ k => k ++ b "!").
Definition tmp_name : bytes := b ".tmp7".
Definition h_tmp : path := [b "h"; tmp_name].
Definition fs_tmp : hostfs := make_temp src_fs h_tmp.
Definition fs_half : hostfs := touch (set_data fs_tmp 3 (b "out")) 3.
Definition fs_full : hostfs := touch (set_data fs_half 3 (b "out.arx!")) 3.
Definition fs_final : hostfs := rename_file fs_full h_tmp [b "h"; b "out.arx"].

Lemma demo_half : jbk_calls [b "h"] [b "out.arx"] None (mkWriting src_fs [] []) (mkWriting fs_half [(h_tmp, 3)] []).
Proof.
  eapply calls_more; [eapply calls_more; [constructor|]|].
  - apply (call_temp [b "h"] [b "out.arx"] None src_fs [] [] tmp_name); [intros [H|[]]; discriminate H|reflexivity].
  - eapply (call_write _ _ _ _ _ _ h_tmp 3 (b "out")). left. reflexivity.
Qed.
Lemma demo_full : jbk_calls [b "h"] [b "out.arx"] (Some (fun k => k ++ b "!")) (mkWriting fs_half [(h_tmp, 3)] []) (mkWriting fs_final [] [b "out.arx"]).
Proof.
  eapply calls_more; [eapply calls_more; [constructor|]|].
  - eapply (call_write _ _ _ _ _ _ h_tmp 3 (b "out.arx!")). left. reflexivity.
  - change (@nil (path * N)) with (without h_tmp [(h_tmp, 3)]).
    apply (call_rename [b "h"] [b "out.arx"] (Some (fun k => k ++ b "!")) fs_full [(h_tmp, 3)] [] h_tmp 3 (b "out.arx") (fun k => k ++ b "!")); try reflexivity; try (left; reflexivity). discriminate.
Qed.

Example C55_meets_hypotheses :
  inodes_given src_fs /\ names_output demo_jbk /\ out_place src_world (o_out o_src) = Some ([b "h"], b "out.arx") /\
  (exists a, create 3 src_world true o_src = ([Opened OneFile; Written a], Ok tt)) /\
  (* killed while writing: a temporary file is there, the output is not *)
  (create_run demo_jbk 3 src_world true o_src None fs_half /\ h_names fs_half h_tmp <> None /\ h_names fs_half [b "h"; b "out.arx"] = None) /\
  (* finished *)
  (create_run demo_jbk 3 src_world true o_src (Some (Ok tt)) fs_final /\ h_names fs_final h_tmp = None /\ has_file fs_final [b "h"; b "out.arx"] (b "out.arx!")).
Proof.
  assert (E : exists a c, create 3 src_world true o_src = ([Opened OneFile; Written a], Ok tt) /\ fill 3 src_world src_world o_src = (c, Ok tt)).
  { eexists. eexists. split; vm_compute; reflexivity. }
  destruct E as (a & c & E & Hf).
  split; [|split; [|split; [|split; [|split]]]].
  - intros q i H. cbn [src_fs host_of h_names] in H. apply lookup_in in H. unfold src_names in H.
    repeat (destruct H as [H|H]; [first [discriminate H | injection H as <- <-; vm_compute; reflexivity]|]). destruct H.
  - split; [intros [| |] n; left; reflexivity|reflexivity].
  - vm_compute. reflexivity.
  - eauto.
  - split; [|split; [vm_compute; discriminate|vm_compute; reflexivity]].
    change fs_half with (wr_fs (mkWriting fs_half [(h_tmp, 3)] [])).
    eapply (run_written _ _ _ _ _ OneFile a c src_world [b "h"] (b "out.arx")); [vm_compute; reflexivity|exact E|reflexivity|exact Hf|exact demo_half|constructor|now left].
  - split; [|split; [vm_compute; reflexivity|exists 3; split; vm_compute; reflexivity]].
    change fs_final with (wr_fs (mkWriting fs_final [] [b "out.arx"])).
    eapply (run_written _ _ _ _ _ OneFile a c src_world [b "h"] (b "out.arx")); [vm_compute; reflexivity|exact E|reflexivity|exact Hf|exact demo_half|exact demo_full|].
    right. left. split; [reflexivity|]. split; [intros k H; exact H|reflexivity].
Qed.
Example C74_meets_hypotheses : exists a, (* the bytes are read back *)
  create 3 src_world true o_src = ([Opened OneFile; Written a], Ok tt) /\
  create_concat (o_concat o_src) = Ok OneFile /\ o_list_compressions o_src = false /\
  (forall c a', fill 3 src_world src_world o_src = (c, Ok tt) -> finalize c = Some a' -> (fun _ : bytes => Ok a) (jb_bytes demo_jbk OneFile (b "out.arx") c (b "out.arx")) = Ok a') /\
  leads_into src_world (b "src/.././out.arx") [b "h"] (b "out.arx").
Proof.
  assert (E : exists a c, create 3 src_world true o_src = ([Opened OneFile; Written a], Ok tt) /\ fill 3 src_world src_world o_src = (c, Ok tt) /\ finalize c = Some a).
  { eexists. eexists. split; [|split]; vm_compute; reflexivity. }
  destruct E as (a & c & E & Hf & Hfin). exists a. split; auto. split; [reflexivity|]. split; [reflexivity|]. split.
  - intros c' a' Hf' Hfin'. cbv beta. congruence.
  - split; [discriminate|]. split; [reflexivity|]. exists [b "src"; b ".."; b "."]. split; vm_compute; reflexivity.
Qed.
