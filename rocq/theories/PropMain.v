(** C76, C77: runs of the program [arx]. *)
From Verif Require Export MainFacts FuelFacts PropCreated PropOutput.
From Verif Require Import MountCmd.

(** ** C76 *)
(** Whatever is run, finished or killed at any system call, from anywhere: as long as nothing is asked to
    be replaced, every path keeps what it had, bytes and times; at most a symbolic link becomes a file. *)
Theorem C76_nothing_lost : forall parse J f l g q n, inodes_given f -> names_output J ->
  runs parse J f l g -> Forall gentle l -> h_names f q = Some n ->
  unchanged f g q \/ exists t m i, n = HLink t m /\ h_names g q = Some (HFile i).
Proof.
  intros parse J f l g q n Hino HJ R G Hq. pose proof (runs_added _ _ _ _ _ HJ R G) as A.
  destruct (ad_names _ _ A q n Hq) as [H|H]; [left|now right]. split; [congruence|]. intros i Hi. apply (ad_inodes _ _ A). now apply Hino in Hi.
Qed.
Print Assumptions C76_nothing_lost.

(** A directory or a file stays what it is. *)
Theorem C76_files_stay : forall parse J f l g q d, inodes_given f -> names_output J ->
  runs parse J f l g -> Forall gentle l -> has_file f q d -> has_file g q d.
Proof.
  intros parse J f l g q d Hino HJ R G (i & Hi & Hd).
  destruct (C76_nothing_lost parse J f l g q _ Hino HJ R G Hi) as [[H1 H2]|(t & m & j & H & _)]; [|discriminate H].
  exists i. split; [congruence|]. rewrite <- Hd. now apply H2.
Qed.
Print Assumptions C76_files_stay.

(** [list] and [dump] (whatever its options) change nothing at all, however they end. *)
Theorem C76_readers_change_nothing : forall parse J w dv inv h x e,
  (exists s v, inv = IList s v) \/ (exists s p out, inv = IDump s p out) -> arx_run parse J w dv inv h x e -> h = w_fs w.
Proof.
  intros parse J w dv inv h x e [(s & v & ->)|(s & p & out & ->)] R; eapply printed_keeps; try exact R; reflexivity.
Qed.
Print Assumptions C76_readers_change_nothing.

(** C76: when the path given does not lead to a file, or jbk refuses to read it as an archive (or aborts),
    [list], [dump] and [extract] (whatever their options) print nothing, change nothing and do not end with success. *)
Theorem C76_not_an_archive : forall parse J w dv inv h x e s,
  (exists v, inv = IList s v) \/ (exists p out, inv = IDump s p out) \/ (exists od files fl root rc pol, inv = IExtract s od files fl root rc pol) ->
  (forall d, shows_file w s d -> parse d = Panic \/ exists err, parse d = Err err) ->
  arx_run parse J w dv inv h x e -> h = w_fs w /\ x = [] /\ e <> Some (Exits 0).
Proof.
  intros parse J w dv inv h x e s Hi Hp R.
  assert (Ho : open_archive parse w s = Panic \/ exists err, open_archive parse w s = Err err).
  { unfold open_archive. destruct (look_str w true s) as [q n|q|err] eqn:El; [|right; eexists; reflexivity|right; eexists; reflexivity].
    destruct n as [|i|t m]; [right; eexists; reflexivity| |right; eexists; reflexivity]. apply Hp. exists q, i. auto. }
  assert (Hon : forall k cs (r : res unit), on_archive parse w s k = (concat cs, r) -> concat cs = [] /\ r <> Ok tt /\ r <> Diverge).
  { intros k cs r H. unfold on_archive in H. destruct Ho as [Ho|(err & Ho)]; rewrite Ho in H; injection H as H1 H2; rewrite <- H1, <- H2; repeat split; discriminate. }
  assert (Hpr : forall bu cs (r : res unit), printed parse w inv = Some (bu, (concat cs, r)) -> concat cs = [] /\ r <> Ok tt /\ r <> Diverge).
  { intros bu cs r H. destruct Hi as [(v & ->)|[(p & out & ->)|(od & files & fl & root & rc & pol & ->)]]; cbn [printed] in H; [| |discriminate H].
    - injection H as _ H. exact (Hon _ _ _ H).
    - injection H as _ H. exact (Hon _ _ _ H). }
  assert (Hend : forall bu cs (r : res unit) y z, concat cs = [] /\ r <> Ok tt /\ r <> Diverge -> process dv bu cs r = (y, z) -> y = [] /\ z <> Exits 0).
  { intros bu cs r y z (Hc & Hr & Hd) H. rewrite C75_enough in H; [|exact Hd|rewrite Hc; cbn [length]; lia]. rewrite Hc in H. injection H as <- <-. split; [reflexivity|].
    destruct r as [[]|err| |]; [now destruct Hr| | |]; discriminate. }
  assert (Hx : forall fl files (a : archive), extract_from parse w s fl files <> Ok a).
  { intros fl files a H. unfold extract_from in H. destruct (files_to_extract w fl files) as [l|err| |]; cbn [bind] in H; try discriminate H. destruct Ho as [Ho|(err & Ho)]; rewrite Ho in H; discriminate H. }
  destruct R as [fuel can_open o x0 g R|inv bu cs r x e Hq Hr|inv bu cs r x e k Hq Hr|infile outdir files fl root rc pol r Hr Hn|infile outdir files fl root rc pol a sched last g r Ha Hy|infile outdir files fl root rc pol|infile outdir files fl root rc pol a rg l sched last n j Ha Hl Hrg].
  - destruct Hi as [(v & H)|[(p & out & H)|(od & files & fl & root & rc & pol & H)]]; discriminate H.
  - destruct (Hend _ _ _ _ _ (Hpr _ _ _ Hq) Hr) as [-> Hz]. split; [reflexivity|]. split; [reflexivity|]. intros E. injection E as ->. now apply Hz.
  - destruct (Hend _ _ _ _ _ (Hpr _ _ _ Hq) Hr) as [-> Hz]. split; [reflexivity|]. split; [now destruct k|]. discriminate.
  - split; [reflexivity|]. split; [reflexivity|]. destruct r as [[]|err| |]; [now destruct Hn| | |]; discriminate.
  - exfalso. destruct Hi as [(v & H)|[(p & out & H)|(od & fs & fl' & root' & rc' & pol' & H)]]; try discriminate H. injection H as -> _ _ _ _ _ _. exact (Hx _ _ _ Ha).
  - split; [reflexivity|]. split; [reflexivity|]. discriminate.
  - exfalso. destruct Hi as [(v & H)|[(p & out & H)|(od & fs & fl' & root' & rc' & pol' & H)]]; try discriminate H. injection H as -> _ _ _ _ _ _. exact (Hx _ _ _ Ha).
Qed.
Print Assumptions C76_not_an_archive.

(** ** C77 *)
(** [d]: the bytes of an archive made from [inputs]. *)
Definition made_from (parse : bytes -> res archive) (w : world) (o : create_opts) (w' : world) (inputs : list input) (d : bytes) : Prop :=
  exists a, parse d = Ok a /\ created_archive w o w' inputs a.

Lemma create_opens fuel w can_open o m l : create fuel w can_open o = (Opened m :: l, Ok tt) -> can_open = true.
Proof.
  unfold create. destruct (o_list_compressions o); [intros H; discriminate H|]. destruct (check_output_path_writable _ _ _) as [[]| | |]; try (intros H; discriminate H).
  destruct (match o_base o with Some d => chdir w d | None => Ok w end) as [w'| | |]; try (intros H; discriminate H).
  destruct (create_concat (o_concat o)) as [mm| | |]; try (intros H; discriminate H). destruct can_open; auto; intros H; discriminate H.
Qed.

Lemma fuel_above (l : list input) : exists k, Forall (fun x => (in_depth x < k)%nat) l.
Proof.
  induction l as [|x l [k IH]]; [exists O; constructor|]. exists (S (Nat.max k (in_depth x))). constructor; [lia|].
  eapply Forall_impl; [|exact IH]. cbv beta. intros y Hy. lia.
Qed.

(** A successful creation leaves at its output an archive made from its inputs. *)
Theorem C77_create : forall parse J fuel w can_open o w' inputs g dir n, inodes_given (w_fs w) -> names_output J ->
  proper w o w' inputs -> create_concat (o_concat o) = Ok OneFile ->
  create_run J fuel w can_open o (Some (Ok tt)) g -> out_place w (o_out o) = Some (dir, n) -> reads_back parse J fuel w o n ->
  exists d, has_file g (dir ++ [n]) d /\ made_from parse w o w' inputs d.
Proof.
  intros parse J fuel w can_open o w' inputs g dir n Hino [HJ HJ1] Hp Hm R Ho Hrb.
  pose proof (pr_compressions _ _ _ _ Hp) as Hl.
  destruct (run_state _ _ _ _ _ _ _ R) as [[_ K]|(dir' & n' & m & st & Ho' & -> & HI)]; [rewrite K in Hl; [discriminate Hl|reflexivity]|].
  destruct HI as [(_ & [H|[_ H]])|(a & cr & w1 & E & Hf & Hfin & Hb & I & [H|[(Ht & Hd & _)|(_ & _ & e & H)]])]; try discriminate H; [now destruct H|].
  assert (dir' = dir /\ n' = n) as [-> ->] by (split; congruence).
  assert (m = OneFile) as ->.
  { destruct (create_shape _ _ _ _ _ _ E) as [[K _]|[(m' & K & _)|(m' & a' & c' & w'' & K & _ & _ & _ & Hcc & _)]]; try discriminate K. injection K as -> _. congruence. }
  rewrite HJ1 in *.
  pose proof (hv_done _ _ _ _ _ I n (Hd n (or_introl eq_refl))) as (_ & _ & i & content & Hct & Hi1 & Hi2 & _). injection Hct as <-.
  assert (He : entered w (o_base o) w1).
  { unfold entered. destruct (o_base o) as [s|]; [|exact Hb]. unfold chdir in Hb. destruct (look_str w true s) as [q [|j|t mm]|q|e] eqn:El; try discriminate Hb.
    injection Hb as <-. cbn [w_cwd w_fs w_attr w_list]. split; reflexivity. }
  destruct (Hrb cr a w1 He Hf Hfin) as [Hparse Hn].
  exists (jb_bytes J OneFile n cr n). split; [exists i; auto|]. exists a. split; auto. split; auto. split; auto.
  pose proof (create_opens _ _ _ _ _ _ E) as Hco. rewrite Hco in E.
  destruct (fuel_above inputs) as [k Hk]. exists (Nat.max k fuel), [Opened OneFile; Written a].
  split; [eapply Forall_impl; [|exact Hk]; cbv beta; intros y Hy; lia|]. split; [eapply create_mono; [|exact E]; lia|right; now left].
Qed.
Print Assumptions C77_create.

(** It stays there. *)
Theorem C77_stays : forall parse J fuel w can_open o w' inputs g dir n l h w2 s, inodes_given (w_fs w) -> names_output J ->
  proper w o w' inputs -> create_concat (o_concat o) = Ok OneFile ->
  create_run J fuel w can_open o (Some (Ok tt)) g -> out_place w (o_out o) = Some (dir, n) -> reads_back parse J fuel w o n ->
  runs parse J g l h -> Forall gentle l -> (exists t, w_fs w2 = at_time t h) -> leads_into w2 s dir n ->
  exists d, shows_file w2 s d /\ made_from parse w o w' inputs d.
Proof.
  intros parse J fuel w can_open o w' inputs g dir n l h w2 s Hino HJ Hp Hm R Ho Hrb Hruns Hg [t Ht] (Hs & Hsep & c & Hc & Hlook).
  destruct (C77_create parse J fuel w can_open o w' inputs g dir n Hino HJ Hp Hm R Ho Hrb) as (d & Hd & Hmade). exists d. split; auto.
  assert (Hgi : inodes_given g).
  { destruct (run_state _ _ _ _ _ _ _ R) as [[-> _]|(dir' & n' & m & st & _ & -> & HI)]; auto.
    destruct HI as [(I & _)|(a & cr & w1 & _ & _ & _ & _ & I & _)]; eapply hinv_given; eauto. }
  destruct (C76_files_stay parse J g l h _ d Hgi HJ Hruns Hg Hd) as (i & Hi & Hdi).
  assert (Hn : ordinary n).
  { destruct (out_place_name _ _ _ _ Ho). destruct (in_pieces s n) as [H1 H2]; [rewrite Hc; apply in_app_iff; right; now left|]. repeat split; auto. }
  exists (dir ++ [n]), i. split; [|rewrite Ht; exact Hdi].
  unfold look_str, opath_of. rewrite Hsep, Hc, app_nil_r. destruct s as [|x s]; [easy|].
  unfold look in Hlook |- *. cbn [fst snd] in Hlook |- *. rewrite Ht in *.
  destruct (namei_app _ _ true dir [n] ltac:(discriminate) _ _ Hlook) as [k' Hk']. rewrite Hk'.
  rewrite namei_last by exact Hn. cbn [at_time h_names]. rewrite Hi. reflexivity.
Qed.
Print Assumptions C77_stays.

Lemma opened parse w s d : shows_file w s d -> open_archive parse w s = parse d.
Proof. intros (q & i & H & <-). unfold open_archive. now rewrite H. Qed.

(** What is seen of a printed text: the whole of it when there is room, and when the exit status is 0
    through a pipe. *)
Definition delivers (dv : device) (x text : bytes) (e : ending) : Prop :=
  (takes dv text -> x = text /\ e = Exits 0) /\ (dv_pipe dv = true -> e = Exits 0 -> x = text) /\ exists rest, text = x ++ rest.

Lemma process_delivers dv bu cs x e : process dv bu cs (Ok tt) = (x, e) -> delivers dv x (concat cs) e.
Proof.
  intros H. split; [|split].
  - intros T. rewrite C75_enough in H; [injection H as <- <-; auto|discriminate|exact T].
  - intros Hp He. destruct (C75_pipe _ _ _ _ _ _ H) as [[-> _]|[_ K]]; auto; [discriminate|subst e; discriminate K].
  - pose proof (C75_delivered _ _ _ _ _ _ H ltac:(discriminate)) as ->. unfold first_bytes. destruct (dv_room dv) as [k|].
    + exists (skipn k (concat cs)). now rewrite firstn_skipn.
    + exists []. now rewrite app_nil_r.
Qed.

(** Listed from anywhere it shows the inputs: every path of them and the directories above, once, sorted. *)
Theorem C77_list : forall parse J w o w' inputs d w2 s dv h x e, made_from parse w o w' inputs d -> shows_file w2 s d ->
  arx_run parse J w2 dv (IList s None) h x (Some e) ->
  exists ps, StronglySorted path_lt ps /\
    (forall p, In p ps <-> p <> [] /\ ((exists q n, source_at w' inputs p q n) \/ made_above inputs p)) /\
    delivers dv x (text (map join ps)) e.
Proof.
  intros parse J w o w' inputs d w2 s dv h x e (a & Ha & Hc) Hs R. destruct (C64_list _ _ _ _ _ Hc) as (ps & E & H1 & H2).
  exists ps. split; auto. split; auto. inversion R as [|inv bu cs r x' e' Hpr Hpc| | | | | ]; subst.
  cbn [printed] in Hpr. unfold on_archive in Hpr. rewrite (opened parse _ _ _ Hs), Ha, E in Hpr. injection Hpr as _ Hcs <-. rewrite Hcs.
  eapply process_delivers; eauto.
Qed.
Print Assumptions C77_list.

(** [dump] prints the bytes of a source file, and nothing, with exit status 1, for any other path. *)
Theorem C77_dump : forall parse J w o w' inputs d w2 s p dv h x e, made_from parse w o w' inputs d -> shows_file w2 s d -> pieces p <> [] ->
  arx_run parse J w2 dv (IDump s p None) h x (Some e) ->
  (forall q i, source_at w' inputs (pieces p) q (HFile i) -> delivers dv x (h_data (w_fs w') i) e) /\
  ((forall q i, ~ source_at w' inputs (pieces p) q (HFile i)) -> x = [] /\ e = Exits 1).
Proof.
  intros parse J w o w' inputs d w2 s p dv h x e (a & Ha & Hc) Hs Hne R.
  inversion R as [|inv bu cs r x' e' Hpr Hpc| | | | | ]; subst.
  cbn [printed] in Hpr. unfold on_archive in Hpr. rewrite (opened parse _ _ _ Hs), Ha in Hpr.
  destruct (C64_dump w o w' inputs a w2 p None Hc Hne (or_introl eq_refl)) as [H1 H2]. split.
  - intros q i Hsrc. rewrite (H1 q i Hsrc) in Hpr. injection Hpr as <- Hcs <-. rewrite Hcs. eapply process_delivers; eauto.
  - intros Hno. destruct (H2 Hno) as [er Hd]. rewrite Hd in Hpr. injection Hpr as <- Hcs <-.
    rewrite C75_enough in Hpc; [injection Hpc as <- <-; rewrite <- Hcs; auto|discriminate|]. intros k _. rewrite <- Hcs. cbn [length]. lia.
Qed.
Print Assumptions C77_dump.

(** Extracted into an empty directory with exit status 0 it gives the inputs, bytes, targets and
    directories, and nothing else; nothing outside changes however it ends. *)
Theorem C77_extract : forall parse J w o w' inputs d w2 s od out rc pol dv g x e, made_from parse w o w' inputs d -> shows_file w2 s d ->
  tidy (w_fs w2) -> outdir (w_fs w2) (base_of w2 od) out -> (forall p, p <> [] -> h_names (w_fs w2) (out ++ p) = None) ->
  arx_run parse J w2 dv (IExtract s od [] None None rc pol) g x (Some e) ->
  (e = Exits 0 ->
   (forall p q n, source_at w' inputs p q n -> p <> [] ->
      match n with
      | HDir => h_names g (out ++ p) = Some HDir
      | HFile i => has_file g (out ++ p) (h_data (w_fs w') i)
      | HLink t _ => has_link g (out ++ p) t
      end) /\
   (forall p, made_above inputs p -> h_names g (out ++ p) = Some HDir) /\
   (forall p, p <> [] -> h_names g (out ++ p) <> None -> (exists q n, source_at w' inputs p q n) \/ made_above inputs p)) /\
  (forall q, ~ below out q ->
     unchanged (w_fs w2) g q \/ (h_names (w_fs w2) q = None /\ h_names g q = Some HDir /\ exists t, out = q ++ t)).
Proof.
  intros parse J w o w' inputs d w2 s od out rc pol dv g x e (a & Ha & Hc) Hs Ht Hout Hempty R.
  assert (Hf : extract_from parse w2 s None [] = Ok a) by (unfold extract_from; cbn [files_to_extract bind]; now rewrite (opened parse _ _ _ Hs)).
  inversion R as [| | |i1 i2 i3 i4 i5 i6 i7 r Hr Hn|i1 i2 i3 i4 i5 i6 i7 a' sched last g' r Ha' Hx| | ]; subst.
  - cbn [printed] in *. discriminate.
  - rewrite Hf in Hn. now destruct Hn.
  - rewrite Hf in Ha'. injection Ha' as <-.
    destruct (C64_extract w o w' inputs a w2 od out rc pol sched last g r Hc Ht Hout Hempty Hx) as (_ & H2 & H3). split; [|exact H3].
    intros He. apply H2. destruct r as [[]| | |]; [reflexivity|discriminate He..].
Qed.
Print Assumptions C77_extract.

(** And it can succeed: for every such world there is a run that exits with 0. *)
Theorem C77_extract_succeeds : forall parse J w o w' inputs d w2 s od out rc pol dv, made_from parse w o w' inputs d -> shows_file w2 s d ->
  tidy (w_fs w2) -> outdir (w_fs w2) (base_of w2 od) out -> (forall p, p <> [] -> h_names (w_fs w2) (out ++ p) = None) ->
  exists g, arx_run parse J w2 dv (IExtract s od [] None None rc pol) g [] (Some (Exits 0)).
Proof.
  intros parse J w o w' inputs d w2 s od out rc pol dv (a & Ha & Hc) Hs Ht Hout Hempty. set (sched := fun _ : nat => @nil (nat * option nat)).
  destruct (created_session _ _ _ _ _ Hc) as (l & contents & Hsm & Har & _).
  assert (Hrg : exists rg dd, Fuse.mount_range a None = Ok rg /\ dir_range a rg dd).
  { exists (a_root a), []. split; [reflexivity|]. now left. }
  destruct Hrg as (rg & dd & Hrg & Hdr).
  destruct (C34_completes l _ a rg dd (mkConfig [] (base_of w2 od) rc pol) sched (w_fs w2) Hsm Har Hdr) as (last & Hq & Hnd).
  destruct (extract_cmd w2 a od [] None None rc pol sched last) as [g r] eqn:E.
  destruct (C64_extract w o w' inputs a w2 od out rc pol sched last g r Hc Ht Hout Hempty E) as (H1 & _).
  exists g. replace (Some (Exits 0)) with (Some (exit_of r)).
  - eapply arx_extract; [|exact E]. unfold extract_from. cbn [files_to_extract bind]. now rewrite (opened parse _ _ _ Hs).
  - rewrite H1; [reflexivity|split; [intros k kk oo []|exact Hq]|]. intros K. apply Hnd. unfold extract_cmd in E. cbn [files_to_extract] in E. cbv zeta in E. rewrite Hrg in E. unfold base_of. rewrite E. exact K.
Qed.
Print Assumptions C77_extract_succeeds.

(** ** Runs *)
Lemma src_given : inodes_given src_fs.
Proof. exact (proj1 C55_meets_hypotheses). Qed.

(** A successful run of jbk for the output [h/out.arx] on a host that is like [src_fs] up to the output. *)
Lemma demo_calls f n : h_names f h_tmp = None -> h_names f [b "h"; n] <> Some HDir -> n <> tmp_name -> jbk_calls [b "h"] [n] (Some (fun k => k ++ b "!"))
  (mkWriting f [] []) (mkWriting (rename_file (touch (set_data (make_temp f h_tmp) (h_next f) (n ++ b "!")) (h_next f)) h_tmp [b "h"; n]) [] [n]).
Proof.
  intros Hf Hd Hn. eapply calls_more; [eapply calls_more; [eapply calls_more; [constructor|]|]|].
  - apply (call_temp [b "h"] [n] _ f [] [] tmp_name); [|exact Hf]. intros [K|[]]. now apply Hn.
  - eapply (call_write _ _ _ _ _ _ h_tmp (h_next f) (n ++ b "!")). left. reflexivity.
  - change (@nil (path * N)) with (without h_tmp [(h_tmp, h_next f)]).
    eapply (call_rename [b "h"] [n] _ _ [(h_tmp, h_next f)] [] h_tmp (h_next f) n (fun k => k ++ b "!")); try reflexivity; try (left; reflexivity).
    + cbn [touch set_data h_data]. now rewrite N.eqb_refl.
    + unfold make_temp. cbn [touch set_data bump set_name h_names]. change ([b "h"] ++ [n]) with [b "h"; n]. destruct (path_eqb' [b "h"; n] ([b "h"] ++ [tmp_name])); [intros K; discriminate K|exact Hd].
Qed.

(** Without [--force] a dangling link at the output path is replaced: [Path::exists] follows it. *)
Definition fs_link : hostfs := set_name src_fs [b "h"; b "out.arx"] (Some (HLink (b "/mnt/archives/today.arx") 5%Z)).
Definition w_link : world := mkWorld fs_link src_attr src_list [b "h"].
Theorem C76_link_refuted : exists g, o_force o_src = false /\ has_link (w_fs w_link) [b "h"; b "out.arx"] (b "/mnt/archives/today.arx") /\
  create_run demo_jbk 3 w_link true o_src (Some (Ok tt)) g /\ has_file g [b "h"; b "out.arx"] (b "out.arx!").
Proof.
  eexists. split; [reflexivity|]. split; [eexists; vm_compute; reflexivity|].
  assert (E : exists a c, create 3 w_link true o_src = ([Opened OneFile; Written a], Ok tt) /\ fill 3 w_link w_link o_src = (c, Ok tt)).
  { eexists. eexists. split; vm_compute; reflexivity. }
  destruct E as (a & c & E & Hf). split.
  - eapply (run_written _ _ _ _ _ OneFile a c w_link [b "h"] (b "out.arx")); [vm_compute; reflexivity|exact E|reflexivity|exact Hf|constructor| |].
    + apply (demo_calls fs_link (b "out.arx")); [vm_compute; reflexivity|vm_compute; discriminate|discriminate].
    + right. left. split; [reflexivity|]. split; [intros k H; exact H|reflexivity].
  - exists 3. split; vm_compute; reflexivity.
Qed.
Print Assumptions C76_link_refuted.

(** With two files only the output path is looked at: what the second file's name holds is replaced,
    without [--force]. *)
Definition o_pair : create_opts := mkOpts false (b "out.arx") (Some (b "src")) None [b "src"] None true (Some (mkFlags false true false)) false false.
Definition h_tmp2 : path := [b "h"; b ".tmp8"].
Definition fs_old : hostfs := set_data (make_temp src_fs [b "h"; b "out.arxc"]) 3 (b "precious").
Definition w_old : world := mkWorld fs_old src_attr src_list [b "h"].
Definition fs_pair3 : hostfs :=
  let f := touch (set_data (make_temp fs_old h_tmp) 4 (b "out.arx!")) 4 in
  let f := rename_file f h_tmp [b "h"; b "out.arx"] in
  touch (set_data (make_temp f h_tmp2) 5 (b "out.arxc!")) 5.
Definition fs_pair : hostfs := rename_file fs_pair3 h_tmp2 [b "h"; b "out.arxc"].
Theorem C76_companion_refuted : o_force o_pair = false /\ ~ leads_to_something w_old (o_out o_pair) /\
  has_file (w_fs w_old) [b "h"; b "out.arxc"] (b "precious") /\
  create_run demo_jbk 3 w_old true o_pair (Some (Ok tt)) fs_pair /\ has_file fs_pair [b "h"; b "out.arxc"] (b "out.arxc!").
Proof.
  split; [reflexivity|]. split; [intros (q & n & H); vm_compute in H; discriminate H|]. split; [exists 3; split; vm_compute; reflexivity|].
  assert (E : exists a c, create 3 w_old true o_pair = ([Opened TwoFiles; Written a], Ok tt) /\ fill 3 w_old w_old o_pair = (c, Ok tt)).
  { eexists. eexists. split; vm_compute; reflexivity. }
  destruct E as (a & c & E & Hf). split.
  - change fs_pair with (wr_fs (mkWriting fs_pair [] [b "out.arxc"; b "out.arx"])).
    eapply (run_written _ _ _ _ _ TwoFiles a c w_old [b "h"] (b "out.arx")); [vm_compute; reflexivity|exact E|reflexivity|exact Hf|constructor| |].
    + eapply calls_more; [eapply calls_more; [eapply calls_more; [eapply calls_more; [eapply calls_more; [eapply calls_more; [constructor|]|]|]|]|]|].
      * apply (call_temp _ _ _ fs_old [] [] tmp_name); [|vm_compute; reflexivity]. intros [K|[K|[]]]; discriminate K.
      * eapply (call_write _ _ _ _ _ _ h_tmp 4 (b "out.arx!")). left. reflexivity.
      * eapply (call_rename _ _ _ _ [(h_tmp, 4)] [] h_tmp 4 (b "out.arx")); try reflexivity; try (left; reflexivity). vm_compute. discriminate.
      * apply (call_temp _ _ _ _ (without h_tmp [(h_tmp, 4)]) [b "out.arx"] (b ".tmp8")); [|vm_compute; reflexivity]. intros [K|[K|[]]]; discriminate K.
      * eapply (call_write _ _ _ _ _ _ h_tmp2 5 (b "out.arxc!")). left. reflexivity.
      * change (jbk_call [b "h"] (jb_names demo_jbk TwoFiles (b "out.arx")) (Some (jb_bytes demo_jbk TwoFiles (b "out.arx") c))
          (mkWriting fs_pair3 [(h_tmp2, 5)] [b "out.arx"])
          (mkWriting (rename_file fs_pair3 h_tmp2 ([b "h"] ++ [b "out.arxc"])) (without h_tmp2 [(h_tmp2, 5)]) [b "out.arxc"; b "out.arx"])).
        eapply (call_rename _ _ _ _ [(h_tmp2, 5)] [b "out.arx"] h_tmp2 5 (b "out.arxc")); try reflexivity; [left; reflexivity|right; left; reflexivity|]. vm_compute. discriminate.
    + right. left. split; [reflexivity|]. split; [intros k [<-|[<-|[]]]; cbn; auto|reflexivity].
  - exists 5. split; vm_compute; reflexivity.
Qed.
Print Assumptions C76_companion_refuted.

(** The archive of [fs_final] (see C55), listed, printed and extracted on another machine, where it was
    copied under another name. *)
Definition w_final : world := mkWorld fs_final src_attr src_list [b "h"].
Definition w_copy : world :=
  mkWorld (host_of [(at_t, HDir); ([b "t"; b "d"], HDir); ([b "t"; b "d"; b "copy"], HFile 0); ([b "t"; b "l"], HLink (b "d") 4%Z)] [b "out.arx!"]) src_attr src_list at_t.
Definition terminal : device := mkDevice None false.

Lemma o_two_run : create_run demo_jbk 3 src_world true o_two (Some (Ok tt)) fs_final.
Proof.
  assert (E : exists a c, create 3 src_world true o_two = ([Opened OneFile; Written a], Ok tt) /\ fill 3 src_world src_world o_two = (c, Ok tt)).
  { eexists. eexists. split; vm_compute; reflexivity. }
  destruct E as (a & c & E & Hf). change fs_final with (wr_fs (mkWriting fs_final [] [b "out.arx"])).
  eapply (run_written _ _ _ _ _ OneFile a c src_world [b "h"] (b "out.arx")); [vm_compute; reflexivity|exact E|vm_compute; reflexivity|exact Hf|exact demo_half|exact demo_full|].
  right. left. split; [reflexivity|]. split; [intros k H; exact H|reflexivity].
Qed.

Example C77_meets_hypotheses : exists a, let parse := fun _ : bytes => Ok a in
  inodes_given src_fs /\ names_output demo_jbk /\ proper src_world o_two src_world two_inputs /\ create_concat (o_concat o_two) = Ok OneFile /\
  create_run demo_jbk 3 src_world true o_two (Some (Ok tt)) fs_final /\ out_place src_world (o_out o_two) = Some ([b "h"], b "out.arx") /\
  reads_back parse demo_jbk 3 src_world o_two (b "out.arx") /\
  leads_into w_final (b "ln/../out.arx") [b "h"] (b "out.arx") /\ made_from parse src_world o_two src_world two_inputs (b "out.arx!") /\
  (* copied *)
  shows_file w_copy (b "l/copy") (b "out.arx!") /\ tidy (w_fs w_copy) /\ outdir (w_fs w_copy) (base_of w_copy (Some (b "out"))) at_out /\
  (forall p, p <> [] -> h_names (w_fs w_copy) (at_out ++ p) = None) /\
  arx_run parse demo_jbk w_copy terminal (IDump (b "l/copy") (b "ln/a/f.txt") None) (w_fs w_copy) (b "hello") (Some (Exits 0)) /\
  arx_run parse demo_jbk w_copy terminal (IList (b "l/copy") None) (w_fs w_copy)
    (text [b "ln"; b "ln/a"; b "ln/a/f.txt"; b "ln/a/l"; b "ln/z"; b "src"; b "src/a"; b "src/a/f.txt"]) (Some (Exits 0)) /\
  exists g, arx_run parse demo_jbk w_copy terminal (IExtract (b "l/copy") (Some (b "out")) [] None None false Warn) g [] (Some (Exits 0)) /\
    has_file g (at_out ++ [b "ln"; b "a"; b "f.txt"]) (b "hello").
Proof.
  assert (E : exists a c, create 3 src_world true o_two = ([Opened OneFile; Written a], Ok tt) /\ fill 3 src_world src_world o_two = (c, Ok tt) /\ finalize c = Some a /\
    dump w_copy a (b "ln/a/f.txt") None = (b "hello", Ok tt) /\
    list_cmd a None = (text [b "ln"; b "ln/a"; b "ln/a/f.txt"; b "ln/a/l"; b "ln/z"; b "src"; b "src/a"; b "src/a/f.txt"], Ok tt) /\
    length (a_recs a) = 8%nat).
  { eexists. eexists. split; [vm_compute; reflexivity|]. split; [vm_compute; reflexivity|]. split; [vm_compute; reflexivity|]. split; [vm_compute; reflexivity|]. split; vm_compute; reflexivity. }
  destruct E as (a & c & E & Hf & Hfin & Hd & Hl & Hn). exists a. intros parse.
  assert (Hs : shows_file w_copy (b "l/copy") (b "out.arx!")) by (exists [b "t"; b "d"; b "copy"], 0; split; vm_compute; reflexivity).
  assert (Hm : made_from parse src_world o_two src_world two_inputs (b "out.arx!")).
  { exists a. split; [reflexivity|]. split; [exact C64_proper|]. split; [rewrite Hn; reflexivity|]. exists 3%nat. eexists. split; [repeat constructor|]. split; [exact E|]. right. now left. }
  assert (Ht : tidy (w_fs w_copy)) by (apply tidyb_ok; vm_compute; reflexivity).
  assert (Ho : outdir (w_fs w_copy) (base_of w_copy (Some (b "out"))) at_out).
  { split; [constructor; [right; repeat split; try (intros K; discriminate K); intros [K|[K|[K|[]]]]; discriminate K|constructor]|]. split; [reflexivity|]. split.
    - intros q x t H. destruct q as [|y q]; [injection H as <- _; reflexivity|]. exfalso. cbn in H. injection H as _ H. destruct q; discriminate H.
    - intros q t H Hq. destruct q as [|y q]; [easy|]. injection H as <- H. destruct q as [|z q]; [right; reflexivity|]. injection H as <- H.
      destruct q; [left; reflexivity|discriminate H]. }
  assert (He : forall p, p <> [] -> h_names (w_fs w_copy) (at_out ++ p) = None).
  { intros p Hp. destruct p as [|y p]; [easy|]. reflexivity. }
  split; [exact src_given|]. split; [exact (proj1 (proj2 C55_meets_hypotheses))|]. split; [exact C64_proper|]. split; [reflexivity|]. split; [exact o_two_run|].
  split; [vm_compute; reflexivity|]. split; [|split; [|split; [exact Hm|split; [exact Hs|split; [exact Ht|split; [exact Ho|split; [exact He|]]]]]]].
  - intros c' a' w' He' Hf' Hfin'. split.
    + subst parse. cbv beta. destruct He' as [H1 H2]. assert (Hc : w_cwd w' = [b "h"]). { assert (K : look_str src_world true (b "src/..") = At [b "h"] HDir) by (vm_compute; reflexivity). change (look_str src_world true (b "src/..") = At (w_cwd w') HDir) in H1. rewrite K in H1. now injection H1 as <-. }
      rewrite Hc in H2. change (w' = src_world) in H2. subst w'. rewrite Hf in Hf'. injection Hf' as <-. rewrite Hfin in Hfin'. now injection Hfin' as <-.
    + destruct He' as [H1 H2]. assert (Hc : w_cwd w' = [b "h"]). { assert (K : look_str src_world true (b "src/..") = At [b "h"] HDir) by (vm_compute; reflexivity). change (look_str src_world true (b "src/..") = At (w_cwd w') HDir) in H1. rewrite K in H1. now injection H1 as <-. }
      rewrite Hc in H2. change (w' = src_world) in H2. subst w'. rewrite Hf in Hf'. injection Hf' as <-. rewrite Hfin in Hfin'. injection Hfin' as <-. rewrite Hn. reflexivity.
  - split; [discriminate|]. split; [reflexivity|]. exists [b "ln"; b ".."]. split; vm_compute; reflexivity.
  - assert (Hall : forall bu cs, process terminal bu cs (Ok tt) = (concat cs, Exits 0)) by (intros bu cs; apply C75_enough; [discriminate|intros k K; discriminate K]).
    split; [|split].
    + apply (arx_printed parse demo_jbk w_copy terminal (IDump (b "l/copy") (b "ln/a/f.txt") None) false [b "hello"] (Ok tt)); [|now rewrite Hall]. cbn [printed]. unfold on_archive. rewrite (opened parse _ _ _ Hs). unfold parse. rewrite Hd. reflexivity.
    + set (t := text _) in *. apply (arx_printed parse demo_jbk w_copy terminal (IList (b "l/copy") None) true [t] (Ok tt)); [|rewrite Hall; cbn [concat]; now rewrite app_nil_r]. cbn [printed]. unfold on_archive. rewrite (opened parse _ _ _ Hs). unfold parse. rewrite Hl. cbn [concat]. now rewrite app_nil_r.
    + destruct (C77_extract_succeeds parse demo_jbk _ _ _ _ _ w_copy (b "l/copy") (Some (b "out")) at_out false Warn terminal Hm Hs Ht Ho He) as [g Hg].
      exists g. split; auto. destruct (C77_extract _ _ _ _ _ _ _ _ _ _ _ _ _ _ _ _ _ Hm Hs Ht Ho He Hg) as [H _]. destruct (H eq_refl) as [H1 _].
      apply (H1 [b "ln"; b "a"; b "f.txt"] [b "h"; b "src"; b "a"; b "f.txt"] (HFile 0)); [|discriminate].
      exists (mkInput (b "./ln/") src_root HDir [b "ln"] 2), [b "a"; b "f.txt"]. split; [right; now left|]. repeat split.
Qed.

(** A history: a creation killed while it wrote, one that works, a listing, a refused second creation. *)
Example C76_meets_hypotheses : exists parse g, runs parse demo_jbk src_fs [ICreate o_two; ICreate o_two; IList (b "out.arx") None; ICreate o_two] g /\
  Forall gentle [ICreate o_two; ICreate o_two; IList (b "out.arx") None; ICreate o_two] /\
  has_file src_fs [b "h"; b "src"; b "a"; b "f.txt"] (b "hello") /\ h_names src_fs [b "h"; b "out.arx"] = None /\ has_file g [b "h"; b "out.arx"] (b "out.arx!").
Proof.
  assert (G : gentle (ICreate o_two)).
  { split; [reflexivity|]. split; [reflexivity|]. split; [reflexivity|]. intros c H. assert (K : pieces (o_out o_two) = [] ++ [b "out.arx"]) by reflexivity.
    rewrite K in H. apply app_inj_tail in H as [_ H]. discriminate H. }
  exists (fun _ => Err ENotFound), (at_time 9 (at_time 8 fs_final)).
  split; [|split; [|split; [|split]]].
  - assert (R1 : runs (fun _ => Err ENotFound) demo_jbk src_fs [ICreate o_two] src_fs).
    { apply (runs_more _ _ _ [] src_fs src_world (h_now src_fs) terminal (ICreate o_two) src_fs [] None); [constructor|reflexivity|].
      apply (arx_create _ _ src_world terminal 3 true o_two None src_fs). apply run_before. }
    assert (R2 : runs (fun _ => Err ENotFound) demo_jbk src_fs [ICreate o_two; ICreate o_two] fs_final).
    { apply (runs_more _ _ _ [ICreate o_two] src_fs src_world (h_now src_fs) terminal (ICreate o_two) fs_final [] (Some (Exits 0))); [exact R1|reflexivity|].
      apply (arx_create _ _ src_world terminal 3 true o_two (Some (Ok tt)) fs_final). exact o_two_run. }
    assert (R3 : runs (fun _ => Err ENotFound) demo_jbk src_fs [ICreate o_two; ICreate o_two; IList (b "out.arx") None] (at_time 8 fs_final)).
    { apply (runs_more _ _ _ [ICreate o_two; ICreate o_two] fs_final (mkWorld (at_time 8 fs_final) src_attr src_list [b "h"]) 8 terminal (IList (b "out.arx") None) (at_time 8 fs_final) [] (Some (Exits 1))); [exact R2|reflexivity|].
      apply (arx_printed _ _ (mkWorld (at_time 8 fs_final) src_attr src_list [b "h"]) _ _ true [] (Err ENotFound)); [vm_compute; reflexivity|vm_compute; reflexivity]. }
    apply (runs_more _ _ _ [ICreate o_two; ICreate o_two; IList (b "out.arx") None] (at_time 8 fs_final) (mkWorld (at_time 9 (at_time 8 fs_final)) src_attr src_list [b "h"]) 9 terminal (ICreate o_two) (at_time 9 (at_time 8 fs_final)) [] (Some (Exits 1))); [exact R3|reflexivity|].
    apply (arx_create _ _ (mkWorld (at_time 9 (at_time 8 fs_final)) src_attr src_list [b "h"]) terminal 3 true o_two (Some (Err (EOther (b "File already exists")))) (at_time 9 (at_time 8 fs_final))).
    apply run_refused. vm_compute. reflexivity.
  - constructor; [exact G|]. constructor; [exact G|]. constructor; [exact I|]. constructor; [exact G|constructor].
  - exists 0. split; vm_compute; reflexivity.
  - vm_compute. reflexivity.
  - exists 3. split; vm_compute; reflexivity.
Qed.
