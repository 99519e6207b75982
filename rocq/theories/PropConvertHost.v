(** C92: what tar2arx and zip2arx leave on the host, at every system call. *)
From Verif Require Export ConvertHost PropCreateHost PropConvert.
From Verif Require Import MountCmd OnceFacts.

Local Ltac bad := let H := fresh in intros H; discriminate H.

(** A loop that ends is a session. *)
Lemma loop_after M conv items : forall c c' l, loop M conv items c = (c', Ok tt) -> cr_entries c = after l -> all_ok l ->
  exists l', cr_entries c' = after l' /\ all_ok l'.
Proof.
  induction items as [|x items IH]; intros c c' l; cbn [loop]; [intros H; injection H as <-; eauto|].
  destruct (conv x (cr_contents c)) as [[ct oe]| | |]; try bad. destruct oe as [e|].
  - destruct (add_entry (cr_entries c) e) as [st r] eqn:Ea. destruct r as [[]| | |]; try bad. intros H E Hok. rewrite E in Ea.
    destruct (after_snoc l e st Hok Ea) as [H1 H2]. eapply IH; [exact H| |exact H2]. cbn [cr_entries]. congruence.
  - intros H E Hok. eapply IH; [exact H| |exact Hok]. exact E.
Qed.

Lemma program_shape A w P can_open evs r : program_main A w P can_open = (evs, r) ->
  (r <> Ok tt /\ (evs = [] \/ exists out m y, program_out P = Some out /\ evs = [COpened out m y])) \/
  (r = Ok tt /\ exists out m y a l, program_out P = Some out /\ evs = [COpened out m y; CWritten out a] /\
     finalize (program_filled A w P) = Some a /\ cr_entries (program_filled A w P) = after l /\ all_ok l /\
     match P with Tar2arx o => create_concat (to_concat o) = Ok m | Zip2arx _ o => create_concat (zo_concat o) = Ok m end).
Proof.
  destruct P as [o|p o]; cbn [program_main program_filled program_out]; intros H.
  - destruct (tar_main_shape _ _ _ _ _ H) as [(H1 & H2)|(-> & out & m & items & c & a & E0 & Em & E1 & E2 & E3 & ->)].
    + left. split; auto. destruct H2 as [->|(out & m & E & ->)]; [now left|right]. rewrite E. eauto.
    + right. split; auto. rewrite tar_loop in E2. pose proof (loop_after _ _ _ _ _ [] E2 eq_refl all_ok_nil) as (l & L1 & L2).
      exists out, m, (to_comp o), a, l. rewrite E0, E1, tar_loop, E2. auto 10.
  - destruct (zip_main_shape _ _ _ _ _ _ H) as [(H1 & H2)|(-> & m & items & c & a & Em & E1 & E2 & E3 & ->)].
    + left. split; auto. destruct H2 as [->|(m & ->)]; [now left|right]. eauto.
    + right. split; auto. rewrite zip_loop in E2. pose proof (loop_after _ _ _ _ _ [] E2 eq_refl all_ok_nil) as (l & L1 & L2).
      exists (zo_out o), m, (CZstd 5), a, l. rewrite E1, zip_loop, E2. auto 10.
Qed.

Lemma convert_state J A w can_open P x g : convert_run J A w can_open P x g ->
  (g = w_fs w /\ x <> Some (Ok tt)) \/
  exists out dir n m s, program_out P = Some out /\ out_place w out = Some (dir, n) /\ g = wr_fs s /\
    ((hinv (w_fs w) dir (jb_names J m n) None s /\ (x = None \/ (wr_temps s = [] /\ x <> Some (Ok tt)))) \/
     exists y a l, program_main A w P can_open = ([COpened out m y; CWritten out a], Ok tt) /\
       match P with Tar2arx o => create_concat (to_concat o) = Ok m | Zip2arx _ o => create_concat (zo_concat o) = Ok m end /\
       all_ok l /\ archive_of l (fetch_of (cr_contents (program_filled A w P))) a /\
       mkCreator (after l) (cr_contents (program_filled A w P)) = program_filled A w P /\
       hinv (w_fs w) dir (jb_names J m n) (Some (jb_bytes J m n (program_filled A w P))) s /\
       (x = None \/
        (wr_temps s = [] /\ (forall k, In k (jb_names J m n) -> In k (wr_done s)) /\ x = Some (Ok tt)) \/
        (wr_temps s = [] /\ (exists k, In k (jb_names J m n) /\ ~ In k (wr_done s)) /\ exists e, x = Some (Err (EIo e))))).
Proof.
  intros [|r E|out m y r dir n s x0 Ho E C Hx|out m y a dir n s1 s2 x0 Ho E C1 C2 Hx].
  - left. split; [reflexivity|bad].
  - left. split; [reflexivity|]. destruct (program_shape _ _ _ _ _ _ E) as [(K & _)|(_ & out & m & y & a & l & _ & K & _)]; [congruence|discriminate K].
  - right. destruct (program_shape _ _ _ _ _ _ E) as [(K & [K'|(out' & m' & y' & K' & K2)])|(_ & out' & m' & y' & a' & l & _ & K' & _)]; try discriminate K'.
    injection K2 as E1 E2 E3. subst out' m' y'. exists out, dir, n, m, s. split; auto. split; auto. split; auto. left.
    split; [eapply hinv_calls; [apply hinv_start|eassumption]|]. destruct Hx as [Hx|[H1 Hx]]; [now left|right]. split; auto. congruence.
  - right. destruct (program_shape _ _ _ _ _ _ E) as [(K & _)|(_ & out' & m' & y' & a' & l & K1 & K2 & K3 & K4 & K5 & K6)]; [now destruct K|].
    injection K2 as E1 E2 E3 E4. subst out' m' y' a'. exists out, dir, n, m, s2. split; auto. split; auto. split; auto. right. exists y, a, l. split; auto. split; [exact K6|]. split; auto.
    unfold finalize in K3. rewrite K4 in K3. split; [exact K3|]. split; [destruct (program_filled A w P) as [st ct]; cbn [cr_entries cr_contents] in *; now rewrite K4|].
    split; [|exact Hx]. eapply hinv_calls; [apply hinv_seal; eapply hinv_calls; [apply hinv_start|eassumption]|eassumption].
Qed.

(** C92: killed at any system call, or not, the output path holds what was there before, or a complete
    file of the archive of the whole tar or zip. *)
Theorem C92_crash_points : forall J A w can_open P x g out dir n, inodes_given (w_fs w) -> names_output J ->
  convert_run J A w can_open P x g -> program_out P = Some out -> out_place w out = Some (dir, n) ->
  unchanged (w_fs w) g (dir ++ [n]) \/
  exists m y a d, program_main A w P can_open = ([COpened out m y; CWritten out a], Ok tt) /\ complete J m n n a d /\ has_file g (dir ++ [n]) d.
Proof.
  intros J A w can_open P x g out dir n Hino [HJ _] R Hout Ho.
  destruct (convert_state _ _ _ _ _ _ _ R) as [[-> _]|(out' & dir' & n' & m & s & Hout' & Ho' & -> & [(I & _)|(y & a & l & E & Hmm & Hok & Ha & Hc & I & _)])].
  - left. split; [reflexivity|auto].
  - assert (out' = out) as -> by congruence. assert (dir' = dir /\ n' = n) as [-> ->] by (split; congruence). left.
    eapply (hinv_unchanged (w_fs w) dir (jb_names J m n)); eauto.
    + intros i H. eapply (hv_temp _ _ _ _ _ I) in H as (_ & _ & _ & k & H & H'). apply app_inj_tail in H as [_ <-]. apply H', HJ.
    + rewrite (hinv_unsealed _ _ _ _ I). intros k [].
  - assert (out' = out) as -> by congruence. assert (dir' = dir /\ n' = n) as [-> ->] by (split; congruence).
    destruct (in_dec (list_eq_dec N.eq_dec) n (wr_done s)) as [Hd|Hd].
    + right. exists m, y, a. pose proof (hv_done _ _ _ _ _ I n Hd) as (_ & _ & i & content & Hct & H1 & H2 & _). injection Hct as <-.
      exists (jb_bytes J m n (program_filled A w P) n). split; auto. split; [|exists i; auto].
      exists l, (cr_contents (program_filled A w P)). rewrite Hc. auto.
    + left. eapply (hinv_unchanged (w_fs w) dir (jb_names J m n)); eauto.
      * intros i H. eapply (hv_temp _ _ _ _ _ I) in H as (_ & _ & _ & k & H & H'). apply app_inj_tail in H as [_ <-]. apply H', HJ.
      * intros k Hk H. apply app_inj_tail in H as [_ <-]. contradiction.
Qed.
Print Assumptions C92_crash_points.

(** Everything else - the tar or zip as well - is untouched, but for temporary files under names that were
    free, and complete files of that archive, beside the output. *)
Theorem C92_elsewhere : forall J A w can_open P x g p, inodes_given (w_fs w) ->
  convert_run J A w can_open P x g ->
  unchanged (w_fs w) g p \/
  exists out dir n m k, program_out P = Some out /\ out_place w out = Some (dir, n) /\ p = dir ++ [k] /\
    ((~ In k (jb_names J m n) /\ h_names (w_fs w) p = None /\ x = None) \/
     (In k (jb_names J m n) /\ exists y a d, program_main A w P can_open = ([COpened out m y; CWritten out a], Ok tt) /\ complete J m n k a d /\ has_file g p d)).
Proof.
  intros J A w can_open P x g p Hino R.
  destruct (convert_state _ _ _ _ _ _ _ R) as [[-> _]|(out & dir & n & m & s & Hout & Ho & -> & HI)]; [left; split; auto|].
  assert (I : exists final, hinv (w_fs w) dir (jb_names J m n) final s) by (destruct HI as [(I & _)|(y & a & l & _ & _ & _ & _ & _ & I & _)]; eauto).
  destruct I as [final I].
  destruct (in_dec (list_eq_dec (list_eq_dec N.eq_dec)) p (map fst (wr_temps s))) as [Ht|Ht].
  - right. apply in_map_iff in Ht as ([q i] & <- & Ht). cbn [fst]. pose proof (hv_temp _ _ _ _ _ I q i Ht) as (_ & _ & H0 & k & -> & Hk).
    exists out, dir, n, m, k. split; auto. split; auto. split; auto. left. split; auto. split; auto.
    destruct HI as [(_ & [H|[H _]])|(y & a & l & _ & _ & _ & _ & _ & _ & [H|[[H _]|[H _]]])]; auto; rewrite H in Ht; destruct Ht.
  - assert (Hnt : forall i, ~ In (p, i) (wr_temps s)) by (intros i H; apply Ht; apply in_map_iff; exists (p, i); auto).
    destruct (under_dec p dir (wr_done s)) as [(k & Hk & ->)|Hk]; [|left; eapply hinv_unchanged; eauto].
    destruct HI as [(I' & _)|(y & a & l & E & Hmm & Hok & Ha & Hc & I' & _)]; [rewrite (hinv_unsealed _ _ _ _ I') in Hk; destruct Hk|].
    right. pose proof (hv_done _ _ _ _ _ I' k Hk) as (Hin & _ & i & content & Hct & H1 & H2 & _). injection Hct as <-.
    exists out, dir, n, m, k. split; auto. split; auto. split; auto. right. split; auto. exists y, a, (jb_bytes J m n (program_filled A w P) k).
    split; auto. split; [|exists i; auto]. exists l, (cr_contents (program_filled A w P)). rewrite Hc. auto.
Qed.
Print Assumptions C92_elsewhere.

(** A successful run leaves the whole archive and nothing else. *)
Theorem C92_done : forall J A w can_open P g, inodes_given (w_fs w) -> convert_run J A w can_open P (Some (Ok tt)) g ->
  exists out dir n m y a l contents, program_out P = Some out /\ out_place w out = Some (dir, n) /\
    program_main A w P can_open = ([COpened out m y; CWritten out a], Ok tt) /\
    all_ok l /\ archive_of l (fetch_of contents) a /\
    (forall k, In k (jb_names J m n) -> has_file g (dir ++ [k]) (jb_bytes J m n (mkCreator (after l) contents) k)) /\
    (forall p, (forall k, In k (jb_names J m n) -> p <> dir ++ [k]) -> unchanged (w_fs w) g p).
Proof.
  intros J A w can_open P g Hino R.
  destruct (convert_state _ _ _ _ _ _ _ R) as [[_ K]|(out & dir & n & m & s & Hout & Ho & -> & HI)]; [now destruct K|].
  destruct HI as [(_ & [H|[_ H]])|(y & a & l & E & Hmm & Hok & Ha & Hc & I & [H|[(Ht & Hd & _)|(_ & _ & e & H)]])]; try discriminate H; [now destruct H|].
  exists out, dir, n, m, y, a, l, (cr_contents (program_filled A w P)). split; auto. split; auto. split; auto. split; auto. split; auto. split.
  - intros k Hk. pose proof (hv_done _ _ _ _ _ I k (Hd k Hk)) as (_ & _ & i & content & Hct & H1 & H2 & _). injection Hct as <-. exists i. rewrite Hc. auto.
  - intros p Hp. eapply (hinv_unchanged (w_fs w) dir (jb_names J m n)); eauto; [rewrite Ht; intros i []|].
    intros k Hk. apply Hp. now apply (hv_done _ _ _ _ _ I k).
Qed.
Print Assumptions C92_done.

(** A run that does not succeed leaves, with one file (the default), the host as it was. *)
Theorem C92_failed : forall J A w can_open P r g, inodes_given (w_fs w) -> names_output J ->
  convert_run J A w can_open P (Some r) g -> r <> Ok tt ->
  (forall p, unchanged (w_fs w) g p) \/
  (exists out m y a dir n, m <> OneFile /\ program_out P = Some out /\ program_main A w P can_open = ([COpened out m y; CWritten out a], Ok tt) /\
     out_place w out = Some (dir, n) /\
     forall p, unchanged (w_fs w) g p \/ exists k d, In k (jb_names J m n) /\ p = dir ++ [k] /\ complete J m n k a d /\ has_file g p d).
Proof.
  intros J A w can_open P r g Hino [HJ HJ1] R Hr.
  destruct (convert_state _ _ _ _ _ _ _ R) as [[-> _]|(out & dir & n & m & s & Hout & Ho & -> & HI)]; [left; split; auto|].
  destruct HI as [(I & [H|[Ht _]])|(y & a & l & E & Hmm & Hok & Ha & Hc & I & [H|[(_ & _ & H)|(Ht & (k0 & Hk0 & Hnd) & e & H)]])]; try discriminate H.
  - left. intros p. eapply hinv_unchanged; eauto; [rewrite Ht; intros i []|rewrite (hinv_unsealed _ _ _ _ I); intros k []].
  - now injection H as ->.
  - destruct (in_dec (list_eq_dec N.eq_dec) k0 (wr_done s)) as [|_]; [contradiction|]. destruct m as [| |].
    + left. intros p. rewrite HJ1 in *. eapply hinv_unchanged; eauto; [rewrite Ht; intros i []|]. intros k Hk. exfalso.
      pose proof (hv_done _ _ _ _ _ I k Hk) as ([<-|[]] & _). destruct Hk0 as [<-|[]]. contradiction.
    + right. exists out, TwoFiles, y, a, dir, n. split; [bad|]. split; auto. split; auto. split; auto. intros p.
      destruct (under_dec p dir (wr_done s)) as [(k & Hk & ->)|Hk]; [right|left; eapply hinv_unchanged; eauto; rewrite Ht; intros i []].
      pose proof (hv_done _ _ _ _ _ I k Hk) as (Hin & _ & i & content & Hct & H1 & H2 & _). injection Hct as <-.
      exists k, (jb_bytes J TwoFiles n (program_filled A w P) k). split; auto. split; auto. split; [|exists i; auto].
      exists l, (cr_contents (program_filled A w P)). rewrite Hc. auto.
    + right. exists out, NoConcat, y, a, dir, n. split; [bad|]. split; auto. split; auto. split; auto. intros p.
      destruct (under_dec p dir (wr_done s)) as [(k & Hk & ->)|Hk]; [right|left; eapply hinv_unchanged; eauto; rewrite Ht; intros i []].
      pose proof (hv_done _ _ _ _ _ I k Hk) as (Hin & _ & i & content & Hct & H1 & H2 & _). injection Hct as <-.
      exists k, (jb_bytes J NoConcat n (program_filled A w P) k). split; auto. split; auto. split; [|exists i; auto].
      exists l, (cr_contents (program_filled A w P)). rewrite Hc. auto.
Qed.
Print Assumptions C92_failed.

(** What a successful run wrote is what the readers open, as C74. *)
Theorem C92_reopened : forall parse J A w can_open P g w1 s out dir n, inodes_given (w_fs w) -> names_output J ->
  match P with Tar2arx o => create_concat (to_concat o) = Ok OneFile | Zip2arx _ o => create_concat (zo_concat o) = Ok OneFile end ->
  convert_run J A w can_open P (Some (Ok tt)) g -> program_out P = Some out -> out_place w out = Some (dir, n) ->
  (forall t m, h_names (w_fs w) (dir ++ [n]) <> Some (HLink t m)) ->
  (forall a, finalize (program_filled A w P) = Some a -> parse (jb_bytes J OneFile n (program_filled A w P) n) = Ok a) ->
  w_fs w1 = w_fs w -> leads_into w1 s dir n ->
  exists y a, program_main A w P can_open = ([COpened out OneFile y; CWritten out a], Ok tt) /\
    open_archive parse (mkWorld g (w_attr w1) (w_list w1) (w_cwd w1)) s = Ok a.
Proof.
  intros parse J A w can_open P g w1 s out dir n Hino [HJ HJ1] Hm R Hout Ho Hlink Hparse Hw1 (Hs & Hsep & c & Hc & Hlook).
  destruct (convert_state _ _ _ _ _ _ _ R) as [[_ K]|(out' & dir' & n' & m & st & Hout' & Ho' & -> & HI)]; [now destruct K|].
  destruct HI as [(_ & [H|[_ H]])|(y & a & l & E & Hmm & Hok & Ha & Hcr & I & [H|[(Ht & Hd & _)|(_ & _ & e & H)]])]; try discriminate H; [now destruct H|].
  assert (out' = out) as -> by congruence. assert (dir' = dir /\ n' = n) as [-> ->] by (split; congruence).
  assert (m = OneFile) as -> by (destruct P as [o|p o]; congruence).
  rewrite HJ1 in *. exists y, a. split; [exact E|].
  assert (Hfin : finalize (program_filled A w P) = Some a) by (rewrite <- Hcr; exact Ha).
  assert (Hn : ordinary n).
  { destruct (out_place_name _ _ _ _ Ho). destruct (in_pieces s n) as [H1 H2]; [rewrite Hc; apply in_app_iff; right; now left|]. repeat split; auto. }
  pose proof (hv_done _ _ _ _ _ I n (Hd n (or_introl eq_refl))) as (_ & Hnd & i & content & Hct & Hi1 & Hi2 & _). injection Hct as <-.
  assert (Hstay : forall p, h_names (wr_fs st) p = h_names (w_fs w) p \/ (h_names (w_fs w) p <> Some HDir /\ forall t m, h_names (w_fs w) p <> Some (HLink t m))).
  { intros p. destruct (list_eq_dec (list_eq_dec N.eq_dec) p (dir ++ [n])) as [->|Hp]; [right; split; auto|left].
    apply (hv_rest _ _ _ _ _ I); [rewrite Ht; intros j []|]. intros k Hk. pose proof (hv_done _ _ _ _ _ I k Hk) as ([<-|[]] & _). exact Hp. }
  unfold look in Hlook. cbn [fst snd] in Hlook. rewrite Hw1 in Hlook. apply (namei_stays _ _ _ Hstay) in Hlook.
  destruct (namei_app _ _ true dir [n] ltac:(discriminate) _ _ Hlook) as [k' Hk'].
  rewrite namei_last, Hi1 in Hk' by exact Hn.
  unfold open_archive, look_str, opath_of. cbn [w_fs w_cwd]. rewrite Hsep, Hc, app_nil_r. destruct s as [|x s]; [easy|].
  unfold look. cbn [fst snd]. rewrite Hk', Hi2. now apply Hparse.
Qed.
Print Assumptions C92_reopened.

(** ** A run to the end *)
Definition converted_fs (f : hostfs) (dir : path) (t n : bytes) (d : bytes) : hostfs :=
  let f1 := make_temp f (dir ++ [t]) in rename_file (touch (set_data f1 (h_next f) d) (h_next f)) (dir ++ [t]) (dir ++ [n]).

Lemma converts_fully J A w can_open P out y a dir n t : names_output J ->
  program_main A w P can_open = ([COpened out OneFile y; CWritten out a], Ok tt) -> out_place w out = Some (dir, n) ->
  t <> n -> h_names (w_fs w) (dir ++ [t]) = None -> h_names (w_fs w) (dir ++ [n]) <> Some HDir ->
  convert_run J A w can_open P (Some (Ok tt)) (converted_fs (w_fs w) dir t n (jb_bytes J OneFile n (program_filled A w P) n)).
Proof.
  intros [HJ HJ1] E Ho Ht Hf Hd. set (content := jb_bytes J OneFile n (program_filled A w P)).
  set (f1 := make_temp (w_fs w) (dir ++ [t])). set (i := h_next (w_fs w)). set (f2 := touch (set_data f1 i (content n)) i).
  change (converted_fs (w_fs w) dir t n (content n)) with (wr_fs (mkWriting (rename_file f2 (dir ++ [t]) (dir ++ [n])) (without (dir ++ [t]) [(dir ++ [t], i)]) [n])).
  eapply (conv_written _ _ _ _ _ out OneFile y a dir n (mkWriting f1 [(dir ++ [t], i)] [])); [exact Ho|exact E| | |].
  - rewrite HJ1. eapply calls_more; [constructor|]. apply (call_temp dir [n] None (w_fs w) [] [] t); [intros [H|[]]; congruence|exact Hf].
  - rewrite HJ1. eapply calls_more; [eapply calls_more; [constructor|]|].
    + eapply (call_write _ _ _ _ _ _ (dir ++ [t]) i (content n)). left. reflexivity.
    + fold f2. apply (call_rename dir [n] (Some content) f2 [(dir ++ [t], i)] [] (dir ++ [t]) i n content); [reflexivity|left; reflexivity|left; reflexivity| |].
      * unfold f2, touch, set_data. cbn [h_data]. now rewrite N.eqb_refl.
      * unfold f2, f1, make_temp, touch, set_data, bump, set_name. cbn [h_names].
        destruct (path_eqb' (dir ++ [n]) (dir ++ [t])) eqn:Ex; [intros HH; discriminate HH|exact Hd].
  - right. left. split.
    + unfold without. cbn [filter fst wr_temps]. assert (path_eqb' (dir ++ [t]) (dir ++ [t]) = true) as -> by now apply path_eqb'_spec. reflexivity.
    + split; [rewrite HJ1; intros k H; exact H|reflexivity].
Qed.

(** What it makes of the host. *)
Lemma converted_names f dir t n d q : t <> n ->
  h_names (converted_fs f dir t n d) q =
  if path_eqb' q (dir ++ [n]) then Some (HFile (h_next f)) else if path_eqb' q (dir ++ [t]) then None else h_names f q.
Proof.
  intros Ht. unfold converted_fs, rename_file, make_temp, touch, set_data, bump, set_name. cbn [h_names h_next h_data].
  assert (path_eqb' (dir ++ [t]) (dir ++ [t]) = true) as -> by now apply path_eqb'_spec.
  destruct (path_eqb' q (dir ++ [n])); [reflexivity|]. destruct (path_eqb' q (dir ++ [t])); reflexivity.
Qed.
Lemma converted_data f dir t n d i : h_data (converted_fs f dir t n d) i = if i =? h_next f then d else h_data f i.
Proof.
  unfold converted_fs, rename_file, make_temp, touch, set_data, bump, set_name. cbn [h_names h_next h_data]. destruct (i =? h_next f); reflexivity.
Qed.

(** "They do not overwrite a file unless told to" fails: whatever regular file is at the output path -
    the tar or zip itself, another archive - a successful run replaces it, and nothing is asked before. *)
Theorem C92_clobber_refuted : forall J A w can_open P out y a dir n i t, inodes_given (w_fs w) -> names_output J ->
  program_main A w P can_open = ([COpened out OneFile y; CWritten out a], Ok tt) -> out_place w out = Some (dir, n) ->
  h_names (w_fs w) (dir ++ [n]) = Some (HFile i) -> t <> n -> h_names (w_fs w) (dir ++ [t]) = None ->
  (forall q, h_names (w_fs w) q = Some (HFile i) -> q = dir ++ [n]) ->
  exists g, convert_run J A w can_open P (Some (Ok tt)) g /\
    has_file g (dir ++ [n]) (jb_bytes J OneFile n (program_filled A w P) n) /\
    (forall q, h_names g q <> Some (HFile i)).
Proof.
  intros J A w can_open P out y a dir n i t Hino HJ E Ho Hi Ht Hfree Honly.
  eexists. split; [eapply converts_fully; eauto; rewrite Hi; bad|].
  assert (Hnew : i <> h_next (w_fs w)) by (pose proof (Hino _ _ Hi); lia).
  split.
  - exists (h_next (w_fs w)). rewrite converted_names, converted_data, N.eqb_refl by exact Ht.
    assert (path_eqb' (dir ++ [n]) (dir ++ [n]) = true) as -> by now apply path_eqb'_spec. auto.
  - intros q. rewrite converted_names by exact Ht. destruct (path_eqb' q (dir ++ [n])) eqn:E1; [congruence|].
    destruct (path_eqb' q (dir ++ [t])); [bad|]. intros H. apply Honly in H. subst q.
    assert (path_eqb' (dir ++ [n]) (dir ++ [n]) = true) by now apply path_eqb'_spec. congruence.
Qed.
Print Assumptions C92_clobber_refuted.

(** ** A host with two tars *)
Definition pkg_names : list (path * hnode) := [([b "h"], HDir); ([b "h"; b "pkg-1.2.tar"], HFile 0); ([b "h"; b "pkg-1.3.tar"], HFile 1)].
Definition pkg_fs : hostfs := host_of pkg_names [b "two"; b "three"].
Definition pkg_world (f : hostfs) : world := mkWorld f src_attr src_list [b "h"].
(** One member, "f", with all the bytes of the tar. *)
Definition pkg_around : surroundings :=
  mkAround (fun d => Some (Ok [Ok (t_member TRegular (b "f") [] d)])) (fun _ => Some []) [] (fun _ => Err (EIo IoOther)).
Definition pkg_jbk : jbk := mkJbk (fun m n => match m with OneFile => [n] | _ => [n; n ++ b "c"] end) (fun _ _ c k => k ++ b ":" ++ concat (cr_contents c)).
Definition pkg_run (f : bytes) : program := Tar2arx (mkTarOpts (Some f) None None (CZstd 5)).
Definition pkg_fs1 : hostfs := converted_fs pkg_fs [b "h"] (b ".tmp") (b "pkg-1.arx") (b "pkg-1.arx:two").
Definition pkg_fs2 : hostfs := converted_fs pkg_fs1 [b "h"] (b ".tmp") (b "pkg-1.arx") (b "pkg-1.arx:three").

(** "Converting two tars gives two archives" fails: both runs succeed, each says nothing, and the first
    archive is nowhere on the host any more. *)
Theorem C92_lost_refuted :
  convert_run pkg_jbk pkg_around (pkg_world pkg_fs) true (pkg_run (b "pkg-1.2.tar")) (Some (Ok tt)) pkg_fs1 /\
  has_file pkg_fs1 [b "h"; b "pkg-1.arx"] (b "pkg-1.arx:two") /\
  convert_run pkg_jbk pkg_around (pkg_world pkg_fs1) true (pkg_run (b "pkg-1.3.tar")) (Some (Ok tt)) pkg_fs2 /\
  (forall p, ~ has_file pkg_fs2 p (b "pkg-1.arx:two")).
Proof.
  assert (HJ : names_output pkg_jbk) by (split; [intros [| |] n; left; reflexivity|reflexivity]).
  assert (E1 : exists a, program_main pkg_around (pkg_world pkg_fs) (pkg_run (b "pkg-1.2.tar")) true = ([COpened (b "pkg-1.arx") OneFile (CZstd 5); CWritten (b "pkg-1.arx") a], Ok tt))
    by (eexists; vm_compute; reflexivity).
  assert (E2 : exists a, program_main pkg_around (pkg_world pkg_fs1) (pkg_run (b "pkg-1.3.tar")) true = ([COpened (b "pkg-1.arx") OneFile (CZstd 5); CWritten (b "pkg-1.arx") a], Ok tt))
    by (eexists; vm_compute; reflexivity).
  destruct E1 as [a1 E1]. destruct E2 as [a2 E2]. split; [|split; [|split]].
  - pose proof (converts_fully pkg_jbk pkg_around (pkg_world pkg_fs) true (pkg_run (b "pkg-1.2.tar")) _ _ a1 [b "h"] (b "pkg-1.arx") (b ".tmp") HJ E1) as K.
    assert (Ej : jb_bytes pkg_jbk OneFile (b "pkg-1.arx") (program_filled pkg_around (pkg_world pkg_fs) (pkg_run (b "pkg-1.2.tar"))) (b "pkg-1.arx") = b "pkg-1.arx:two") by (vm_compute; reflexivity).
    rewrite Ej in K. apply K; [vm_compute; reflexivity|discriminate|vm_compute; reflexivity|vm_compute; discriminate].
  - exists 2. split; vm_compute; reflexivity.
  - pose proof (converts_fully pkg_jbk pkg_around (pkg_world pkg_fs1) true (pkg_run (b "pkg-1.3.tar")) _ _ a2 [b "h"] (b "pkg-1.arx") (b ".tmp") HJ E2) as K.
    assert (Ej : jb_bytes pkg_jbk OneFile (b "pkg-1.arx") (program_filled pkg_around (pkg_world pkg_fs1) (pkg_run (b "pkg-1.3.tar"))) (b "pkg-1.arx") = b "pkg-1.arx:three") by (vm_compute; reflexivity).
    rewrite Ej in K. apply K; [vm_compute; reflexivity|discriminate|vm_compute; reflexivity|vm_compute; discriminate].
  - intros p (i & H1 & H2). unfold pkg_fs2, pkg_fs1 in H1, H2. rewrite !converted_names in H1 by discriminate. rewrite !converted_data in H2.
    destruct (path_eqb' p ([b "h"] ++ [b "pkg-1.arx"])).
    + injection H1 as <-. vm_compute in H2. discriminate H2.
    + destruct (path_eqb' p ([b "h"] ++ [b ".tmp"])); [discriminate H1|]. cbn [pkg_fs host_of h_names] in H1. apply lookup_in in H1. unfold pkg_names in H1.
      repeat (destruct H1 as [H1|H1]; [first [discriminate H1 | injection H1 as <- <-; vm_compute in H2; discriminate H2]|]). destruct H1.
Qed.
Print Assumptions C92_lost_refuted.

Example C92_meets_hypotheses : inodes_given pkg_fs /\ names_output pkg_jbk /\
  program_out (pkg_run (b "pkg-1.2.tar")) = Some (b "pkg-1.arx") /\
  out_place (pkg_world pkg_fs) (b "pkg-1.arx") = Some ([b "h"], b "pkg-1.arx") /\
  (* killed while writing *)
  convert_run pkg_jbk pkg_around (pkg_world pkg_fs) true (pkg_run (b "pkg-1.2.tar")) None (make_temp pkg_fs [b "h"; b ".tmp"]) /\
  (* the tar is not there *)
  (exists e, convert_run pkg_jbk pkg_around (pkg_world pkg_fs) true (pkg_run (b "pkg-1.4.tar")) (Some (Err e)) pkg_fs) /\
  (* the output is the zip that is converted *)
  (exists y a, program_main pkg_around (pkg_world pkg_fs) (Zip2arx (b "pkg-1.2.tar") (mkZipOpts (b "pkg-1.2.tar") None (CZstd 5))) true =
     ([COpened (b "pkg-1.2.tar") OneFile y; CWritten (b "pkg-1.2.tar") a], Ok tt) /\
   h_names pkg_fs ([b "h"] ++ [b "pkg-1.2.tar"]) = Some (HFile 0) /\
   h_names pkg_fs ([b "h"] ++ [b ".tmp"]) = None /\
   (forall q, h_names pkg_fs q = Some (HFile 0) -> q = [b "h"] ++ [b "pkg-1.2.tar"])).
Proof.
  split; [|split; [|split; [|split; [|split; [|split]]]]].
  - intros q i H. cbn [pkg_fs host_of h_names] in H. apply lookup_in in H. unfold pkg_names in H.
    repeat (destruct H as [H|H]; [first [discriminate H | injection H as <- <-; vm_compute; reflexivity]|]). destruct H.
  - split; [intros [| |] n; left; reflexivity|reflexivity].
  - vm_compute. reflexivity.
  - vm_compute. reflexivity.
  - assert (E1 : exists a, program_main pkg_around (pkg_world pkg_fs) (pkg_run (b "pkg-1.2.tar")) true = ([COpened (b "pkg-1.arx") OneFile (CZstd 5); CWritten (b "pkg-1.arx") a], Ok tt))
      by (eexists; vm_compute; reflexivity).
    destruct E1 as [a1 E1]. change (make_temp pkg_fs [b "h"; b ".tmp"]) with (wr_fs (mkWriting (make_temp pkg_fs ([b "h"] ++ [b ".tmp"])) [([b "h"] ++ [b ".tmp"], h_next pkg_fs)] [])).
    eapply (conv_written _ _ _ _ _ (b "pkg-1.arx") OneFile (CZstd 5) a1 [b "h"] (b "pkg-1.arx")); [vm_compute; reflexivity|exact E1| |constructor|now left].
    eapply calls_more; [constructor|]. apply (call_temp [b "h"] [b "pkg-1.arx"] None pkg_fs [] [] (b ".tmp")); [intros [H|[]]; discriminate H|reflexivity].
  - eexists. apply conv_refused. vm_compute. reflexivity.
  - eexists. eexists. split; [vm_compute; reflexivity|]. split; [reflexivity|]. split; [reflexivity|].
    intros q H. cbn [pkg_fs host_of h_names] in H. apply lookup_in in H. unfold pkg_names in H.
    repeat (destruct H as [H|H]; [first [discriminate H | injection H as <-; reflexivity]|]). destruct H.
Qed.
