(** Extraction of an arbitrary table of records stays below the output directory. *)
From Verif Require Import SpecHostile HostProofs HostSteps HostFold AnyKeep.

Lemma pieces_push c n : pieces (push c n) = pieces c ++ pieces n.
Proof.
  unfold push.
  assert (E : pieces (match n with c :: r => if is_sep c then r else n | [] => [] end) = pieces n).
  { destruct n as [|x r]; [reflexivity|]. destruct (is_sep x) eqn:Ex; [|reflexivity].
    apply is_sep_eq in Ex as ->. now rewrite pieces_sep_cons. }
  set (m := match n with c :: r => if is_sep c then r else n | [] => [] end) in *.
  destruct c as [|c0 c]; [cbn [nonempty andb app]; now rewrite pieces_nil|].
  cbn [nonempty andb]. destruct (ends_with_sep (c0 :: c)) eqn:Ee; cbn [negb].
  - destruct (@exists_last _ (c0 :: c) ltac:(easy)) as (s & z & Es). rewrite Es in *.
    rewrite ends_with_sep_snoc in Ee. apply is_sep_eq in Ee as ->.
    rewrite <- app_assoc. cbn [app]. rewrite pieces_app_sep, pieces_snoc_sep. congruence.
  - rewrite <- app_assoc. change ([sep] ++ m) with (sep :: m). rewrite pieces_app_sep. congruence.
Qed.

Lemma drop_trailing_incl l : incl (drop_trailing_dots_rev l) l.
Proof.
  induction l as [|x l IH]; [easy|]. cbn [drop_trailing_dots_rev]. destruct (bytes_eqb x (b ".")); [|apply incl_refl].
  intros y Hy. right. now apply IH.
Qed.
Lemma removelast_incl {A} (l : list A) : incl (removelast l) l.
Proof.
  induction l as [|x l IH]; cbn; [easy|]. destruct l as [|y l]; [easy|].
  intros z [->|Hz]; [now left|right; now apply IH].
Qed.
Lemma pieces_pop c : incl (pieces (pop c)) (pieces c).
Proof.
  unfold pop. destruct (parent c) as [p|] eqn:Ep; [|apply incl_refl].
  rewrite (parent_pieces _ _ Ep). intros x Hx. apply removelast_incl in Hx.
  unfold drop_dots in Hx. apply in_rev, drop_trailing_incl, in_rev in Hx. exact Hx.
Qed.

Section Hostile.
Variables (a : archive) (cfg : config) (out : path) (f0 : hostfs).
Hypothesis Hh : harmless a.
Hypothesis Hout : outdir f0 (x_base cfg) out.

(** A component allowed in a path to a directory or a file. *)
Definition way (c : bytes) : Prop := (c = b "." \/ ordinary c) /\ ~ link_name a c.

(** The state of the host file system during the run. *)
Record inv (f : hostfs) : Prop := {
  iv_calm : calm a f out;
  iv_up : dirs_up f out;
  iv_out : forall q, ~ below out q ->
    unchanged f0 f q \/ (h_names f0 q = None /\ h_names f q = Some HDir /\ exists t, out = q ++ t) }.

Lemma shaped_out : shaped (x_base cfg) out.
Proof. destruct Hout as (H1 & H2 & _). now split. Qed.

Lemma below_app p x : below out (out ++ p ++ [x]).
Proof. destruct p as [|y p]; [now exists x, []|]. now exists y, (p ++ [x]). Qed.

(** Resolution below the output directory. *)
Lemma namei_below k f fl comps : inv f -> forall cur, (exists p, cur = out ++ p) -> Forall way comps ->
  match namei k f fl cur comps with
  | At q n => q = cur ++ filter not_dot comps /\ (forall t m, n <> HLink t m) /\
      (n <> HDir -> filter not_dot comps <> [] /\ h_names f q = Some n)
  | Missing q => q = cur ++ filter not_dot comps /\ filter not_dot comps <> [] /\ h_names f q = None
  | Bad _ => True
  end.
Proof.
  intros HI. induction comps as [|c comps IH]; intros cur Hcur Hw.
  - destruct k; cbn; rewrite app_nil_r; (split; [reflexivity|]; split; [discriminate|easy]).
  - inversion Hw as [|? ? [Hc Hn] Hw']; subst.
    assert (E : forall rest, namei k f fl cur (c :: rest) =
      if bytes_eqb c (b ".") then namei k f fl cur rest
        else if bytes_eqb c (b "..") then namei k f fl (removelast cur) rest
        else match h_names f (cur ++ [c]) with
          | None => match rest with [] => Missing (cur ++ [c]) | _ => Bad IoNotFound end
          | Some HDir => namei k f fl (cur ++ [c]) rest
          | Some (HFile i) => match rest with [] => At (cur ++ [c]) (HFile i) | _ => Bad IoNotDir end
          | Some (HLink t m) =>
              if match rest with [] => negb fl | _ => false end then At (cur ++ [c]) (HLink t m)
              else match k with
                   | O => Bad IoLoop
                   | S k => namei k f fl (if is_abs t then [] else cur) (pieces t ++ rest)
                   end
          end) by (intros; destruct k; reflexivity).
    rewrite E. clear E. destruct Hc as [->|Ho].
    + rewrite bytes_eqb_refl. cbn [filter]. rewrite not_dot_dot. now apply IH.
    + destruct (eqb_dotdot c Ho) as [-> ->].
      assert (Ef : filter not_dot (c :: comps) = c :: filter not_dot comps)
        by (cbn [filter]; now rewrite (not_dot_ordinary c Ho)).
      rewrite Ef. destruct Hcur as [p Hp].
      assert (Hc' : exists p, cur ++ [c] = out ++ p) by (exists (p ++ [c]); rewrite Hp; now rewrite app_assoc).
      destruct (h_names f (cur ++ [c])) as [[|i|t m]|] eqn:Eh.
      * specialize (IH (cur ++ [c]) Hc' Hw'). rewrite <- app_assoc in IH. cbn [app] in IH.
        destruct (namei k f fl (cur ++ [c]) comps); try easy.
        destruct IH as (H1 & H2 & H3). split; [exact H1|]. split; [exact H2|]. intros Hd. split; [discriminate|now apply H3].
      * destruct comps; [|easy]. cbn [filter]. split; [reflexivity|]. split; [discriminate|now rewrite Eh].
      * exfalso. apply Hn. eapply (ca_links _ _ _ (iv_calm f HI) cur c t m); eauto.
      * destruct comps; [|easy]. cbn [filter]. split; [reflexivity|]. split; [discriminate|easy].
Qed.

Lemma look_base f fl p : inv f -> look f fl (fst (x_base cfg), snd (x_base cfg) ++ p) = namei max_links f fl out p.
Proof.
  intros HI. destruct shaped_out as [H1 H2]. unfold look. cbn [fst snd].
  rewrite (namei_down max_links f fl p (snd (x_base cfg)) (fst (x_base cfg)) H1), <- H2; [reflexivity|].
  intros q x t Eq. apply (iv_up f HI _ t); [|destruct (fst (x_base cfg)), q; discriminate].
  rewrite H2, Eq, <- !app_assoc. reflexivity.
Qed.

(** Changes below the output directory keep the invariant. *)
Lemma inv_step f g : inv f -> (forall q, ~ below out q -> h_names g q = h_names f q) ->
  (forall p i, ~ below out p -> h_names f p = Some (HFile i) -> h_data g i = h_data f i /\ h_mtime g i = h_mtime f i) ->
  calm a g out -> inv g.
Proof.
  intros HI Hn Hd Hc. constructor; [exact Hc| |].
  - intros q t Eq Hq. rewrite Hn; [now apply (iv_up f HI q t)|].
    intros (x & t' & E). rewrite Eq in E. apply (f_equal (@length _)) in E. rewrite !app_length in E. cbn in E. lia.
  - intros q Hq. destruct (iv_out f HI q Hq) as [[H1 H2]|(H1 & H2 & H3)].
    + left. split; [rewrite Hn; auto|]. intros i Ei. destruct (H2 i Ei) as [H3 H4].
      destruct (Hd q i Hq) as [H5 H6]; [now rewrite H1|]. split; congruence.
    + right. rewrite Hn; auto.
Qed.

Lemma names_set f q v p : h_names (set_name f q v) p = if path_eqb' p q then v else h_names f p.
Proof. reflexivity. Qed.
Lemma names_set_eq f q v : h_names (set_name f q v) q = v.
Proof. rewrite names_set, path_eqb'_refl. reflexivity. Qed.
Lemma names_set_neq f q v p : p <> q -> h_names (set_name f q v) p = h_names f p.
Proof. intros H. now rewrite names_set, path_eqb'_neq. Qed.
Lemma path_dec (p q : path) : {p = q} + {p <> q}.
Proof. destruct (path_eqb' p q) eqn:E; [left; now apply path_eqb'_spec|right; intros H; apply path_eqb'_spec in H; congruence]. Qed.

(** A name below [out] given a directory, a link with an allowed name, or nothing. *)
Lemma inv_set f p x v : inv f ->
  (forall i, v <> Some (HFile i)) -> (forall t m, v = Some (HLink t m) -> link_name a x) ->
  inv (set_name f (out ++ p ++ [x]) v).
Proof.
  intros HI Hv Hl. apply (inv_step f _ HI).
  - intros q Hq. apply names_set_neq. intros ->. apply Hq, below_app.
  - intros. split; reflexivity.
  - destruct (iv_calm f HI) as [A1 A2 A3]. constructor.
    + intros q y t m Hq E. destruct (path_dec (q ++ [y]) (out ++ p ++ [x])) as [Ep|Np].
      * rewrite Ep, names_set_eq in E. rewrite app_assoc in Ep. apply app_inj_tail in Ep as [_ ->]. eauto.
      * rewrite names_set_neq in E; eauto.
    + intros p' q i. destruct (path_dec p' (out ++ p ++ [x])) as [->|N1]; [rewrite names_set_eq; now intros ?%Hv|].
      destruct (path_dec q (out ++ p ++ [x])) as [->|N2]; [rewrite names_set_eq; now intros _ ?%Hv|].
      rewrite !names_set_neq; eauto.
    + intros p' i. destruct (path_dec p' (out ++ p ++ [x])) as [->|N1]; [rewrite names_set_eq; now intros ?%Hv|].
      rewrite names_set_neq; cbn; eauto.
Qed.

Lemma split_last (l : path) : l <> [] -> exists p x, l = p ++ [x].
Proof. intros H. destruct (exists_last H) as (p & x & E). eauto. Qed.

(** The inode [i] is known only below [out]. *)
Definition ours (f : hostfs) (i : N) : Prop := i < h_next f /\ forall p, h_names f p = Some (HFile i) -> below out p.

Lemma inv_data f i g : inv f -> ours f i -> (forall p, h_names g p = h_names f p) -> h_next g = h_next f ->
  (forall j, j <> i -> h_data g j = h_data f j /\ h_mtime g j = h_mtime f j) -> inv g.
Proof.
  intros HI [_ Hi] Hn Hx Hd. apply (inv_step f _ HI).
  - intros; apply Hn.
  - intros p j Hp Hj. apply Hd. intros ->. exact (Hp (Hi p Hj)).
  - destruct (iv_calm f HI) as [A1 A2 A3]. constructor.
    + intros q x t m Hq E. rewrite Hn in E. eauto.
    + intros p q j. rewrite !Hn. apply A2.
    + intros p j. rewrite Hn, Hx. apply A3.
Qed.

(** mkdir of a prefix of a permitted path. *)
Definition ok_path (comps : list bytes) : Prop :=
  exists s p, comps = s ++ p /\ Forall way p /\
    (s = snd (x_base cfg) \/ (p = [] /\ exists t, snd (x_base cfg) = s ++ t)).

Lemma ok_path_full p : Forall way p -> ok_path (snd (x_base cfg) ++ p).
Proof. intros H. exists (snd (x_base cfg)), p. auto. Qed.
Lemma ok_path_init l c : ok_path (l ++ [c]) -> ok_path l.
Proof.
  intros (s & p & E & Hp & Hs). destruct p as [|y p].
  - rewrite app_nil_r in E. exists l, []. rewrite app_nil_r. split; [reflexivity|]. split; [constructor|]. right.
    split; [reflexivity|]. destruct Hs as [->|[_ [t Et]]].
    + rewrite <- E. now exists [c].
    + rewrite <- E in Et. rewrite <- app_assoc in Et. eauto.
  - destruct (split_last (y :: p) ltac:(easy)) as (p' & z & Ep). rewrite Ep in *.
    rewrite app_assoc in E. apply app_inj_tail in E as [-> ->].
    exists s, p'. apply Forall_app in Hp as [Hp _]. split; [reflexivity|]. split; [exact Hp|].
    destruct Hs as [Hs|[Hs _]]; [now left|]. destruct p'; discriminate.
Qed.

Lemma mkdir_inv f comps : inv f -> ok_path comps ->
  inv (fst (mkdir f (fst (x_base cfg), comps))) /\
  (forall i, ours f i -> ours (fst (mkdir f (fst (x_base cfg), comps))) i).
Proof.
  intros HI (s & p & -> & Hp & Hs). unfold mkdir. destruct Hs as [->|[-> [t Et]]].
  - rewrite look_base by exact HI. pose proof (namei_below max_links f false p HI out) as H.
    specialize (H ltac:(exists []; now rewrite app_nil_r) Hp).
    destruct (namei max_links f false out p) as [|q|]; cbn [fst]; auto.
    destruct H as (-> & Hne & Hnone). destruct (split_last _ Hne) as (p' & x & ->).
    split; [apply inv_set; auto; discriminate|]. intros i [Hi1 Hi2]. split; [exact Hi1|].
    intros p0. destruct (path_dec p0 (out ++ p' ++ [x])) as [->|N]; [rewrite names_set_eq; discriminate|].
    rewrite names_set_neq; auto.
  - rewrite app_nil_r. destruct shaped_out as [H1 H2]. unfold look. cbn [fst snd].
    rewrite Et in H1. apply Forall_app in H1 as [H1 _].
    rewrite <- (app_nil_r s).
    rewrite (namei_down max_links f false [] s (fst (x_base cfg)) H1).
    + cbn. auto.
    + intros q x t' Eq. apply (iv_up f HI _ (t' ++ filter not_dot t)); [|destruct (fst (x_base cfg)), q; discriminate].
      rewrite H2, Et, filter_app, Eq, <- !app_assoc. reflexivity.
Qed.

Lemma create_dir_all_inv comps : forall f, inv f -> ok_path comps ->
  inv (fst (create_dir_all f (fst (x_base cfg), comps))) /\
  (forall i, ours f i -> ours (fst (create_dir_all f (fst (x_base cfg), comps))) i).
Proof.
  unfold create_dir_all. cbn [fst snd].
  induction comps as [|c comps IH] using rev_ind; intros f HI Hok; [cbn; auto|].
  rewrite rev_app_distr. cbn [rev app create_dir_all_rev].
  rewrite rev_involutive.
  destruct (mkdir_inv f _ HI Hok) as [M1 M2].
  assert (K : forall (h : hostfs) (o : option ioerr) (bb : bool), fst (if bb then (h, None) else (h, o)) = h) by (intros ? ? []; reflexivity).
  destruct (mkdir f (fst (x_base cfg), comps ++ [c])) as [f1 o1]; cbn [fst] in *.
  destruct (IH f1 M1 (ok_path_init _ _ Hok)) as [N1 N2].
  destruct (create_dir_all_rev f1 (fst (x_base cfg)) (rev comps)) as [f2 o2]; cbn [fst] in *.
  destruct (mkdir_inv f2 _ N1 Hok) as [O1 O2].
  destruct (mkdir f2 (fst (x_base cfg), comps ++ [c])) as [f3 o3]; cbn [fst] in *.
  destruct o1 as [[]|]; rewrite ?K; cbn [fst]; auto.
  destruct o2 as [e2|]; [cbn [fst]; auto|]. destruct o3 as [e3|]; rewrite ?K; cbn [fst]; auto.
Qed.

(** A permitted path of a directory or a file, and one of a link. *)
Lemma look_way f fl cur : inv f -> Forall way (pieces cur) ->
  match look f fl (abs_path cfg cur) with
  | At q n => q = out ++ filter not_dot (pieces cur) /\ (forall t m, n <> HLink t m) /\
      (n <> HDir -> filter not_dot (pieces cur) <> [] /\ h_names f q = Some n)
  | Missing q => q = out ++ filter not_dot (pieces cur) /\ filter not_dot (pieces cur) <> [] /\ h_names f q = None
  | Bad _ => True
  end.
Proof.
  intros HI Hw. unfold abs_path. rewrite iter_pieces, look_base by exact HI.
  apply namei_below; auto. exists []. now rewrite app_nil_r.
Qed.

Lemma look_link f cur l x : inv f -> pieces cur = l ++ [x] -> Forall way l -> ordinary x ->
  match look f false (abs_path cfg cur) with
  | At q n => q = out ++ filter not_dot l ++ [x] /\ h_names f q = Some n
  | Missing q => q = out ++ filter not_dot l ++ [x] /\ h_names f q = None
  | Bad _ => True
  end.
Proof.
  intros HI E Hl Ho. unfold abs_path. rewrite iter_pieces, E, look_base by exact HI. clear E.
  assert (G : forall cur, (exists p, cur = out ++ p) ->
    match namei max_links f false cur (l ++ [x]) with
    | At q n => q = cur ++ filter not_dot l ++ [x] /\ h_names f q = Some n
    | Missing q => q = cur ++ filter not_dot l ++ [x] /\ h_names f q = None
    | Bad _ => True
    end); [|apply G; exists []; now rewrite app_nil_r].
  induction Hl as [|c l [Hc Hn] Hl IH]; intros cu Hcu.
  - cbn [app filter]. rewrite namei_last by exact Ho.
    destruct (h_names f (cu ++ [x])) as [[| |]|] eqn:Eh; auto.
  - cbn [app]. generalize max_links IH. intros k IHk. clear IH.
    assert (E : forall rest, namei k f false cu (c :: rest) =
      if bytes_eqb c (b ".") then namei k f false cu rest
        else if bytes_eqb c (b "..") then namei k f false (removelast cu) rest
        else match h_names f (cu ++ [c]) with
          | None => match rest with [] => Missing (cu ++ [c]) | _ => Bad IoNotFound end
          | Some HDir => namei k f false (cu ++ [c]) rest
          | Some (HFile i) => match rest with [] => At (cu ++ [c]) (HFile i) | _ => Bad IoNotDir end
          | Some (HLink t m) =>
              if match rest with [] => negb false | _ => false end then At (cu ++ [c]) (HLink t m)
              else match k with
                   | O => Bad IoLoop
                   | S k => namei k f false (if is_abs t then [] else cu) (pieces t ++ rest)
                   end
          end) by (intros; destruct k; reflexivity).
    rewrite E. clear E. destruct Hc as [->|Hc].
    + rewrite bytes_eqb_refl. cbn [filter]. rewrite not_dot_dot. now apply IHk.
    + destruct (eqb_dotdot c Hc) as [-> ->]. cbn [filter]. rewrite (not_dot_ordinary c Hc).
      destruct Hcu as [p Hp].
      assert (Hc' : exists p, cu ++ [c] = out ++ p) by (exists (p ++ [c]); rewrite Hp; now rewrite app_assoc).
      destruct (h_names f (cu ++ [c])) as [[|i|t m]|] eqn:Eh.
      * specialize (IHk (cu ++ [c]) Hc'). rewrite <- app_assoc in IHk. exact IHk.
      * now destruct l.
      * exfalso. apply Hn. eapply (ca_links _ _ _ (iv_calm f HI) cu c t m); eauto.
      * now destruct l.
Qed.

Lemma ours_set f q v i : ours f i -> (forall j, v <> Some (HFile j)) -> ours (set_name f q v) i.
Proof.
  intros [H1 H2] Hv. split; [exact H1|]. intros p. destruct (path_dec p q) as [->|N].
  - rewrite names_set_eq. now intros ?%Hv.
  - rewrite names_set_neq; auto.
Qed.

Lemma new_file_inv f p x : inv f -> h_names f (out ++ p ++ [x]) = None ->
  let g := touch (set_data (bump (set_name f (out ++ p ++ [x]) (Some (HFile (h_next f))))) (h_next f) []) (h_next f) in
  inv g /\ ours g (h_next f) /\ forall i, ours f i -> ours g i.
Proof.
  intros HI Hnone g.
  assert (Hg : forall q, h_names g q = if path_eqb' q (out ++ p ++ [x]) then Some (HFile (h_next f)) else h_names f q) by reflexivity.
  assert (Ng : h_next g = h_next f + 1) by reflexivity.
  destruct (iv_calm f HI) as [A1 A2 A3].
  assert (Fresh : forall q, h_names g q = Some (HFile (h_next f)) -> q = out ++ p ++ [x]).
  { intros q. rewrite Hg. destruct (path_eqb' q _) eqn:E; [intros _; now apply path_eqb'_spec|].
    intros H. apply A3 in H. lia. }
  repeat apply conj.
  - apply (inv_step f g HI).
    + intros q Hq. rewrite Hg, path_eqb'_neq; [reflexivity|]. intros ->. apply Hq, below_app.
    + intros q i Hq Hi. apply A3 in Hi. cbn. destruct (i =? h_next f) eqn:E; [apply N.eqb_eq in E; lia|easy].
    + constructor.
      * intros q y t m Hq. rewrite Hg. destruct (path_eqb' _ _); [discriminate|]. eauto.
      * intros q q' i E1 E2 Hb. rewrite Hg in E1, E2.
        destruct (path_eqb' q _) eqn:F1; destruct (path_eqb' q' _) eqn:F2.
        -- apply path_eqb'_spec in F2 as ->. apply below_app.
        -- assert (i = h_next f) as -> by congruence. apply A3 in E2. lia.
        -- apply path_eqb'_spec in F2 as ->. apply below_app.
        -- eauto.
      * intros q i. rewrite Hg, Ng. destruct (path_eqb' _ _); [intros [= ->]; lia|]. intros H%A3. lia.
  - lia.
  - intros q Hq. rewrite (Fresh q Hq). apply below_app.
  - intros i [H1 H2]. split; [lia|]. intros q. rewrite Hg. destruct (path_eqb' q _) eqn:E.
    + intros _. apply path_eqb'_spec in E as ->. apply below_app.
    + auto.
Qed.

Lemma open_new_inv f cur : inv f -> Forall way (pieces cur) ->
  inv (fst (open_new f (abs_path cfg cur))) /\
  (forall i, ours f i -> ours (fst (open_new f (abs_path cfg cur))) i) /\
  (forall i, snd (open_new f (abs_path cfg cur)) = inl i -> ours (fst (open_new f (abs_path cfg cur))) i).
Proof.
  intros HI Hw. pose proof (look_way f false cur HI Hw) as H. unfold open_new.
  destruct (look f false (abs_path cfg cur)) as [|q|]; cbn [fst snd]; try (split; [|split]; auto; discriminate).
  destruct H as (-> & Hne & Hnone). destruct (split_last _ Hne) as (p & x & E). rewrite E in *.
  destruct (new_file_inv f p x HI Hnone) as (B1 & B2 & B3).
  split; [exact B1|]. split; [exact B3|]. intros i [= <-]. exact B2.
Qed.

Lemma open_trunc_inv f cur : inv f -> Forall way (pieces cur) ->
  inv (fst (open_trunc f (abs_path cfg cur))) /\
  (forall i, ours f i -> ours (fst (open_trunc f (abs_path cfg cur))) i) /\
  (forall i, snd (open_trunc f (abs_path cfg cur)) = inl i -> ours (fst (open_trunc f (abs_path cfg cur))) i).
Proof.
  intros HI Hw. pose proof (look_way f true cur HI Hw) as H. unfold open_trunc.
  destruct (look f true (abs_path cfg cur)) as [q [|i|t m]|q|]; cbn [fst snd]; try (split; [|split]; auto; discriminate).
  destruct H as (-> & _ & Hi). specialize (Hi ltac:(discriminate)) as [Hne Hi].
  destruct (split_last _ Hne) as (p & x & E). rewrite E in *.
  destruct (iv_calm f HI) as [A1 A2 A3].
  assert (Ho : ours f i) by (split; [eauto|intros q Hq; exact (A2 _ q i Hi Hq (below_app p x))]).
  assert (Hk : forall j, ours f j -> ours (touch (set_data f i []) i) j) by (intros j Hj; exact Hj).
  split; [|split; [exact Hk|intros j [= <-]; now apply Hk]].
  apply (inv_data f i); auto.
  intros j Hj. cbn. destruct (j =? i) eqn:Ej; [apply N.eqb_eq in Ej; easy|easy].
Qed.

Lemma open_target_inv f cur mtime : inv f -> Forall way (pieces cur) ->
  let g := fst (open_target cfg cur mtime f) in
  inv g /\ (forall i, ours f i -> ours g i) /\ (forall i, snd (open_target cfg cur mtime f) = Ok (Some i) -> ours g i).
Proof.
  intros HI Hw. cbn zeta.
  destruct (open_new_inv f cur HI Hw) as (A1 & A2 & A3).
  destruct (open_trunc_inv f cur HI Hw) as (B1 & B2 & B3).
  unfold open_target. destruct (open_new f (abs_path cfg cur)) as [f1 [i|e]]; cbn [fst snd] in *.
  - split; [exact A1|]. split; [exact A2|]. intros j [= <-]. auto.
  - assert (T : let x := match open_trunc f (abs_path cfg cur) with
               | (f', inl i) => (f', Ok (Some i)) | (f', Datatypes.inr e) => (f', Err (EIo e)) end in
       inv (fst x) /\ (forall i, ours f i -> ours (fst x) i) /\ (forall i, snd x = Ok (Some i) -> ours (fst x) i)).
    { destruct (open_trunc f (abs_path cfg cur)) as [f2 [i|e2]]; cbn [fst snd] in *.
      - split; [exact B1|]. split; [exact B2|]. intros j [= <-]. auto.
      - split; [exact B1|]. split; [exact B2|]. discriminate. }
    cbn zeta in T.
    destruct e; try (cbn [fst snd]; split; [exact A1|]; split; [exact A2|discriminate]).
    destruct (x_policy cfg); try exact T; try (cbn [fst snd]; split; [exact HI|]; split; [auto|discriminate]).
    destruct (modified f true (abs_path cfg cur)) as [t| | |];
      try (cbn [fst snd]; split; [exact HI|]; split; [auto|discriminate]).
    destruct (entry_time mtime) as [t'| | |]; try (cbn [fst snd]; split; [exact HI|]; split; [auto|discriminate]).
    destruct (t <=? t')%Z; [exact T|]. cbn [fst snd]. split; [exact HI|]. split; [auto|discriminate].
Qed.

Lemma symlink_inv f cur l x target : inv f -> pieces cur = l ++ [x] -> Forall way l -> ordinary x -> link_name a x ->
  inv (fst (symlink f target (abs_path cfg cur))) /\ (forall i, ours f i -> ours (fst (symlink f target (abs_path cfg cur))) i).
Proof.
  intros HI E Hl Ho Hx. pose proof (look_link f cur l x HI E Hl Ho) as H. unfold symlink.
  destruct target as [|c target]; [cbn; auto|].
  destruct (look f false (abs_path cfg cur)) as [|q|]; cbn [fst]; auto.
  destruct H as [-> _]. split; [apply inv_set; auto; discriminate|]. intros i Hi. apply ours_set; [exact Hi|discriminate].
Qed.

Lemma remove_inv f cur l x : inv f -> pieces cur = l ++ [x] -> Forall way l -> ordinary x ->
  inv (fst (remove_file f (abs_path cfg cur))) /\ (forall i, ours f i -> ours (fst (remove_file f (abs_path cfg cur))) i).
Proof.
  intros HI E Hl Ho. pose proof (look_link f cur l x HI E Hl Ho) as H. unfold remove_file.
  destruct (look f false (abs_path cfg cur)) as [q [|i|t m]|q|]; cbn [fst]; auto;
    (destruct H as [-> _]; split; [apply inv_set; auto; discriminate|intros j Hj; apply ours_set; [exact Hj|discriminate]]).
Qed.

Lemma make_link_inv f cur l x target mtime : inv f -> pieces cur = l ++ [x] -> Forall way l -> ordinary x -> link_name a x ->
  let g := fst (make_link cfg cur target mtime f) in inv g /\ (forall i, ours f i -> ours g i).
Proof.
  intros HI E Hl Ho Hx. cbn zeta.
  destruct (symlink_inv f cur l x target HI E Hl Ho Hx) as [A1 A2].
  destruct (remove_inv f cur l x HI E Hl Ho) as [B1 B2].
  unfold make_link.
  assert (T : let y := match remove_file f (abs_path cfg cur) with
              | (f1, None) => (fst (symlink f1 target (abs_path cfg cur)),
                  match snd (symlink f1 target (abs_path cfg cur)) with None => Ok tt | Some e => Err (EIo e) end)
              | (f1, Some e) => (f1, Err (EIo e))
              end in inv (fst y) /\ (forall i, ours f i -> ours (fst y) i)).
  { cbn zeta. destruct (remove_file f (abs_path cfg cur)) as [f1 [e|]]; cbn [fst] in *; [auto|].
    destruct (symlink_inv f1 cur l x target B1 E Hl Ho Hx) as [C1 C2]. auto. }
  cbn zeta in T. destruct (symlink f target (abs_path cfg cur)) as [f1 [e|]]; cbn [fst snd] in *; [|auto].
  destruct e; try (cbn [fst]; auto; fail).
  destruct (x_policy cfg); try exact T; try (cbn [fst]; auto; fail).
  destruct (modified f false (abs_path cfg cur)) as [t| | |]; try (cbn [fst]; auto; fail).
  destruct (entry_time mtime) as [t'| | |]; try (cbn [fst]; auto; fail).
  destruct (t <=? t')%Z; [exact T|]. cbn [fst]. auto.
Qed.

(** The walk's context. *)
Record cinv (c : ctx) : Prop := {
  ci_fs : inv (x_fs c);
  ci_cur : Forall way (pieces (x_cur c));
  ci_tasks : Forall (fun t => ours (x_fs c) (t_ino t)) (x_tasks c) }.

Lemma one_turn_inv c x : cinv c -> cinv (one_turn c x).
Proof.
  intros [H1 H2 H3]. unfold one_turn. destruct (nth_error (x_tasks c) (fst x)) as [t|] eqn:En; [|now constructor].
  assert (Ht : ours (x_fs c) (t_ino t)) by (rewrite Forall_forall in H3; apply H3; now apply nth_error_In in En).
  unfold write_turn. destruct (t_done t).
  { constructor; cbn; auto. apply replace_nth_forall; auto. }
  destruct (snd x) as [k|]; cbn.
  - constructor; cbn [x_fs x_cur x_tasks]; auto.
    + apply (inv_data (x_fs c) (t_ino t)); auto. intros j Hj. cbn. destruct (j =? t_ino t) eqn:E; [apply N.eqb_eq in E; easy|easy].
    + apply replace_nth_forall; [exact Ht|]. revert H3. apply Forall_impl. intros t' Ht'. exact Ht'.
  - constructor; cbn; auto. apply replace_nth_forall; auto.
Qed.

Lemma run_turns_inv l : forall c, cinv c -> cinv (run_turns l c).
Proof. induction l as [|x l IH]; intros c Hc; cbn; auto. apply IH. now apply one_turn_inv. Qed.
Lemma tick_inv sched c : cinv c -> cinv (tick sched c).
Proof. intros H. pose proof (run_turns_inv (sched (x_tick c)) c H) as [H1 H2 H3]. unfold tick. constructor; cbn; auto. Qed.

Lemma with_fs_inv c g : cinv c -> inv g -> (forall i, ours (x_fs c) i -> ours g i) -> cinv (with_fs c g).
Proof.
  intros [H1 H2 H3] Hg Hi. constructor; cbn; auto. revert H3. apply Forall_impl. intros t. apply Hi.
Qed.

Lemma record_way r : In r (a_recs a) -> (forall t, r_payload r <> RLink t) -> Forall way (pieces (r_name r)).
Proof.
  intros Hr Hl. apply Forall_forall. intros x Hx. split; [|now apply (hl_other a Hh r x)].
  destruct (in_pieces _ _ Hx) as [H1 H2].
  destruct (bytes_eqb_spec x (b ".")) as [->|N1]; [now left|right].
  repeat split; auto. intros ->. exact (hl_up a Hh r Hr Hx).
Qed.

Lemma link_way r t : In r (a_recs a) -> r_payload r = RLink t ->
  exists l x, pieces (r_name r) = l ++ [x] /\ Forall way l /\ ordinary x /\ link_name a x.
Proof.
  intros Hr Hl. destruct (hl_link a Hh r t Hr Hl) as (q & x & E & Hx & Hq). exists q, x.
  assert (Hin : forall y, In y (q ++ [x]) -> y <> [] /\ no_sep y /\ y <> b "..").
  { intros y Hy. rewrite <- E in Hy. destruct (in_pieces _ _ Hy) as [H1 H2]. repeat split; auto.
    intros ->. exact (hl_up a Hh r Hr Hy). }
  split; [exact E|]. repeat split.
  - apply Forall_forall. intros y Hy. split; [|auto].
    destruct (Hin y) as (H1 & H2 & H3); [apply in_or_app; auto|].
    destruct (bytes_eqb_spec y (b ".")) as [->|N1]; [now left|right]. repeat split; auto.
  - apply Hin. apply in_or_app. right. now left.
  - apply Hin. apply in_or_app. right. now left.
  - exact Hx.
  - apply Hin. apply in_or_app. right. now left.
  - exists r, t, q. auto.
Qed.

Lemma run_inv sched fuel : forall cur stop c, cinv c ->
  cinv (fst (run_range x_builder a (extractor a cfg sched) fuel cur stop c)).
Proof.
  induction fuel as [|k IH]; intros cur stop c Hc; [exact Hc|]. cbn [run_range].
  destruct (cur =? stop); [exact Hc|].
  unfold create_entry, rec_at. destruct (at_ (a_recs a) cur) as [r|] eqn:Er; [|exact Hc].
  assert (Hr : In r (a_recs a)) by (unfold at_ in Er; destruct (_ <? _); [now apply nth_error_In in Er|discriminate]).
  cbn [bind]. destruct (r_payload r) as [ad sz|fi nb|tg|v] eqn:Ep; cbn [b_file b_link b_dir x_builder].
  - (* file *)
    destruct (of_utf8 (r_name r)) as [nm| | |] eqn:Eu; cbn [bind andthen fst]; try exact Hc.
    assert (nm = r_name r) as -> by (unfold of_utf8 in Eu; destruct (utf8 (r_name r)); congruence).
    rewrite Ep. cbn [bind andthen fst on_file extractor].
    assert (Hw : Forall way (pieces (r_name r))) by (apply record_way; auto; intros t; rewrite Ep; discriminate).
    assert (Hf : cinv (fst (x_on_file a cfg sched c (r_name r, ad, r_mtime r)))).
    { unfold x_on_file. pose proof (tick_inv sched c Hc) as Ht. set (c1 := tick sched c) in *.
      destruct (should_extract cfg (push (x_cur c1) (r_name r)) false); [|exact Ht].
      destruct (a_fetch a ad) as [data| | |]; try exact Ht.
      destruct (open_target_inv (x_fs c1) (push (x_cur c1) (r_name r)) (r_mtime r)) as (O1 & O2 & O3).
      { apply Ht. } { rewrite pieces_push. apply Forall_app. split; [apply Ht|exact Hw]. }
      destruct (open_target cfg (push (x_cur c1) (r_name r)) (r_mtime r) (x_fs c1)) as [f [[i|]| | |]]; cbn [fst snd] in *;
        try (apply with_fs_inv; auto; fail).
      destruct Ht as [T1 T2 T3]. constructor; cbn [x_fs x_cur x_tasks]; auto.
      apply Forall_app. split; [revert T3; apply Forall_impl; intros t; apply O2|].
      constructor; [|constructor]. now apply O3. }
    destruct (x_on_file a cfg sched c (r_name r, ad, r_mtime r)) as [c1 [| | |]]; cbn [andthen fst] in *; auto.
  - (* directory *)
    destruct (of_utf8 (r_name r)) as [nm| | |] eqn:Eu; cbn [bind andthen fst]; try exact Hc.
    assert (nm = r_name r) as -> by (unfold of_utf8 in Eu; destruct (utf8 (r_name r)); congruence).
    assert (Hw : Forall way (pieces (r_name r))) by (apply record_way; auto; intros t; rewrite Ep; discriminate).
    pose proof (tick_inv sched c Hc) as Ht. set (c1 := tick sched c) in *.
    set (c2 := with_cur c1 (push (x_cur c1) (r_name r))).
    cbn [on_enter on_exit extractor]. fold c1. fold c2.
    assert (H2 : cinv c2).
    { destruct Ht as [T1 T2 T3]. constructor; [exact T1| |exact T3].
      change (x_cur c2) with (push (x_cur c1) (r_name r)). rewrite pieces_push. now apply Forall_app. }
    assert (Hex : forall c, cinv c -> cinv (with_cur c (pop (x_cur c)))).
    { intros c' [T1 T2 T3]. constructor; cbn; auto. rewrite Forall_forall in *. intros y Hy. apply T2. now apply pieces_pop. }
    destruct (should_extract cfg (push (x_cur c1) (r_name r)) true).
    + destruct (create_dir_all_inv (snd (x_base cfg) ++ pieces (x_cur c2)) (x_fs c2) (ci_fs c2 H2)
        (ok_path_full _ (ci_cur c2 H2))) as [O1 O2].
      assert (Ea : abs_path cfg (push (x_cur c1) (r_name r)) = (fst (x_base cfg), snd (x_base cfg) ++ pieces (x_cur c2)))
        by (unfold abs_path; now rewrite iter_pieces).
      unfold io. rewrite Ea.
      destruct (create_dir_all (x_fs c2) (fst (x_base cfg), snd (x_base cfg) ++ pieces (x_cur c2))) as [g [e|]]; cbn [fst snd andthen] in *.
      * now apply with_fs_inv.
      * pose proof (IH (as_u32 fi) (as_u32 fi + as_u32 nb) (with_fs c2 g) (with_fs_inv c2 g H2 O1 O2)) as H3.
        destruct (run_range _ _ _ k (as_u32 fi) (as_u32 fi + as_u32 nb) (with_fs c2 g)) as [c3 [| | |]]; cbn [andthen fst] in *; auto.
    + cbn [andthen]. apply IH. exact (Hex c2 H2).
  - (* link *)
    destruct (of_utf8 (r_name r)) as [nm| | |] eqn:Eu; cbn [bind andthen fst]; try exact Hc.
    assert (nm = r_name r) as -> by (unfold of_utf8 in Eu; destruct (utf8 (r_name r)); congruence).
    rewrite Ep. destruct (of_utf8 tg) as [t| | |]; cbn [bind andthen fst on_link extractor]; try exact Hc.
    destruct (link_way r tg Hr Ep) as (l & x & El & Hl & Ho & Hx).
    assert (Hf : cinv (fst (x_on_link cfg sched c (r_name r, t, r_mtime r)))).
    { unfold x_on_link. pose proof (tick_inv sched c Hc) as Ht. set (c1 := tick sched c) in *.
      destruct (should_extract cfg (push (x_cur c1) (r_name r)) false); [|exact Ht].
      destruct (make_link_inv (x_fs c1) (push (x_cur c1) (r_name r)) (pieces (x_cur c1) ++ l) x t (r_mtime r)) as [O1 O2].
      { apply Ht. } { rewrite pieces_push, El. apply app_assoc. } { apply Forall_app. split; [apply Ht|exact Hl]. }
      { exact Ho. } { exact Hx. }
      destruct (make_link cfg (push (x_cur c1) (r_name r)) t (r_mtime r) (x_fs c1)) as [f rr]; cbn [fst] in *.
      now apply with_fs_inv. }
    destruct (x_on_link cfg sched c (r_name r, t, r_mtime r)) as [c1 [| | |]]; cbn [andthen fst] in *; auto.
  - exact Hc.
Qed.

Lemma inv_start : calm a f0 out -> forall c, x_fs c = f0 -> x_tasks c = [] -> x_cur c = [] ->
  exists g, create_dir_all f0 (x_base cfg) = (g, None) /\ cinv (with_fs c g).
Proof.
  intros Hc c E1 E2 E3. destruct (base_made f0 _ _ Hout) as (g & Hg & Hm & _). exists g. split; [exact Hg|].
  destruct Hm as [U O K D M N _ _]. destruct Hc as [A1 A2 A3].
  assert (Hn : forall q n, h_names g q = Some n -> n <> HDir -> h_names f0 q = Some n).
  { intros q n Hq Hne. destruct (prefix_dec out q) as [[t Et]|Hnp]; [|now rewrite <- O by auto].
    destruct q as [|y q]; [now rewrite <- O by auto|].
    pose proof (U (y :: q) t Et ltac:(easy)). congruence. }
  constructor; cbn [with_fs x_fs x_cur x_tasks].
  - constructor.
    + constructor.
      * intros q x t m Hq Hl. apply Hn in Hl; [|discriminate]. eauto.
      * intros p q i Hp Hq. apply Hn in Hp; [|discriminate]. apply Hn in Hq; [|discriminate]. eauto.
      * intros p i Hp. apply Hn in Hp; [|discriminate]. rewrite N. eauto.
    + exact U.
    + intros q Hq. destruct (h_names f0 q) as [n|] eqn:Eq.
      * left. split; [rewrite Eq; now apply K|]. intros i _. rewrite D, M. auto.
      * destruct (prefix_dec out q) as [[t Et]|Hnp].
        -- destruct q as [|y q].
           ++ left. split; [apply O; auto|]. intros i. rewrite Eq. discriminate.
           ++ right. split; [reflexivity|]. split; [|eauto]. apply (U _ t Et). easy.
        -- left. split; [apply O; auto|]. intros i. rewrite Eq. discriminate.
  - rewrite E3. constructor.
  - rewrite E2. constructor.
Qed.


End Hostile.
