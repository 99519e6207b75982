(** Facts for C95: what a creation archives of a host that changes meanwhile. *)
From Verif Require Export LiveFacts TogetherFacts.

Local Ltac bad := let H := fresh in intros H; discriminate H.

Definition pre_of (o : create_opts) : bytes := match o_prefix o with Some s => s | None => [] end.

(** The list [l] holds what was seen at the paths [G]; those of [D] have arrived. *)
Definition filled_then (W : world -> Prop) (pre : bytes) (G D : bytes -> Prop) (l : list entry) (contents : list bytes) : Prop :=
  (forall p nd, has l p nd ->
     (exists s follow, G s /\ stands_for s (pieces pre ++ p) /\ seen_then W follow s contents nd) \/
     (nd = (KDir, mkMeta 1000 1000 493 0) /\ p <> [] /\ exists s t, G s /\ t <> [] /\ stands_for s (pieces pre ++ p ++ t))) /\
  (forall s, D s -> arrived W pre s l contents).

Lemma each_then (W : world -> Prop) pre H (Hh : forall k, W (hs_at H k)) (G : bytes -> Prop) : forall l0 (D : bytes -> Prop) t c t' c' l, cr_entries c = after l -> all_ok l -> filled_then W pre G D l (cr_contents c) ->
  (forall s f, In (s, f) l0 -> G s) -> live_each H t pre l0 c = (t', c', Ok tt) ->
  exists l', cr_entries c' = after l' /\ all_ok l' /\ filled_then W pre G (fun s => D s \/ exists f, In (s, f) l0) l' (cr_contents c').
Proof.
  induction l0 as [|[s f] l0 IH]; intros D t c t' c' l Hc Hok Hf HG; cbn [live_each].
  - intros E. injection E as _ <-. exists l. split; [exact Hc|]. split; [exact Hok|]. split; [apply Hf|]. intros s [Hs|(f & [])]. now apply Hf.
  - destruct (live_add H t pre s f c) as [[t1 c1] r] eqn:E. destruct r as [[]| | |]; try bad. intros E2.
    destruct c as [st contents]. cbn [cr_entries cr_contents] in *. subst st. destruct Hf as [Hf1 Hf2].
    destruct (live_one H t pre s f l contents t1 c1 Hok E) as (l2 & c2 & H1 & H2 & H3 & H4 & H5).
    destruct (IH (fun x => D x \/ x = s) t1 c1 t' c' (l ++ l2) H1 H3) as (l' & K1 & K2 & K3 & K4); [|intros x g Hx; apply (HG x g); now right|exact E2|].
    + rewrite H2. split.
      * intros p nd Hh'. destruct (H5 p nd Hh') as [G0|[[G1 G2]|(G1 & G2 & u & G3 & G4)]].
        -- destruct (Hf1 p nd G0) as [(s' & f' & A1 & A2 & H' & A3 & A4)|A]; [|right; exact A].
           left. exists s', f'. split; [exact A1|]. split; [exact A2|]. exists H'. split; [exact A3|]. now apply seen_mono.
        -- left. exists s, f. split; [apply (HG s f); now left|]. split; [exact G1|]. exists H. auto.
        -- right. split; [exact G1|]. split; [exact G2|]. exists s, u. split; [apply (HG s f); now left|auto].
      * intros x [Hx| ->].
        -- destruct (Hf2 x Hx) as (p & A1 & A2). exists p. split; [exact A1|]. intros Hp. destruct (A2 Hp) as (g & [A|(nd & (H' & A3 & A4) & A5)]); exists g; [left; exact A|].
           right. exists nd. split; [exists H'; split; [exact A3|now apply seen_mono]|]. destruct A5 as [A5|(A5 & m & A6)]; [left; now apply has_more|right; split; [exact A5|exists m; now apply has_more]].
        -- destruct (H4 s f (or_introl eq_refl)) as (p & A1 & A2). exists p. split; [exact A1|]. intros Hp. exists f. destruct (A2 Hp) as [A|(nd & A3 & A4)]; [left; exists H; auto|].
           right. exists nd. split; [exists H; auto|exact A4].
    + exists l'. split; [exact K1|]. split; [exact K2|]. split; [exact K3|]. intros x [Hx|(g & [Hx|Hx])]; [apply K4; auto|injection Hx as <- _; apply K4; auto|apply K4; right; eauto].
Qed.

Scheme live_walk_in_ind2 := Minimality for live_walk_in Sort Prop
with live_walk_names_ind2 := Minimality for live_walk_names Sort Prop.

Lemma before_fail_in its s : In s (before_fail its) -> In (WEntry s) its.
Proof. induction its as [|[p|] its IH]; cbn [before_fail]; [intros []| |intros []]. intros [->|H]; [now left|right; auto]. Qed.

Lemma walk_in_went (W : world -> Prop) x : forall d l, live_walk_in W d l -> went W true x d -> forall s, In (WEntry s) l -> went W true x s.
Proof.
  intros d l L. apply (live_walk_in_ind2 W (fun d l => went W true x d -> forall s, In (WEntry s) l -> went W true x s)
    (fun d q ns l => forall w names, W w -> w_list w q = Some names -> incl ns names -> went W true x d -> forall s, In (WEntry s) l -> went W true x s)); auto.
  - intros w s _ _ _ s' [E|[]]. discriminate E.
  - intros w w' s q names l0 H1 L1 H2 L2 _ IH Hd. eapply IH; eauto. apply incl_refl.
  - intros s q w names _ _ _ _ s' [].
  - intros w s q n r l1 l2 H1 Hn _ IH1 _ IH2 w' names Hw Hl Hi Hd s' Hin.
    assert (Hc : went W true x (path_join s n)) by (eapply went_below; eauto; apply Hi; now left).
    destruct Hin as [E|Hin]; [injection E as <-; exact Hc|]. apply in_app_iff in Hin as [Hin|Hin]; [apply IH1; auto|].
    eapply IH2; eauto. intros z Hz. apply Hi. now right.
  - intros w s q n r l2 H1 Hn _ IH2 w' names Hw Hl Hi Hd s' Hin.
    destruct Hin as [E|Hin]; [injection E as <-; eapply went_below; eauto; apply Hi; now left|].
    eapply IH2; eauto. intros z Hz. apply Hi. now right.
Qed.

Lemma walk_went (W : world -> Prop) x rc its : live_walk W x rc its -> forall s, In s (before_fail its) -> went W rc x s.
Proof.
  intros L s Hin. apply before_fail_in in Hin. destruct L as [l R -> L|k R Hk|R].
  - destruct Hin as [E|Hin]; [injection E as <-; constructor|]. eapply walk_in_went; eauto. constructor.
  - destruct Hin as [E|[]]. injection E as <-. constructor.
  - destruct Hin as [E|[]]. discriminate E.
Qed.

Lemma walk_root (W : world -> Prop) x rc its : live_walk W x rc its -> In x (before_fail its) \/ exists w, W w /\ forall q n, look_str w true x <> At q n.
Proof.
  intros L. destruct L as [l R -> L|k R Hk|R]; [left; now left|left; now left|]. right. inversion R as [| |w q t m w' H1 L1 H2 L2|w H1 L1]; subst.
  - exists w'. auto.
  - exists w. split; [exact H1|]. intros q n E. destruct (look_either w x q n E) as (q' & n' & E'). now apply L1 in E'.
Qed.

Lemma infiles_then (W : world -> Prop) pre rc (G : bytes -> Prop) : forall ins (D : bytes -> Prop) c c' l, (forall x s, In x ins -> went W rc x s -> G s) ->
  cr_entries c = after l -> all_ok l -> filled_then W pre G D l (cr_contents c) ->
  live_infiles W pre rc ins c c' (Ok tt) ->
  exists l', cr_entries c' = after l' /\ all_ok l' /\
    filled_then W pre G (fun s => D s \/ (In s ins /\ forall w, W w -> exists q n, look_str w true s = At q n)) l' (cr_contents c').
Proof.
  induction ins as [|x ins IH]; intros D c c' l HG Hc Hok Hf L.
  - inversion L; subst. exists l. split; [exact Hc|]. split; [exact Hok|]. split; [apply Hf|]. intros s [Hs|[[] _]]. now apply Hf.
  - inversion L as [|s0 l0 its H t t' c0 c3 c4 r0 Lw Hh Le Lr|s0 l0 its H t t' c0 c3 r0 Lw Hh Le Hr]; subst; [|now destruct Hr].
    destruct (each_then W pre H Hh G (map (fun p => (p, std_path_eqb p x)) (before_fail its)) D t c t' c3 l Hc Hok Hf) with (2 := Le) as (l1 & K1 & K2 & K3).
    { intros s f Hin. apply in_map_iff in Hin as (u & E & Hin). injection E as -> <-. apply (HG x); [now left|]. eapply walk_went; eauto. }
    destruct (IH _ c3 c' l1 (fun y s Hy => HG y s (or_intror Hy)) K1 K2 K3 Lr) as (l' & J1 & J2 & J3 & J4).
    exists l'. split; [exact J1|]. split; [exact J2|]. split; [exact J3|]. intros s [Hs|[[<-|Hs] Hw]]; [apply J4; auto| |apply J4; auto].
    apply J4. left. right. destruct (walk_root _ _ _ _ Lw) as [Hr|(w & H1 & H2)].
    + exists (std_path_eqb x x). apply in_map_iff. exists x. auto.
    + exfalso. destruct (Hw w H1) as (q & n & E). now apply H2 in E.
Qed.

Lemma list_read_lines w w' fl ls : bind (list_read w w' fl) read_lines = Ok ls ->
  exists q i, look_str w true fl = At q (HFile i) /\ text_lines (h_data (w_fs w') i) ls /\ Forall (fun x => utf8 x = true) ls.
Proof.
  unfold list_read. destruct (look_str w true fl) as [q [|i|tg m]|e|e]; cbn [bind]; try bad. destruct (at_readable (w_attr w q)); cbn [bind]; [|bad].
  intros E. apply read_lines_spec in E. exists q, i. split; [reflexivity|exact E].
Qed.

Lemma fill_then (W0 W : world -> Prop) o c : live_fill W0 W o c (Ok tt) ->
  exists files l, lines_then W0 o files /\ cr_entries c = after l /\ all_ok l /\
    filled_then W (pre_of o) (gone_by W o files)
      (fun s => match files with Some ls => In s ls | None => In s (o_infiles o) /\ forall w, W w -> exists q n, look_str w true s = At q n end) l (cr_contents c).
Proof.
  intros L. inversion L as [fl w1 w2 fs H t t' c1 r Efl H1 H2 Hrl Hh Le|fl w1 w2 Efl H1 H2 Hrl E1 E2|Efl Ha'|w1 s Efl Ha' H1 Hs Hno|c1 r Efl Ha' Hex Li]; subst.
  - destruct (list_read_lines _ _ _ _ Hrl) as (q & i & A1 & A2 & A3).
    destruct (each_then W (pre_of o) H Hh (fun s => In s fs) (map (fun s => (s, o_follow o)) fs) (fun _ => False) t creator_empty t' c []) with (5 := Le) as (l & K1 & K2 & K3 & K4);
      [reflexivity|exact all_ok_nil|split; [intros p nd K; now apply has_nil in K|intros s []]|intros s f Hin; apply in_map_iff in Hin as (u & E & Hin); injection E as -> _; exact Hin|].
    exists (Some fs), l. split; [unfold lines_then; rewrite Efl; exists w1, w2, q, i, fs; do 5 (split; [assumption|]); reflexivity|]. split; [exact K1|]. split; [exact K2|]. split; [exact K3|].
    intros s Hs. apply K4. right. exists (o_follow o). apply in_map_iff. eauto.
  - exfalso. destruct (list_read w1 w2 fl) as [d| | |]; cbn [bind] in E2; try discriminate E2. destruct (read_lines d) as [fs| | |] eqn:E; cbn [bind] in E2; try discriminate E2. cbn [bind] in Hrl. now destruct (Hrl fs).
  - destruct (infiles_then W (pre_of o) (o_recurse o) (gone_by W o None) (o_infiles o) (fun _ => False) creator_empty c []) with (5 := Li) as (l & K1 & K2 & K3 & K4);
      [intros x s Hx Hw; exists x; auto|reflexivity|exact all_ok_nil|split; [intros p nd K; now apply has_nil in K|intros s []]|].
    exists None, l. split; [unfold lines_then; now rewrite Efl|]. split; [exact K1|]. split; [exact K2|]. split; [exact K3|]. intros s Hs. apply K4. auto.
Qed.

Lemma seen_then_more (W V : world -> Prop) f s contents nd : (forall w, W w -> V w) -> seen_then W f s contents nd -> seen_then V f s contents nd.
Proof. intros H (h & H1 & H2). exists h. auto. Qed.
Lemma went_more (W V : world -> Prop) rc x s : (forall w, W w -> V w) -> went W rc x s -> went V rc x s.
Proof. intros H K. induction K as [|d w q names n Hr _ IH Hw Hl Hn]; [constructor|]. eapply went_below; eauto. Qed.
Lemma fill_then_more (W0 W V0 V : world -> Prop) o c : (forall w, W0 w -> V0 w) -> (forall w, W w -> V w) -> live_fill W0 W o c (Ok tt) ->
  exists files l, lines_then V0 o files /\ cr_entries c = after l /\ all_ok l /\
    filled_then V (pre_of o) (gone_by V o files)
      (fun s => match files with Some ls => In s ls | None => In s (o_infiles o) /\ forall w, V w -> exists q n, look_str w true s = At q n end) l (cr_contents c).
Proof.
  intros H0 H L. destruct (fill_then _ _ _ _ L) as (files & l & A1 & A2 & A3 & A4 & A5). exists files, l.
  assert (HG : forall s, gone_by W o files s -> gone_by V o files s).
  { intros s. unfold gone_by. destruct files as [ls|]; [auto|]. intros (x & Hx & Hw). exists x. split; [exact Hx|]. eapply went_more; eauto. }
  split; [|split; [exact A2|split; [exact A3|split]]].
  - unfold lines_then in *. destruct (o_file_list o) as [fl|]; [|exact A1]. destruct A1 as (w & w' & q & i & ls & B1 & B2 & B3). exists w, w', q, i, ls. split; [auto|]. split; [auto|]. exact B3.
  - intros p nd Hh. destruct (A4 p nd Hh) as [(s & f & B1 & B2 & B3)|(B1 & B2 & s & t & B3 & B4)].
    + left. exists s, f. split; [auto|]. split; [exact B2|]. eapply seen_then_more; eauto.
    + right. split; [exact B1|]. split; [exact B2|]. exists s, t. auto.
  - intros s Hs. destruct (A5 s) as (p & B1 & B2).
    { destruct files as [ls|]; [exact Hs|]. destruct Hs as [Hs1 Hs2]. split; [exact Hs1|]. intros w Hw. apply Hs2. auto. }
    exists p. split; [exact B1|]. intros Hp. destruct (B2 Hp) as (f & [(h & B3 & B4)|(nd & B3 & B4)]); exists f; [left; exists h; auto|]. right. exists nd. split; [|exact B4]. eapply seen_then_more; eauto.
Qed.

(** ** Files that are open *)
Definition settled (s : together) (i : N) : Prop := i < h_next (tg_fs s) /\ forall x q, In x (tg_all s) -> ~ In (q, i) (ct_temps x).
Lemma in_without_1 q0 q i ts : In (q, i) (without q0 ts) -> In (q, i) ts.
Proof. unfold without. intros H. now apply filter_In in H. Qed.
Lemma settled_step J T (asked : path -> Prop) s t i : together_step J T asked s t -> settled s i -> settled t i /\ h_data (tg_fs t) i = h_data (tg_fs s) i.
Proof.
  intros S [H1 H2]. destruct S as [f past l o cwd dir n m w' _ _ _ _ _ _|f past l dir n m _|f past l1 l2 o cwd cwd' m dir n sealed ts dn f' ts' dn' C _|f past l1 l2 o cwd cwd' m dir n ts dn c a _ _|f past l1 l2 cwd cwd' m dir n ts dn c a _];
    cbn [tg_fs tg_all] in *.
  1,2: split; [|reflexivity]; split; [exact H1|]; cbn [tg_all]; intros x q Hx; apply in_app_iff in Hx as [Hx|[<-|[]]]; [now apply H2|intros []].
  2,3: split; [|reflexivity]; split; [exact H1|]; cbn [tg_all]; intros x q Hx; apply in_app_iff in Hx as [Hx|[<-|Hx]]; [apply H2; apply in_app_iff; now left| |apply H2; apply in_app_iff; right; now right];
    cbn [ct_temps]; match type of H2 with context [?l1 ++ ?y :: _] => apply (H2 y); apply in_app_iff; right; now left end.
  assert (Hts : forall q, ~ In (q, i) ts) by (intros q; apply (H2 (mkCreation o cwd cwd' m dir n sealed ts dn)); apply in_app_iff; right; now left).
  assert (G : i < h_next f' /\ (forall q, ~ In (q, i) ts') /\ h_data f' i = h_data f i).
  { inversion C as [? ? ? k Hk Hn|? ? ? q j d Hj|? ? ? q j k content Hf Hj Hk Hd Hn|? ? ? q j Hj]; subst.
    - cbn [make_temp touch set_data bump set_name h_next h_data]. split; [lia|]. split.
      + intros q [E|E]; [injection E as _ E; lia|now apply (Hts q)].
      + destruct (N.eqb_spec i (h_next f)) as [->|]; [lia|reflexivity].
    - cbn [touch set_data h_next h_data]. split; [exact H1|]. split; [exact Hts|]. destruct (N.eqb_spec i j) as [->|]; [now destruct (Hts q)|reflexivity].
    - cbn [rename_file set_name h_next h_data]. split; [exact H1|]. split; [|reflexivity]. intros q' E. apply in_without_1 in E. now apply Hts in E.
    - cbn [set_name h_next h_data]. split; [exact H1|]. split; [|reflexivity]. intros q' E. apply in_without_1 in E. now apply Hts in E. }
  destruct G as (G1 & G2 & G3). split; [|exact G3]. split; [exact G1|]. cbn [tg_all]. intros x q Hx. apply in_app_iff in Hx as [Hx|[<-|Hx]]; [apply H2; apply in_app_iff; now left|exact (G2 q)|apply H2; apply in_app_iff; right; now right].
Qed.
Lemma settled_steps J T (asked : path -> Prop) s t i : together_steps J T asked s t -> settled s i -> settled t i /\ h_data (tg_fs t) i = h_data (tg_fs s) i.
Proof.
  intros S. induction S as [s|s t u _ IH S]; [auto|]. intros K. destruct (IH K) as [K1 K2]. destruct (settled_step _ _ _ _ _ _ S K1) as [K3 K4]. split; [exact K3|congruence].
Qed.
