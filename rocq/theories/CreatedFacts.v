(** Adding a list of inputs. *)
From Verif Require Export SpecCreated PropCli2.

Lemma mirrors_ext w q n l ext nd : mirrors_as w q n l nd -> mirrors_as w q n (l ++ ext) nd.
Proof. apply mirrors_as_mono. Qed.

(** One input. *)
Definition adds (w : world) (x : input) (l l' : list entry) (contents contents' : list bytes) : Prop :=
  all_ok l' /\ (exists ext, contents' = contents ++ ext) /\
  (forall p nd, has l p nd -> has l' p nd) /\
  (forall q n, at_input w x q n -> in_path x ++ q <> [] ->
     exists nd, has l' (in_path x ++ q) nd /\ mirrors_as w (in_root x ++ q) n contents' nd) /\
  (forall p nd, has l' p nd -> has l p nd \/
     (exists q n, p = in_path x ++ q /\ at_input w x q n /\ mirrors_as w (in_root x ++ q) n contents' nd) \/
     (nd = (KDir, mkMeta 1000 1000 493 0) /\ p <> [] /\ exists y t, in_path x = p ++ y :: t)).

Lemma walk_file fuel w s q i rc : look_str w true s = At q (HFile i) -> walk fuel w s rc = Some [WEntry s].
Proof.
  intros H. unfold walk. unfold look_str in *. destruct s as [|c s]; [discriminate H|].
  unfold look in *. destruct (namei_unfollowed _ _ _ _ _ _ H) as [E|(q' & t & m & E)]; rewrite E; [reflexivity|]. now rewrite H.
Qed.

Lemma file_input w pre x i fuel l contents rc : good_input w pre x -> in_node x = HFile i -> all_ok l ->
  (forall q nd, ~ has l (in_path x ++ q) nd) -> (forall p y t nd, in_path x = p ++ y :: t -> has l p nd -> is_dir_node nd = true) ->
  exists c l', add_from_path fuel w pre (in_arg x) rc (mkCreator (after l) contents) = (c, Ok tt) /\
    cr_entries c = after l' /\ adds w x l l' contents (cr_contents c).
Proof.
  intros ((Hrel & Hst) & Hu & Ho & Hl & Hn) En Hok Hfree Hdirs. unfold adds, at_input. rewrite En in *. destruct Hn as (Hne & Hsp & Hrd).
  assert (Hs : in_arg x <> []) by (intros E; rewrite E in Hl; discriminate Hl).
  assert (Hu' : forallb utf8 (filter not_dot (pieces (in_arg x))) = true).
  { apply forallb_forall. intros m Hm. apply filter_In in Hm as [Hm _]. rewrite forallb_forall in Hu. auto. }
  unfold add_from_path. rewrite (walk_file _ _ _ _ _ _ Hl). cbn [before_fail map add_each]. rewrite is_root_self.
  destruct (AddSession.one_entry w (in_arg x) pre (in_path x) Hs Hrel Hu' Hst true _ _ (mkCreator (after l) contents) Hne Hl) as (e & ext & E & Ep & Hk); [auto|].
  cbn [cr_entries cr_contents] in *. rewrite E.
  destruct Hk as [(_ & _ & j & _ & Hc)|(k & Ek & Hm & _)]; [congruence|].
  destruct (in_path x) as [|n d _] eqn:Ed using rev_ind; [easy|].
  destruct (ordinary_last (e_path e) d n Ho Ep) as [Hd Hlast].
  destruct (add_fresh l e k n Hok Ek Hlast) as (A1 & A2 & A3).
  - rewrite Hd. intros q r nd Eq Hh. apply (Hdirs q (match r ++ [n] with y :: _ => y | [] => n end) (tl (r ++ [n])) nd); auto.
    rewrite Eq, <- app_assoc. f_equal. destruct r; reflexivity.
  - rewrite Hd. intros nd Hh. apply (Hfree [] nd). now rewrite app_nil_r.
  - rewrite Hd in A3. rewrite A1. eexists. exists (l ++ [e]). split; [reflexivity|]. cbn [cr_entries cr_contents].
    split; [reflexivity|]. split; [exact A2|]. split; [eauto|]. split; [intros p nd Hh; apply A3; auto|]. split.
    + intros q m Hq _. destruct q as [|y q]; [|destruct Hq as [Hq _]; discriminate Hq]. subst m. rewrite !app_nil_r.
      exists (k, e_meta e). split; [apply A3; auto|exact Hm].
    + intros p nd Hh. apply A3 in Hh as [Hh|[[-> ->]|(Hp & [r Hr] & -> & _)]]; auto.
      * right. left. exists [], (HFile i). rewrite !app_nil_r. auto.
      * right. right. split; [reflexivity|]. split; [exact Hp|].
        exists (match r ++ [n] with y :: _ => y | [] => n end), (tl (r ++ [n])). rewrite Hr, <- app_assoc. f_equal. destruct r; reflexivity.
Qed.

Lemma dir_input w pre x fuel l contents : good_input w pre x -> in_node x = HDir -> (in_depth x < fuel)%nat -> all_ok l ->
  (forall q nd, ~ has l (in_path x ++ q) nd) -> (forall p y t nd, in_path x = p ++ y :: t -> has l p nd -> is_dir_node nd = true) ->
  exists c l', add_from_path fuel w pre (in_arg x) true (mkCreator (after l) contents) = (c, Ok tt) /\
    cr_entries c = after l' /\ adds w x l l' contents (cr_contents c).
Proof.
  intros (Hst & Hu & Ho & Hl & Hn) En Hf Hok Hfree Hdirs. unfold adds, at_input. rewrite En in *.
  destruct (C38_archived w pre (in_arg x) (in_root x) (in_path x) (in_depth x) fuel l contents Hst Hu Ho Hl Hn Hf Hok Hfree Hdirs)
    as (c & l' & A1 & A2 & A3 & A4 & A5 & A6 & A7 & A8).
  exists c, l'. split; [exact A1|]. split; [exact A2|]. split; [exact A3|]. split; [exact A4|]. split; [exact A5|].
  assert (Hall : forall q n, match q with [] => n = HDir | _ => HDir = HDir /\ h_names (w_fs w) (in_root x ++ q) = Some n end -> in_path x ++ q <> [] ->
     exists nd, has l' (in_path x ++ q) nd /\ mirrors_as w (in_root x ++ q) n (cr_contents c) nd).
  { intros q n Hq Hne. destruct q as [|y q].
    - subst n. rewrite !app_nil_r in *. auto.
    - destruct Hq as [_ Hq]. destruct (A7 (y :: q)) as (nd & Hh & n' & Hn' & Hm); [easy|congruence|]. rewrite Hq in Hn'. injection Hn' as <-. eauto. }
  split; [exact Hall|]. intros p nd Hh.
  assert (Hone : forall q n, p = in_path x ++ q -> match q with [] => n = HDir | _ => HDir = HDir /\ h_names (w_fs w) (in_root x ++ q) = Some n end ->
    exists q n, p = in_path x ++ q /\ match q with [] => n = HDir | _ => HDir = HDir /\ h_names (w_fs w) (in_root x ++ q) = Some n end /\ mirrors_as w (in_root x ++ q) n (cr_contents c) nd).
  { intros q n -> Hq. exists q, n. split; [reflexivity|]. split; [exact Hq|].
    destruct (Hall q n Hq (has_nonempty _ _ _ Hh)) as (nd' & Hh' & Hm). now rewrite (has_fun _ _ _ _ Hh Hh'). }
  destruct (A8 p nd Hh) as [H|[H|[(q & Hq & Hn')|H]]]; auto.
  - right. left. apply (Hone [] HDir); auto. now rewrite app_nil_r.
  - right. left. destruct q as [|y q]; [now apply (Hone [] HDir)|].
    destruct (h_names (w_fs w) (in_root x ++ y :: q)) as [n|] eqn:E; [|easy]. now apply (Hone (y :: q) n).
Qed.

Lemma app_eq_app_cases {A} (a b c d : list A) : a ++ b = c ++ d -> (exists t, c = a ++ t) \/ (exists t, a = c ++ t).
Proof.
  revert c. induction a as [|x a IH]; intros c E; [left; now exists c|].
  destruct c as [|y c]; [right; now exists (x :: a)|]. cbn in E. injection E as -> E.
  destruct (IH c E) as [[t ->]|[t ->]]; [left|right]; now exists t.
Qed.

Lemma one_input w pre x fuel done l contents : good_input w pre x -> (in_depth x < fuel)%nat -> all_ok l -> archives w done l contents ->
  (forall y, In y done -> (forall t, in_path y <> in_path x ++ t) /\ (forall t, in_path x <> in_path y ++ t)) ->
  exists c l', add_from_path fuel w pre (in_arg x) true (mkCreator (after l) contents) = (c, Ok tt) /\
    cr_entries c = after l' /\ all_ok l' /\ archives w (done ++ [x]) l' (cr_contents c).
Proof.
  intros Hg Hf Hok [H1 H2] Hap.
  assert (Hfree : forall q nd, ~ has l (in_path x ++ q) nd).
  { intros q nd Hh. destruct (H2 _ _ Hh) as [(y & q' & n & Hy & E & _)|(_ & _ & y & z & t & Hy & E)]; destruct (Hap y Hy) as [G1 G2].
    - destruct (app_eq_app_cases _ _ _ _ E) as [[t Ht]|[t Ht]]; [now apply G1 in Ht|now apply G2 in Ht].
    - rewrite <- app_assoc in E. now apply G1 in E. }
  assert (Hdirs : forall p y t nd, in_path x = p ++ y :: t -> has l p nd -> is_dir_node nd = true).
  { intros p z t nd E Hh. destruct (H2 _ _ Hh) as [(y & q' & n & Hy & -> & _)|(-> & _)]; [|reflexivity].
    destruct (Hap y Hy) as [_ G2]. rewrite <- app_assoc in E. now apply G2 in E. }
  assert (H : exists c l', add_from_path fuel w pre (in_arg x) true (mkCreator (after l) contents) = (c, Ok tt) /\
    cr_entries c = after l' /\ adds w x l l' contents (cr_contents c)).
  { destruct (in_node x) as [|i|t m] eqn:En.
    - now apply dir_input.
    - now apply file_input with i.
    - destruct Hg as (_ & _ & _ & _ & Hn). now rewrite En in Hn. }
  destruct H as (c & l' & E & Ec & A1 & [ext Ex] & A2 & A3 & A4). exists c, l'. split; [exact E|]. split; [exact Ec|]. split; [exact A1|]. split.
  - intros y q n Hy Hq Hne. apply in_app_iff in Hy as [Hy|[<-|[]]]; [|auto].
    destruct (H1 y q n Hy Hq Hne) as (nd & Hh & Hm). exists nd. split; [auto|]. rewrite Ex. now apply mirrors_ext.
  - intros p nd Hh. destruct (A4 p nd Hh) as [H|[(q & n & G)|(-> & Hp & z & t & G)]].
    + destruct (H2 p nd H) as [(y & q & n & Hy & Hq & G & Hm)|(-> & Hp & y & z & t & Hy & G)].
      * left. exists y, q, n. split; [apply in_app_iff; auto|]. split; [exact Hq|]. split; [exact G|]. rewrite Ex. now apply mirrors_ext.
      * right. split; [reflexivity|]. split; [exact Hp|]. exists y, z, t. split; [apply in_app_iff; auto|exact G].
    + left. exists x, q, n. split; [apply in_app_iff; right; now left|exact G].
    + right. split; [reflexivity|]. split; [exact Hp|]. exists x, z, t. split; [apply in_app_iff; right; now left|exact G].
Qed.

Lemma inputs_added w pre fuel : forall inputs done l contents, Forall (good_input w pre) inputs ->
  Forall (fun x => (in_depth x < fuel)%nat) inputs -> all_ok l -> archives w done l contents ->
  (forall x y, In x inputs -> In y done -> (forall t, in_path y <> in_path x ++ t) /\ (forall t, in_path x <> in_path y ++ t)) -> apart inputs ->
  exists c l', add_infiles fuel w pre (map in_arg inputs) true (mkCreator (after l) contents) = (c, Ok tt) /\
    cr_entries c = after l' /\ all_ok l' /\ archives w (done ++ inputs) l' (cr_contents c).
Proof.
  induction inputs as [|x inputs IH]; intros done l contents Hg Hf Hok Har Hap Hin; cbn [map add_infiles].
  - exists (mkCreator (after l) contents), l. rewrite app_nil_r. cbn [cr_entries cr_contents]. auto.
  - inversion Hg; subst. inversion Hf; subst. inversion Hin as [|? ? Hx Hrest]; subst.
    destruct (one_input w pre x fuel done l contents) as (c & l' & E & Ec & Hok' & Har'); auto; [intros y Hy; apply Hap; auto; now left|].
    rewrite E. destruct c as [st cs]. cbn [cr_entries cr_contents] in Ec, Har'. subst st.
    destruct (IH (done ++ [x]) l' cs) as (c2 & l2 & E2 & Ec2 & Hok2 & Har2); auto.
    + intros y z Hy Hz. apply in_app_iff in Hz as [Hz|[<-|[]]]; [apply Hap; auto; now right|].
      rewrite Forall_forall in Hx. destruct (Hx y Hy). auto.
    + exists c2, l2. rewrite <- app_assoc in Har2. auto.
Qed.
