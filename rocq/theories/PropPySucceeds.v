(** C103: when adding from Python raises. *)
From Verif Require Export SpecPySucceeds PropSucceeds PropPython.

Local Ltac bad := let H := fresh in intros H; discriminate H.

Notation path_items fuel w x := (match walk fuel w (fst x) (snd x) with Some l => map (fun p => (p, std_path_eqb p (fst x))) (before_fail l) | None => [] end) (only parsing).

Section Block.
  Variables (fuel : nat) (w : world) (l : list (bytes * bool)).
  Hypothesis HW : walkable fuel w l.

  Lemma item_walk x : In x l -> exists L, walk fuel w (fst x) (snd x) = Some L /\ (~ leads_to_something w (fst x) -> before_fail L = []).
  Proof.
    intros Hx. destruct x as [s rc]. cbn [fst snd]. destruct (look_str w true s) as [q n|p|e] eqn:E.
    - destruct (walk_some w s rc fuel) as [L HL]; [exact (wk_names _ _ _ HW)|eauto|exact (wk_depth _ _ _ HW s rc Hx)|].
      exists L. split; [exact HL|]. intros H. exfalso. apply H. exists q, n. exact E.
    - exists [WFail]. split; [|reflexivity]. unfold walk. rewrite E. destruct (look_str w false s) as [q' n'|p'|e'] eqn:E'; try reflexivity.
      destruct n' as [|i|t m]; [| |reflexivity]; (apply (look_nonlink w s) in E'; [|intros ? ? HH; discriminate HH]; rewrite E in E'; discriminate E').
    - exists [WFail]. split; [|reflexivity]. unfold walk. rewrite E. destruct (look_str w false s) as [q' n'|p'|e'] eqn:E'; try reflexivity.
      destruct n' as [|i|t m]; [| |reflexivity]; (apply (look_nonlink w s) in E'; [|intros ? ? HH; discriminate HH]; rewrite E in E'; discriminate E').
  Qed.

  Lemma leads_dec s : leads_to_something w s \/ ~ leads_to_something w s.
  Proof. unfold leads_to_something. destruct (look_str w true s) as [q n|p|e]; [left; eauto|right; intros (q & n & H); discriminate H..]. Qed.

  Lemma item_in x t f : In x l -> is_abs (fst x) = false -> (In (t, f) (path_items fuel w x) <-> came_by w x t f).
  Proof.
    intros Hx Hrel. destruct (item_walk x Hx) as (L & HL & Hno). rewrite HL. destruct x as [s rc]. cbn [fst snd] in *. unfold came_by. cbn [fst snd].
    destruct (leads_dec s) as [Hex|Hex].
    2:{ rewrite (Hno Hex). split; [intros []|]. intros [H _]. contradiction. }
    assert (Hne : s <> []) by (intros ->; destruct Hex as (q & n & Hq); discriminate Hq).
    pose proof (wk_names _ _ _ HW) as Hnames. rewrite in_map_iff. split.
    - intros (p & Ep & Hp). injection Ep as -> <-. pose proof (walk_sound w s Hnames Hex fuel _ L t HL Hp) as Hv. split; [exact Hex|]. split; [exact Hv|].
      exact (walked_follow w s Hnames rc t Hne Hrel Hv).
    - intros (_ & Hv & Hf). assert (HLs : listable w s rc). { intros d q Hrc Hd He. subst rc. exact (wk_listed _ _ _ HW s Hx d q Hd He). }
      exists t. split; [|exact (walk_complete w s Hnames Hex fuel _ L t HLs HL Hv)]. f_equal.
      pose proof (walked_follow w s Hnames rc t Hne Hrel Hv) as Hiff. destruct f; [apply Hiff, Hf; reflexivity|].
      destruct (std_path_eqb t s); [|reflexivity]. symmetry. apply Hf, Hiff. reflexivity.
  Qed.

  Lemma self_item x : In x l -> leads_to_something w (fst x) -> In (fst x, true) (path_items fuel w x).
  Proof.
    intros Hx Hex. destruct (item_walk x Hx) as (L & HL & _). rewrite HL. destruct x as [s rc]. cbn [fst snd] in *. apply in_map_iff. exists s. split.
    - f_equal. apply is_root_self.
    - assert (HLs : listable w s rc). { intros d q Hrc Hd He. subst rc. exact (wk_listed _ _ _ HW s Hx d q Hd He). }
      exact (walk_complete w s (wk_names _ _ _ HW) Hex fuel _ L s HLs HL (vis_self _ _ _)).
  Qed.

  Lemma abs_unfit s f : is_abs s = true -> ~ fit w [] s f.
  Proof. intros Ha (p & [Hs _] & _). congruence. Qed.

  (** All the items. *)
  Lemma block_iff c' r : add_each w [] (flat_map (fun x => path_items fuel w x) l) creator_empty = (c', r) ->
    (r = Ok tt <->
      (forall k x t f, nth_error l k = Some x -> came_by w x t f -> fit w [] t f) /\
      (forall i j x y s fs t ft, i <> j -> nth_error l i = Some x -> nth_error l j = Some y -> came_by w x s fs -> came_by w y t ft -> ~ blocks w [] s fs t ft)).
  Proof.
    intros E. rewrite (all_iff w [] _ c' r E), forall_iff, pairs_flat.
    pose proof (wk_names _ _ _ HW) as Hnames.
    assert (Hcome : forall x t f, In x l -> (leads_to_something w (fst x) -> is_abs (fst x) = false) -> (In (t, f) (path_items fuel w x) <-> came_by w x t f)).
    { intros x t f Hx Hr. destruct (leads_dec (fst x)) as [Hex|Hex]; [apply item_in; auto|].
      destruct (item_walk x Hx) as (L & HL & Hno). rewrite HL, (Hno Hex). split; [intros []|]. intros [H _]. contradiction. }
    split.
    - intros [H1 [_ H2]].
      assert (Hrel : forall x, In x l -> leads_to_something w (fst x) -> is_abs (fst x) = false).
      { intros x Hx Hex. destruct (is_abs (fst x)) eqn:Ea; [|reflexivity]. exfalso. apply (abs_unfit (fst x) true Ea). apply (H1 (fst x, true)).
        apply in_flat_map. exists x. split; [exact Hx|now apply self_item]. }
      split.
      + intros k x t f Hk Hc. apply nth_error_In in Hk. apply (H1 (t, f)). apply in_flat_map. exists x. split; [exact Hk|]. apply Hcome; auto.
      + intros i j x y s fs t ft Hij Hi Hj Hs Ht. pose proof (nth_error_In _ _ Hi) as Hxi. pose proof (nth_error_In _ _ Hj) as Hyj.
        apply (Hcome x s fs Hxi (Hrel x Hxi)) in Hs. apply (Hcome y t ft Hyj (Hrel y Hyj)) in Ht.
        assert (Hlt : (i < j)%nat \/ (j < i)%nat) by lia. destruct Hlt as [Hlt|Hlt]; [exact (proj1 (H2 i j _ _ _ _ Hlt Hi Hj Hs Ht))|exact (proj2 (H2 j i _ _ _ _ Hlt Hj Hi Ht Hs))].
    - intros [H1 H2].
      assert (Hrel : forall x, In x l -> leads_to_something w (fst x) -> is_abs (fst x) = false).
      { intros x Hx Hex. destruct (is_abs (fst x)) eqn:Ea; [|reflexivity]. exfalso. apply (abs_unfit (fst x) true Ea).
        apply In_nth_error in Hx as [k Hk]. apply (H1 k x); [exact Hk|]. split; [exact Hex|]. split; [constructor|tauto]. }
      split; [|split].
      + intros [t f] Hin. apply in_flat_map in Hin as (x & Hx & Hin). apply (Hcome x t f Hx (Hrel x Hx)) in Hin. apply In_nth_error in Hx as [k Hk]. exact (H1 k x t f Hk Hin).
      + intros x Hin. destruct (leads_dec (fst x)) as [Hex|Hex].
        2:{ destruct (item_walk x Hin) as (L & HL & Hno). rewrite HL, (Hno Hex). constructor. }
        apply pairs_distinct.
        * destruct (item_walk x Hin) as (L & HL & _). rewrite HL. pose proof (walk_distinct w Hnames (wk_once _ _ _ HW) (fst x) Hex fuel (snd x) L HL) as Hnd.
          apply FinFun.Injective_map_NoDup; [|exact Hnd]. intros p1 p2 Hp. now injection Hp.
        * intros [s fs] [t ft] Hs Ht Hne. apply (Hcome x s fs Hin (Hrel x Hin)) in Hs as (_ & Hs1 & Hs2). apply (Hcome x t ft Hin (Hrel x Hin)) in Ht as (_ & Ht1 & Ht2).
          assert (Hst : s <> t). { intros ->. apply Hne. f_equal. destruct fs, ft; try reflexivity; [symmetry|]; [apply Ht2, Hs2|apply Hs2, Ht2]; reflexivity. }
          split; cbn [fst snd]; eapply (walked_apart w Hnames (fst x)); eauto.
      + intros i j x y [s fs] [t ft] Hij Hi Hj Hs Ht. pose proof (nth_error_In _ _ Hi) as Hxi. pose proof (nth_error_In _ _ Hj) as Hyj.
        apply (Hcome x s fs Hxi (Hrel x Hxi)) in Hs. apply (Hcome y t ft Hyj (Hrel y Hyj)) in Ht. split; cbn [fst snd].
        * apply (H2 i j x y); auto; lia.
        * apply (H2 j i y x); auto; lia.
  Qed.
End Block.

(** The answers. *)
Lemma adds_run fuel w : forall l c st ws os, (forall x, In x l -> exists L, walk fuel w (fst x) (snd x) = Some L) ->
  py_run fuel (st_open c) (map (fun x => PyAdd w (fst x) (snd x)) l) = (st, ws, os) ->
  length os = length l /\ (Forall (eq (Ok tt)) os <-> snd (add_each w [] (flat_map (fun x => path_items fuel w x) l) c) = Ok tt).
Proof.
  induction l as [|x l IH]; intros c st ws os Hw H.
  - cbn in H. injection H as _ _ <-. split; [reflexivity|]. split; [reflexivity|constructor].
  - cbn [map py_run py_step py_add st_open py_creator py_started] in H. cbn [flat_map]. rewrite add_each_join.
    destruct (Hw x (or_introl eq_refl)) as [L HL]. unfold add_from_path in H. rewrite HL in *.
    destruct (add_each w [] (map (fun p => (p, std_path_eqb p (fst x))) (before_fail L)) c) as [c1 r1] eqn:E1.
    destruct (py_run fuel (mkPy true (Some c1)) (map (fun x => PyAdd w (fst x) (snd x)) l)) as [[st1 ws1] os1] eqn:E2. injection H as _ _ <-.
    destruct (IH c1 st1 ws1 os1) as [G1 G2]; [intros y Hy; apply Hw; now right|exact E2|]. split; [cbn [length]; now rewrite G1|].
    rewrite Forall_cons_iff, G2. destruct r1 as [[]|e| |]; cbn [snd].
    + split; [intros [_ H]; exact H|auto].
    + split; [intros [H _]; discriminate H|bad].
    + split; [intros [H _]; discriminate H|bad].
    + split; [intros [H _]; discriminate H|bad].
Qed.

(** No call raises exactly when every path gone through can be archived and no regular file or link
    given by one call is in the way of what is given by another. *)
Theorem C103_block_iff : forall fuel w l st0 st ws os, walkable fuel w l ->
  py_new true = Ok st0 -> py_run fuel st0 (block_of w l) = (st, ws, os) ->
  (Forall (eq (Ok tt)) os <->
    (forall k x t f, nth_error l k = Some x -> came_by w x t f -> fit w [] t f) /\
    (forall i j x y s fs t ft, i <> j -> nth_error l i = Some x -> nth_error l j = Some y ->
       came_by w x s fs -> came_by w y t ft -> ~ blocks w [] s fs t ft)).
Proof.
  intros fuel w l st0 st ws os HW Hst Hrun. cbn [py_new] in Hst. injection Hst as <-.
  unfold block_of in Hrun. cbn [py_run py_step py_enter py_creator py_started] in Hrun.
  change (mkPy true (Some creator_empty)) with (st_open creator_empty) in Hrun.
  destruct (py_run fuel (st_open creator_empty) (map (fun x => PyAdd w (fst x) (snd x)) l)) as [[st1 ws1] os1] eqn:E. injection Hrun as _ _ <-.
  destruct (adds_run fuel w l creator_empty st1 ws1 os1) as [_ H]; [|exact E|].
  - intros x Hx. destruct (item_walk fuel w l HW x Hx) as (L & HL & _). eauto.
  - rewrite Forall_cons_iff, H. destruct (add_each w [] (flat_map (fun x => path_items fuel w x) l) creator_empty) as [c' r] eqn:Ea.
    rewrite <- (block_iff fuel w l HW c' r Ea). cbn [snd]. split; [intros [_ G]; exact G|auto].
Qed.
Print Assumptions C103_block_iff.

(** After calls that did not raise, one more does not raise exactly when what it goes through can be
    archived and nothing that was added is in its way, nor it in the way of that. *)
Theorem C103_next : forall fuel w l x st0 st ws os st' a r, walkable fuel w (l ++ [x]) ->
  py_new true = Ok st0 -> py_run fuel st0 (block_of w l) = (st, ws, os) -> Forall (eq (Ok tt)) os ->
  py_step fuel st (PyAdd w (fst x) (snd x)) = (st', a, r) ->
  (r = Ok tt <->
    (forall t f, came_by w x t f -> fit w [] t f) /\
    (forall y s fs t ft, In y l -> came_by w y s fs -> came_by w x t ft -> ~ blocks w [] s fs t ft /\ ~ blocks w [] t ft s fs)).
Proof.
  intros fuel w l x st0 st ws os st' a r HW Hst Hrun Hok Hstep.
  assert (HW0 : walkable fuel w l).
  { destruct HW as [A B C D]. split; [exact A|exact B| |].
    - intros s Hs. apply C. apply in_app_iff. now left.
    - intros s rc Hs. apply D. apply in_app_iff. now left. }
  pose proof (proj1 (C103_block_iff fuel w l st0 st ws os HW0 Hst Hrun) Hok) as [F1 F2].
  assert (Hrun' : exists st2 ws2, py_run fuel st0 (block_of w (l ++ [x])) = (st2, ws2, os ++ [r])).
  { unfold block_of. rewrite map_app. change (PyEnter :: map (fun z => PyAdd w (fst z) (snd z)) l ++ map (fun z => PyAdd w (fst z) (snd z)) [x])
      with (block_of w l ++ [PyAdd w (fst x) (snd x)]). rewrite run_app, Hrun. cbn [py_run]. rewrite Hstep. destruct a as [a|]; eauto. }
  destruct Hrun' as (st2 & ws2 & Hrun'). pose proof (C103_block_iff fuel w (l ++ [x]) st0 st2 ws2 (os ++ [r]) HW Hst Hrun') as Hall.
  assert (Hlast : nth_error (l ++ [x]) (length l) = Some x) by (rewrite nth_error_app2 by lia; now rewrite Nat.sub_diag).
  assert (Hearly : forall k y, nth_error l k = Some y -> nth_error (l ++ [x]) k = Some y).
  { intros k y Hk. rewrite nth_error_app1; [exact Hk|]. apply nth_error_Some. congruence. }
  assert (Hwhich : forall k y, nth_error (l ++ [x]) k = Some y -> nth_error l k = Some y \/ (k = length l /\ y = x)).
  { intros k y Hk. destruct (Nat.lt_ge_cases k (length l)) as [Hlt|Hge]; [left; now rewrite nth_error_app1 in Hk|].
    right. assert (Hk' : (k < length (l ++ [x]))%nat) by (apply nth_error_Some; congruence). rewrite app_length in Hk'. cbn [length] in Hk'.
    assert (k = length l) as -> by lia. rewrite Hlast in Hk. injection Hk as <-. auto. }
  split.
  - intros ->. assert (G : Forall (eq (Ok tt)) (os ++ [Ok tt])) by (apply Forall_app; split; [exact Hok|constructor; [reflexivity|constructor]]).
    apply Hall in G as [G1 G2]. split; [intros t f Hc; exact (G1 _ _ _ _ Hlast Hc)|].
    intros y s fs t ft Hy Hs Ht. apply In_nth_error in Hy as [k Hk].
    assert (Hne : k <> length l). { intros ->. assert (Hlt : (length l < length l)%nat) by (apply nth_error_Some; congruence). lia. }
    split; [exact (G2 k (length l) y x s fs t ft Hne (Hearly _ _ Hk) Hlast Hs Ht)|exact (G2 (length l) k x y t ft s fs (not_eq_sym Hne) Hlast (Hearly _ _ Hk) Ht Hs)].
  - intros [G1 G2]. assert (G : Forall (eq (Ok tt)) (os ++ [r])).
    { apply Hall. split.
      - intros k y t f Hk Hc. destruct (Hwhich k y Hk) as [Hk'|[_ ->]]; [exact (F1 k y t f Hk' Hc)|exact (G1 t f Hc)].
      - intros i j y z s fs t ft Hij Hi Hj Hs Ht. destruct (Hwhich i y Hi) as [Hi'|[-> ->]]; destruct (Hwhich j z Hj) as [Hj'|[-> ->]].
        + exact (F2 i j y z s fs t ft Hij Hi' Hj' Hs Ht).
        + apply nth_error_In in Hi'. exact (proj1 (G2 y s fs t ft Hi' Hs Ht)).
        + apply nth_error_In in Hj'. exact (proj2 (G2 z t ft s fs Hj' Ht Hs)).
        + now destruct Hij. }
    apply Forall_app in G as [_ G]. now apply Forall_inv in G.
Qed.
Print Assumptions C103_next.

(** [add("src")] works; then [add("src/a/f.txt")] raises, and adding a path that leads nowhere does nothing
    (silently). *)
Example C103_meets_hypotheses :
  walkable 3 src_world [(b "src", true)] /\ walkable 3 src_world [(b "src", true); (b "nowhere", false)] /\
  exists st ws, py_run 3 st_fresh (block_of src_world [(b "src", true)]) = (st, ws, [Ok tt; Ok tt]) /\
    snd (py_step 3 st (PyAdd src_world (b "src/a/f.txt") false)) = Err EFileClash /\
    snd (py_step 3 st (PyAdd src_world (b "nowhere") false)) = Ok tt /\
    came_by src_world (b "src", true) (b "src/a/f.txt") false.
Proof.
  assert (HL : forall d q, walked src_world true (b "src") d -> enters src_world (b "src") d q -> w_list src_world q <> None).
  { intros d q Hd He. assert (G : all_listable src_world o_src) by apply src_listable. exact (G eq_refl eq_refl (b "src") d q (or_introl eq_refl) Hd He). }
  split; [|split].
  - split; [apply src_listing|exact src_distinct| |].
    + intros s [H|[]] d q Hd He. injection H as <-. exact (HL d q Hd He).
    + intros s rc [H|[]]. injection H as <- <-. apply src_shallow.
  - split; [apply src_listing|exact src_distinct| |].
    + intros s [H|[H|[]]] d q Hd He; [|discriminate H]. injection H as <-. exact (HL d q Hd He).
    + intros s rc [H|[H|[]]]; injection H as <- <-; [apply src_shallow|intros HH; discriminate HH].
  - destruct (py_run 3 st_fresh (block_of src_world [(b "src", true)])) as [[st ws] os] eqn:E. exists st, ws.
    assert (Eo : os = [Ok tt; Ok tt]).
    { assert (H : snd (py_run 3 st_fresh (block_of src_world [(b "src", true)])) = [Ok tt; Ok tt]) by (vm_compute; reflexivity). rewrite E in H. exact H. }
    subst os. split; [reflexivity|].
    assert (H1 : snd (py_step 3 (fst (fst (py_run 3 st_fresh (block_of src_world [(b "src", true)])))) (PyAdd src_world (b "src/a/f.txt") false)) = Err EFileClash) by (vm_compute; reflexivity).
    assert (H2 : snd (py_step 3 (fst (fst (py_run 3 st_fresh (block_of src_world [(b "src", true)])))) (PyAdd src_world (b "nowhere") false)) = Ok tt) by (vm_compute; reflexivity).
    rewrite E in H1, H2. cbn [fst] in H1, H2. split; [exact H1|]. split; [exact H2|].
    split; [|split].
    + exists [b "h"; b "src"], HDir. vm_compute. reflexivity.
    + destruct C99_meets_hypotheses as (_ & _ & _ & Ht & _). destruct Ht as (x & Hx & Hv & _). injection Hx as <-. exact Hv.
    + split; [bad|]. intros H. discriminate H.
Qed.
