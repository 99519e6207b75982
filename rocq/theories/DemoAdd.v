(** A small tree to archive. *)
From Verif Require Export DemoHost AddOne.

(** /h/src/{a/{f.txt, l -> f.txt}, z}, and /h/ln -> src, /h/sock; the OS lists "z" before "a". *)
Definition src_names : list (path * hnode) :=
  [([b "h"], HDir); ([b "h"; b "src"], HDir); ([b "h"; b "src"; b "a"], HDir);
   ([b "h"; b "src"; b "a"; b "f.txt"], HFile 0); ([b "h"; b "src"; b "a"; b "l"], HLink (b "f.txt") 7%Z);
   ([b "h"; b "src"; b "z"], HFile 1); ([b "h"; b "ln"], HLink (b "src") 8%Z); ([b "h"; b "sock"], HFile 2)].
Definition src_fs : hostfs := host_of src_names [b "hello"; b "xyz"; []].
Definition src_attr (q : path) : attr :=
  mkAttr 1001 100 33188 1234567%Z (path_eqb' q [b "h"; b "sock"]) true.
Definition src_list (q : path) : option (list bytes) :=
  if path_eqb' q [b "h"; b "src"] then Some [b "z"; b "a"]
  else if path_eqb' q [b "h"; b "src"; b "a"] then Some [b "f.txt"; b "l"]
  else Some [].
Definition src_world : world := mkWorld src_fs src_attr src_list [b "h"].
Definition src_root : path := [b "h"; b "src"].

(** The possible paths below the root. *)
Lemma src_cases p n : h_names src_fs (src_root ++ p) = Some n ->
  (p = [] /\ n = HDir) \/ (p = [b "a"] /\ n = HDir) \/ (p = [b "a"; b "f.txt"] /\ n = HFile 0) \/
  (p = [b "a"; b "l"] /\ n = HLink (b "f.txt") 7%Z) \/ (p = [b "z"] /\ n = HFile 1).
Proof.
  intros H. cbn [src_fs host_of h_names] in H. apply lookup_in in H. unfold src_names, src_root in H. cbn [app] in H.
  repeat (destruct H as [H|H]; [first [discriminate H | injection H as <- <-; auto 10]|]). destruct H.
Qed.

Lemma src_tree : source_tree src_world src_root 2.
Proof.
  assert (Hc : forall p, h_names src_fs (src_root ++ p) <> None -> exists n, h_names src_fs (src_root ++ p) = Some n).
  { intros p H. destruct (h_names src_fs (src_root ++ p)); [eauto|easy]. }
  constructor; cbn [src_world w_fs w_list w_attr].
  - intros p x H. apply Hc in H as [n H]. apply src_cases in H.
    destruct H as [[H _]|[[H _]|[[H _]|[[H _]|[H _]]]]]; try (now destruct p);
      destruct p as [|y [|y' [|]]]; cbn [app] in H; try discriminate H; auto; assert (y = b "a") as -> by congruence; right; reflexivity.
  - intros p Hp.
    assert (Hp' : p = [] \/ p = [b "a"]).
    { destruct Hp as [->|Hp]; auto. apply src_cases in Hp as [[-> _]|[[-> _]|[[_ H]|[[_ H]|[_ H]]]]]; auto; discriminate H. }
    destruct Hp' as [->| ->].
    + exists [b "z"; b "a"]. split; [reflexivity|]. split; [repeat constructor; cbn; intuition discriminate|].
      intros n. split.
      * intros [<-|[<-|[]]]; vm_compute; discriminate.
      * intros H. apply Hc in H as [x H]. apply src_cases in H. cbn [app] in H. cbn [In].
        destruct H as [[H _]|[[H _]|[[H _]|[[H _]|[H _]]]]]; try discriminate H; (assert (n = b "a") as -> by congruence) || (assert (n = b "z") as -> by congruence); auto.
    + exists [b "f.txt"; b "l"]. split; [reflexivity|]. split; [repeat constructor; cbn; intuition discriminate|].
      intros n. split.
      * intros [<-|[<-|[]]]; vm_compute; discriminate.
      * intros H. apply Hc in H as [x H]. apply src_cases in H. cbn [app] in H. cbn [In].
        destruct H as [[H _]|[[H _]|[[H _]|[[H _]|[H _]]]]]; try discriminate H; (assert (n = b "f.txt") as -> by congruence) || (assert (n = b "l") as -> by congruence); auto.
  - intros p n H. apply Hc in H as [x H]. apply src_cases in H.
    destruct H as [[-> _]|[[-> _]|[[-> _]|[[-> _]|[-> _]]]]]; cbn [In]; intros Hn;
      repeat (destruct Hn as [<-|Hn]; [split; [apply ordinaryb_spec|]; reflexivity|]); destruct Hn.
  - intros p H. apply Hc in H as [x H]. apply src_cases in H.
    destruct H as [[-> _]|[[-> _]|[[-> _]|[[-> _]|[-> _]]]]]; cbn; lia.
  - intros p i _ H. apply src_cases in H. destruct H as [[_ H]|[[_ H]|[[-> H]|[[_ H]|[-> H]]]]]; try discriminate H; split; reflexivity.
  - intros p t m _ H. apply src_cases in H. destruct H as [[_ H]|[[_ H]|[[_ H]|[[_ H]|[_ H]]]]]; try discriminate H. assert (t = b "f.txt") as -> by congruence. split; [easy|reflexivity].
Qed.

(** The same, where "a" cannot be read and is listed first. *)
Definition locked_list (q : path) : option (list bytes) :=
  if path_eqb' q [b "h"; b "src"] then Some [b "a"; b "z"]
  else if path_eqb' q [b "h"; b "src"; b "a"] then None else Some [].
Definition locked_world : world := mkWorld src_fs src_attr locked_list [b "h"].
