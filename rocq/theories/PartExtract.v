(** Walks read no content. *)
From Verif Require Export SpecPart ExtractSession.

Lemma flat_prefix d0 fo : forall d i p, In (i, p) (flat d fo) -> In (i, d0 ++ p) (flat (d0 ++ d) fo).
Proof.
  induction fo as [|j r kids IHk rest IHr]; intros d i p H; cbn [flat] in *; [contradiction|].
  destruct H as [E|H]; [injection E as <- <-; left; now rewrite app_assoc|]. right. apply in_app_iff in H as [H|H]; apply in_app_iff.
  - left. rewrite <- app_assoc. now apply IHk.
  - right. now apply IHr.
Qed.

Section Contents.
  Variables (a : archive) (f' : caddr -> fetched) .

  Lemma run_with {C F L D} (B : builder F L D) (op : operator C F L D) fuel : forall cur stop c,
    run_range B (with_contents a f') op fuel cur stop c = run_range B a op fuel cur stop c.
  Proof.
    induction fuel as [|k IH]; intros cur stop c; cbn [run_range]; auto. destruct (cur =? stop); auto.
    change (create_entry B (with_contents a f') cur) with (create_entry B a cur).
    destruct (create_entry B a cur) as [[x|x|r x]| | |]; cbn [andthen]; auto.
    - destruct (on_file op c x) as [c1 []]; cbn [andthen]; auto.
    - destruct (on_link op c x) as [c1 []]; cbn [andthen]; auto.
    - destruct (on_enter op c x) as [c1 [ent| | |]]; cbn [andthen]; auto.
      replace (if ent then run_range B (with_contents a f') op k (fst r) (fst r + snd r) c1 else (c1, Ok tt))
        with (if ent then run_range B a op k (fst r) (fst r + snd r) c1 else (c1, Ok tt)) by (destruct ent; auto).
      destruct (if ent then run_range B a op k (fst r) (fst r + snd r) c1 else (c1, Ok tt)) as [c2 []]; cbn [andthen]; auto.
      destruct (on_exit op c2 x) as [c3 []]; cbn [andthen]; auto.
  Qed.
  Lemma run_from_with {C F L D} (B : builder F L D) (op : operator C F L D) fuel rg c :
    run_from_range B (with_contents a f') op fuel rg c = run_from_range B a op fuel rg c.
  Proof. unfold run_from_range. destruct (on_start op c) as [c1 []]; cbn [andthen]; auto. now rewrite run_with. Qed.
End Contents.
