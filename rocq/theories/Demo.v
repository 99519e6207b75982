(** A concrete session used to show that the hypotheses of the theorems are met. *)
From Verif Require Export SpecSession.

Definition d_meta : meta := mkMeta 1001 100 420 1234567.           (* 0o644 *)
Definition d_file (p : bytes) (id : N) (size : N) : entry := mkEntry p (Ok (Some (KFile size (mkAddr 1 id)))) d_meta.
Definition d_dir (p : bytes) : entry := mkEntry p (Ok (Some KDir)) (mkMeta 7 8 493 99).
Definition d_link (p t : bytes) : entry := mkEntry p (Ok (Some (KLink t))) d_meta.

(** 5 calls: 3 succeed and store an entry, the directory "a/b" already exists, the file "l" clashes. *)
Definition demo : list entry :=
  [d_file (b "a/b/f.txt") 0 5; d_link (b "l") (b "a/b"); d_dir (b "a/b"); d_file (b "l") 1 3; d_file (b "a/z") 1 3].
Definition demo_fetch : caddr -> fetched := fun c =>
  match ca_content c with 0 => Found (b "hello") | 1 => Found (b "xyz") | _ => NoContent end.

Definition dummy_archive : archive := mkArchive [] (0, 0) (0, 0) (fun _ => NoContent).
Definition demo_arx : archive :=
  Eval vm_compute in match write_archive (after demo) demo_fetch with Some a => a | None => dummy_archive end.

Example demo_small : small demo.
Proof. vm_compute. reflexivity. Qed.

Example demo_built : archive_of demo demo_fetch demo_arx.
Proof. vm_compute. reflexivity. Qed.

Example demo_answers : answers demo = [Ok tt; Ok tt; Ok tt; Err EFileClash; Ok tt].
Proof. vm_compute. reflexivity. Qed.

Example demo_has : has demo [b "a"; b "b"; b "f.txt"] (KFile 5 (mkAddr 1 0), d_meta).
Proof.
  exists 2%nat, (mkSentry (b "f.txt") (Some 1%nat) (KFile 5 (mkAddr 1 0)) d_meta).
  split; [reflexivity|]. split; [|reflexivity].
  change [b "a"; b "b"; b "f.txt"] with (([b "a"] ++ [b "b"]) ++ [b "f.txt"]).
  eapply (spath_sub _ _ (mkSentry (b "f.txt") (Some 1%nat) (KFile 5 (mkAddr 1 0)) d_meta) 1%nat); [reflexivity|reflexivity|].
  eapply (spath_sub _ _ (mkSentry (b "b") (Some 0%nat) KDir default_dir_meta) 0%nat); [reflexivity|reflexivity|].
  eapply (spath_top _ _ (mkSentry (b "a") None KDir default_dir_meta)); reflexivity.
Qed.

(** a, l, a/b, a/z, a/b/f.txt *)
Example demo_length : length (a_recs demo_arx) = 5%nat.
Proof. reflexivity. Qed.
