(** What C96 compares: the archive of files with the archive of a tar or zip of these files. *)
From Verif Require Export SpecSame SpecConvert.
From Verif Require Fuse.

(** The same permission bits (the low twelve bits of a mode; those above tell the file type). *)
Definition same_permissions (m1 m2 : N) : Prop := m1 mod 4096 = m2 mod 4096.

(** Archives that differ at most in where the contents are stored and in the type bits of the modes. *)
Definition alike_record (f1 : caddr -> fetched) (r1 : rec) (f2 : caddr -> fetched) (r2 : rec) : Prop :=
  r_name r1 = r_name r2 /\ r_parent r1 = r_parent r2 /\ r_owner r1 = r_owner r2 /\ r_group r1 = r_group r2 /\
  same_permissions (r_rights r1) (r_rights r2) /\ r_mtime r1 = r_mtime r2 /\
  match r_payload r1, r_payload r2 with
  | RFile x s, RFile y t => s = t /\ f1 x = f2 y
  | p, p' => p = p'
  end.
Definition alike_table (a1 a2 : archive) : Prop :=
  a_root a1 = a_root a2 /\ a_entries a1 = a_entries a2 /\
  Forall2 (fun r1 r2 => alike_record (a_fetch a1) r1 (a_fetch a2) r2) (a_recs a1) (a_recs a2).

(** Replies of two mounts: the same but for the type bits of the permissions in attributes. *)
Definition alike_attr (x y : Fuse.attr) : Prop :=
  Fuse.at_ino x = Fuse.at_ino y /\ Fuse.at_size x = Fuse.at_size y /\ Fuse.at_kind x = Fuse.at_kind y /\ Fuse.at_blocks x = Fuse.at_blocks y /\
  Fuse.at_mtime x = Fuse.at_mtime y /\ Fuse.at_nlink x = Fuse.at_nlink y /\ Fuse.at_uid x = Fuse.at_uid y /\ Fuse.at_gid x = Fuse.at_gid y /\
  Fuse.at_blksize x = Fuse.at_blksize y /\ same_permissions (Fuse.at_perm x) (Fuse.at_perm y).
Definition alike_reply (x y : Fuse.reply) : Prop :=
  match x, y with
  | Fuse.REntry u, Fuse.REntry v => alike_attr u v
  | Fuse.RAttr u, Fuse.RAttr v => alike_attr u v
  | _, _ => x = y
  end.
Definition alike_answer (x y : res Fuse.reply) : Prop :=
  match x, y with
  | Ok u, Ok v => alike_reply u v
  | _, _ => x = y
  end.

(** The member [m] was made from the node [n] at [q]; [M]: how the modes compare. *)
Definition tar_copy (M : N -> N -> Prop) (w : world) (q : path) (n : hnode) (m : tar_member) : Prop :=
  let a := w_attr w q in
  tm_uid m = Ok (at_uid a) /\ tm_gid m = Ok (at_gid a) /\ tm_mtime m = Ok (as_u64 (at_mtime a)) /\
  (exists mode, tm_mode m = Ok mode /\ M (at_mode a) mode) /\
  match n with
  | HDir => tar_directory m
  | HFile i => tar_file m /\ tm_data m = Ok (h_data (w_fs w) i)
  | HLink t _ => tar_link m /\ tm_link m = Ok (Some t)
  end.
(** A zip knows no owner and no group; zip2arx says 0 for both. *)
Definition zip_copy (M : N -> N -> Prop) (w : world) (q : path) (n : hnode) (file : bytes) (m : zip_member) : Prop :=
  let a := w_attr w q in
  at_uid a = 0 /\ at_gid a = 0 /\ zip_time m (as_u64 (at_mtime a)) /\
  (exists mode, zm_mode m = Some mode /\ M (at_mode a) mode) /\
  match n with
  | HDir => zip_directory m
  | HFile i => ~ zip_directory m /\ zip_bytes file m (h_data (w_fs w) i) /\ zm_size m = N.of_nat (length (h_data (w_fs w) i))
  | HLink _ _ => False
  end.

(** No directory comes after something below it. *)
Definition dirs_first {A} (at_path : A -> path -> Prop) (l : list A) : Prop :=
  forall l1 x l2 y p p', l = l1 ++ x :: l2 -> In y l1 -> at_path x p -> at_path y p' -> ~ proper_prefix p p'.

(** [source p q n]: what is to be archived has the node [n], at [q], under the path [p].  The tar has
    exactly this (extension headers aside). *)
Definition tar_at (x : res tar_member) (p : path) : Prop := exists m, x = Ok m /\ ~ tar_extension m /\ tar_path m p.
Definition tar_of (M : N -> N -> Prop) (w : world) (source : path -> path -> hnode -> Prop) (items : list (res tar_member)) : Prop :=
  (forall p q n, source p q n -> p <> [] -> exists x, In x items /\ tar_at x p) /\
  (forall m p, In (Ok m) items -> ~ tar_extension m -> tar_path m p -> exists q n, source p q n /\ tar_copy M w q n m) /\
  dirs_first tar_at items.
Definition zip_at (x : option zip_member) (p : path) : Prop := exists m, x = Some m /\ stands_for (zm_name m) p.
Definition zip_of (M : N -> N -> Prop) (w : world) (source : path -> path -> hnode -> Prop) (file : bytes) (items : list (option zip_member)) : Prop :=
  (forall p q n, source p q n -> p <> [] -> exists x, In x items /\ zip_at x p) /\
  (forall m p, In (Some m) items -> stands_for (zm_name m) p -> exists q n, source p q n /\ zip_copy M w q n file m) /\
  dirs_first zip_at items.
