(** Two archives that differ only in where the contents are stored. *)
From Verif Require Export SpecSession SpecCreated.

(** The same node; the contents of files are the same, whatever their addresses. *)
Definition like_node (f1 : caddr -> fetched) (n1 : node) (f2 : caddr -> fetched) (n2 : node) : Prop :=
  snd n1 = snd n2 /\
  match fst n1, fst n2 with
  | KFile s x, KFile t y => s = t /\ f1 x = f2 y
  | k, k' => k = k'
  end.

(** The same record but for the address of the content, and the same content. *)
Definition same_record (f1 : caddr -> fetched) (r1 : rec) (f2 : caddr -> fetched) (r2 : rec) : Prop :=
  r_name r1 = r_name r2 /\ r_parent r1 = r_parent r2 /\ r_owner r1 = r_owner r2 /\ r_group r1 = r_group r2 /\
  r_rights r1 = r_rights r2 /\ r_mtime r1 = r_mtime r2 /\
  match r_payload r1, r_payload r2 with
  | RFile x s, RFile y t => s = t /\ f1 x = f2 y
  | p, p' => p = p'
  end.

(** The same records in the same order and the same indexes. *)
Definition same_table (a1 a2 : archive) : Prop :=
  a_root a1 = a_root a2 /\ a_entries a1 = a_entries a2 /\
  Forall2 (fun r1 r2 => same_record (a_fetch a1) r1 (a_fetch a2) r2) (a_recs a1) (a_recs a2).

(** Two hosts hold the same at [q1] and [q2]: owner, group, mode, time, kind, content or target. *)
Definition same_source (w1 : world) (q1 : path) (n1 : hnode) (w2 : world) (q2 : path) (n2 : hnode) : Prop :=
  let a1 := w_attr w1 q1 in let a2 := w_attr w2 q2 in
  at_uid a1 = at_uid a2 /\ at_gid a1 = at_gid a2 /\ at_mode a1 = at_mode a2 /\ at_mtime a1 = at_mtime a2 /\
  match n1, n2 with
  | HDir, HDir => True
  | HFile i, HFile j => h_data (w_fs w1) i = h_data (w_fs w2) j
  | HLink t _, HLink u _ => t = u
  | _, _ => False
  end.
