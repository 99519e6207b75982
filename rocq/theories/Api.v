(** Types of the public API shared by the model and by the specifications. *)
From Verif Require Export Base.

(** Names and archive paths (lists of component names, root = []). *)
Notation name := (list N) (only parsing).
Notation path := (list (list N)) (only parsing).

(** uid, gid, mode, mtime of [EntryTrait] (/repo/libarx/src/create/mod.rs 16-27); all u64. *)
Record meta := mkMeta { m_uid : N; m_gid : N; m_mode : N; m_mtime : N }.

(** jbk::ContentAddress: a pack id and a content id. *)
Record caddr := mkAddr { ca_pack : N; ca_content : N }.

(** [EntryKind] (/repo/libarx/src/create/mod.rs 9-14). *)
Inductive kind :=
| KDir
| KFile (size : N) (addr : caddr)
| KLink (target : bytes).

(** What a user gives to [add_entry]: the answers of the [EntryTrait] methods
    (/repo/libarx/src/create/mod.rs 16-27).  [kind()] may fail, or answer [None]. *)
Record entry := mkEntry { e_path : bytes; e_kind : res (option kind); e_meta : meta }.

(** What is stored under a path. *)
Notation node := (kind * meta)%type (only parsing).

Definition is_dir_kind (k : kind) : bool := match k with KDir => true | _ => false end.
Definition is_dir_node (n : node) : bool := is_dir_kind (fst n).
