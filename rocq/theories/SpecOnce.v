(** Contents stored once: what C91 says of an archive. *)
From Verif Require Export SpecArchive.

(** [x] is the content address of the file at [p]. *)
Definition file_at (a : archive) (p : path) (x : caddr) : Prop := exists i size mt, astored a i p (KFile size x, mt).

(** Every file of the archive has its bytes in it, and no two contents of the archive are the same bytes. *)
Definition each_once (a : archive) : Prop :=
  (forall p x, file_at a p x -> exists data, a_fetch a x = Found data) /\
  (forall x y data, a_fetch a x = Found data -> a_fetch a y = Found data -> x = y).

(** Every content of the archive is the content of a file of it. *)
Definition no_stray (a : archive) : Prop := forall x data, a_fetch a x = Found data -> exists p, file_at a p x.
