(** What C97 says: which part of an archive an operation depends on. *)
From Verif Require Export Archive.

(** [a'] agrees with [a] on the records [recs] and the contents [addrs]; elsewhere it may be anything
    (damaged, missing, another archive's). *)
Definition agrees_on (recs : list N) (addrs : list caddr) (a a' : archive) : Prop :=
  a_root a' = a_root a /\ a_entries a' = a_entries a /\
  (forall i, In i recs -> at_ (a_recs a') i = at_ (a_recs a) i) /\
  (forall x, In x addrs -> a_fetch a' x = a_fetch a x).

(** No directory has [2^k] entries. *)
Definition few_per_dir (k : nat) (a : archive) : Prop :=
  snd (a_root a) < 2^N.of_nat k /\
  forall i r first nb, at_ (a_recs a) i = Some r -> r_payload r = RDir first nb -> as_u32 nb < 2^N.of_nat k.

(** The same table with other contents. *)
Definition with_contents (a : archive) (f : caddr -> fetched) : archive := mkArchive (a_recs a) (a_root a) (a_entries a) f.
