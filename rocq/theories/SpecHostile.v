(** What may be expected of archives that no creator wrote: the table of records is arbitrary. *)
From Verif Require Export SpecExtract.

(** [x] is the last component of the name of a link record. *)
Definition link_name (a : archive) (x : bytes) : Prop :=
  exists r t q, In r (a_recs a) /\ r_payload r = RLink t /\ pieces (r_name r) = q ++ [x].

(** A check on each record by itself and on the names of the links: no name has a ".." component; a
    component that names a link is not used by anything else.  Nothing is asked about ranges, parents,
    order or duplicates. *)
Record harmless (a : archive) : Prop := {
  hl_up : forall r, In r (a_recs a) -> ~ In (b "..") (pieces (r_name r));
  hl_other : forall r x, In r (a_recs a) -> (forall t, r_payload r <> RLink t) ->
    In x (pieces (r_name r)) -> ~ link_name a x;
  hl_link : forall r t, In r (a_recs a) -> r_payload r = RLink t ->
    exists q x, pieces (r_name r) = q ++ [x] /\ x <> b "." /\ forall y, In y q -> ~ link_name a y }.

(** The destination: below [out] the symbolic links, if any, have names used by the links of the
    archive; a file below [out] has no other name outside; inodes from [h_next] on are free. *)
Record calm (a : archive) (f : hostfs) (out : path) : Prop := {
  ca_links : forall q x t m, (exists p, q = out ++ p) -> h_names f (q ++ [x]) = Some (HLink t m) -> link_name a x;
  ca_inside : forall p q i, h_names f p = Some (HFile i) -> h_names f q = Some (HFile i) -> below out p -> below out q;
  ca_next : forall p i, h_names f p = Some (HFile i) -> i < h_next f }.

(** In the table, starting from the range [rg], the names [p] lead to the record [i]: each name is
    that of a record of the range, and every record but the last is a directory giving the next range. *)
Inductive spelled (a : archive) : N * N -> path -> N -> Prop :=
| sp_last rg i r : fst rg <= i < fst rg + snd rg -> at_ (a_recs a) i = Some r -> spelled a rg [r_name r] i
| sp_dir rg i r f n rest j : fst rg <= i < fst rg + snd rg -> at_ (a_recs a) i = Some r ->
    r_payload r = RDir f n -> spelled a (as_u32 f, as_u32 n) rest j -> spelled a rg (r_name r :: rest) j.

(** Ranges do not run past the end of the table, and parents fit 32 bits. *)
Record within (a : archive) : Prop := {
  wi_root : fst (a_root a) + snd (a_root a) <= N.of_nat (length (a_recs a));
  wi_dir : forall r f n, In r (a_recs a) -> r_payload r = RDir f n -> as_u32 f + as_u32 n <= N.of_nat (length (a_recs a));
  wi_parent : forall r, In r (a_recs a) -> r_parent r < 2^32 }.

(** The children of a directory come after it in the table. *)
Definition forward (a : archive) : Prop :=
  forall i r f n, at_ (a_recs a) i = Some r -> r_payload r = RDir f n -> as_u32 n <> 0 -> i < as_u32 f.

(** The callbacks of an operator and the constructors of a builder end. *)
Record ends {C F L D} (B : builder F L D) (op : operator C F L D) : Prop := {
  en_file : forall i r, b_file B i r <> Diverge;
  en_link : forall i r, b_link B i r <> Diverge;
  en_dir : forall i r, b_dir B i r <> Diverge;
  en_start : forall c, snd (on_start op c) <> Diverge;
  en_stop : forall c, snd (on_stop op c) <> Diverge;
  en_enter : forall c d, snd (on_enter op c d) <> Diverge;
  en_exit : forall c d, snd (on_exit op c d) <> Diverge;
  en_onfile : forall c x, snd (on_file op c x) <> Diverge;
  en_onlink : forall c x, snd (on_link op c x) <> Diverge }.
