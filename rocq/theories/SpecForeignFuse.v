(** What may be expected of the mount of an archive that no creator wrote: the table of records and
    the served range are arbitrary. *)
From Verif Require Export SpecFuse SpecHostile.

Section Table.
  Variable a : archive.
  Variable root : N * N.   (* the range of the top directory of the mount: first record, number *)

  (** Inode [ino] stands for record number [i]; inode 1 is the top of the mount.  Only the low 32 bits
      of the record number count. *)
  Definition at_inode (ino i : N) (r : rec) : Prop :=
    2 <= ino /\ i = (ino - 2) mod 2^32 /\ at_ (a_recs a) i = Some r.

  (** Inode [ino] is a directory whose entries are the records of the range [rg]. *)
  Definition lists (ino : N) (rg : N * N) : Prop :=
    (ino = 1 /\ rg = root) \/
    exists i r f n, at_inode ino i r /\ r_payload r = RDir f n /\ rg = (f mod 2^32, n mod 2^32).

  (** Record [i] is in the directory [ino]. *)
  Definition entry_of (ino i : N) (r : rec) : Prop :=
    exists rg, lists ino rg /\ fst rg <= i < fst rg + snd rg /\ at_ (a_recs a) i = Some r.

  Definition kind_is (r : rec) (k : ftype) : Prop :=
    match r_payload r with
    | RFile _ _ => k = FtFile
    | RDir _ _ => k = FtDir
    | RLink _ => k = FtLink
    | RBad _ => False
    end.

  (** The attributes of record [i]. *)
  Definition rec_shows (i : N) (r : rec) (t : attr) : Prop :=
    at_ino t = i + 2 /\ kind_is r (at_kind t) /\
    at_uid t = r_owner r mod 2^32 /\ at_gid t = r_group r mod 2^32 /\ at_mtime t = r_mtime r /\
    at_nlink t = 1 /\ at_blksize t = 512 /\
    (forall k, N.testbit (at_perm t) k =
       N.testbit (r_rights r) k && (k <? 16) && negb ((k =? 1) || (k =? 4) || (k =? 7))) /\
    (let sized size := at_size t = size /\ exists pages, at_blocks t = 8 * pages /\ size <= 4096 * pages < size + 4096 in
     match r_payload r with
     | RFile _ size => sized size
     | RLink target => sized (N.of_nat (length target))
     | RDir _ n => at_blocks t = 0 /\ at_size t = (n + 1) * 10
     | RBad _ => False
     end).

  (** Inode [ino] is a file whose content is [data]. *)
  Definition content (ino : N) (data : bytes) : Prop :=
    exists i r addr size, at_inode ino i r /\ r_payload r = RFile addr size /\ a_fetch a addr = Found data.

  (** The entry of a listing at offset [k] of the directory [ino]. *)
  Definition is_dirent (ino : N) (rg : N * N) (k : N) (d : dirent) : Prop :=
    de_off d = k /\
    ((k = 0 /\ de_name d = b "." /\ de_kind d = FtDir /\ de_ino d = ino) \/
     (k = 1 /\ de_name d = b ".." /\ de_kind d = FtDir /\
        ((ino = 1 /\ de_ino d = 1) \/
         exists i r, at_inode ino i r /\ de_ino d = if r_parent r =? 0 then 1 else r_parent r mod 2^32 + 1)) \/
     (2 <= k < snd rg + 2 /\ exists r, at_ (a_recs a) (fst rg + (k - 2)) = Some r /\
        de_ino d = fst rg + (k - 2) + 2 /\ de_name d = r_name r /\ kind_is r (de_kind d))).

  (** The first offset a listing continued after [off] shows. *)
  Definition next_off (off : N) : N := if off =? 0 then 0 else off + 1.

  (** Answer [r] to the request [q], after the requests and answers [h], is true of the table. *)
  Definition truthful (h : list (request * res reply)) (q : request) (r : reply) : Prop :=
    match q, r with
    | Lookup p nm, REntry t => exists i r, entry_of p i r /\ r_name r = nm /\ rec_shows i r t
    | Lookup p nm, RError e => e = ENOENT /\ exists rg, lists p rg
    | Getattr ino, RAttr t =>
        (ino = 1 /\ at_ino t = 1 /\ at_kind t = FtDir /\ at_perm t = 365) \/ exists i r, at_inode ino i r /\ rec_shows i r t
    | Readlink ino, RData t => exists i r, at_inode ino i r /\ r_payload r = RLink t
    | Readlink ino, RError e =>
        e = ENOLINK /\ (ino = 1 \/ exists i r, at_inode ino i r /\ forall t, r_payload r <> RLink t)
    | Open ino, ROpened => exists data, content ino data
    | Open ino, RError EISDIR => exists rg, lists ino rg
    | Open ino, RError ENOENT => exists i r t, at_inode ino i r /\ r_payload r = RLink t
    | Open ino, RError ENOMEDIUM =>
        exists i r addr size, at_inode ino i r /\ r_payload r = RFile addr size /\ a_fetch a addr = MissingPack
    | Open ino, RError EIO =>
        exists i r addr size, at_inode ino i r /\ r_payload r = RFile addr size /\
          (a_fetch a addr = NoContent \/ a_fetch a addr = FetchErr)
    | Read ino off size, RData d =>
        releases ino h < opens ino h /\
        exists data, content ino data /\ off <= N.of_nat (length data) /\ d = firstn (N.to_nat size) (skipn (N.to_nat off) data)
    | Release ino, ROk => releases ino h < opens ino h
    | Release ino, RError ENOENT => releases ino h = opens ino h
    | Opendir ino, ROpened => exists rg, lists ino rg
    | Opendir ino, RError e => e = ENOTDIR /\ exists i r, at_inode ino i r /\ forall f n, r_payload r <> RDir f n
    | Readdir ino off full, RDirents l => exists rg, lists ino rg /\
        (forall k d, nth_error l k = Some d -> is_dirent ino rg (next_off off + N.of_nat k) d) /\
        ((forall acc d, full acc d = false) -> N.of_nat (length l) = snd rg + 2 - next_off off)
    | Releasedir _, ROk => True
    | _, _ => False
    end.

  (** The names of the records of the range [rg] increase strictly. *)
  Definition ordered (rg : N * N) : Prop :=
    (forall i, fst rg <= i < fst rg + snd rg -> exists r, at_ (a_recs a) i = Some r) /\
    forall i j r s, fst rg <= i -> i < j -> j < fst rg + snd rg ->
      at_ (a_recs a) i = Some r -> at_ (a_recs a) j = Some s -> bytes_cmp (r_name r) (r_name s) = Lt.

  (** Values the server can represent: an index on the whole table, ranges in the table, parents of 32 bits, times before 2^63
      seconds, sizes that can be rounded up, and no file record larger than the content it names. *)
  Record healthy : Prop := {
    he_size : N.of_nat (length (a_recs a)) + 2 < 2^32;
    he_index : fst (a_entries a) = 0 /\ N.of_nat (length (a_recs a)) <= snd (a_entries a);
    he_root : fst root + snd root <= N.of_nat (length (a_recs a));
    he_dir : forall r f n, In r (a_recs a) -> r_payload r = RDir f n ->
      f mod 2^32 + n mod 2^32 <= N.of_nat (length (a_recs a)) /\ (n + 1) * 10 < 2^64;
    he_parent : forall r, In r (a_recs a) -> r_parent r < 2^32;
    he_time : forall r, In r (a_recs a) -> r_mtime r < 2^63;
    he_link : forall r t, In r (a_recs a) -> r_payload r = RLink t -> N.of_nat (length t) + 4095 < 2^64;
    he_file : forall r addr size, In r (a_recs a) -> r_payload r = RFile addr size -> size + 4095 < 2^64;
    he_data : forall r addr size data, In r (a_recs a) -> r_payload r = RFile addr size ->
      a_fetch a addr = Found data -> size <= N.of_nat (length data);
    he_kind : forall r v, In r (a_recs a) -> r_payload r <> RBad v }.
End Table.

(** Inode [ino] was given by an answer, with attributes [t]; inode 1 is always known. *)
Definition given (h : list (request * res reply)) (ino : N) (t : attr) : Prop :=
  at_ino t = ino /\ exists p nm, In (Lookup p nm, Ok (REntry t)) h.
Definition known (h : list (request * res reply)) (ino : N) (k : ftype) : Prop :=
  (ino = 1 /\ k = FtDir) \/ exists t, given h ino t /\ at_kind t = k.

(** Requests a kernel sends: inodes it was given; directory requests on directories; reads of open
    files, not beyond the size it was given. *)
Definition kernel_like (h : list (request * res reply)) (q : request) : Prop :=
  match q with
  | Lookup i _ | Readdir i _ _ => known h i FtDir
  | Getattr i | Readlink i | Open i | Release i | Opendir i | Releasedir i => exists k, known h i k
  | Read i off _ => releases i h < opens i h /\ exists t, given h i t /\ off <= at_size t
  end.
