(** What a mounted archive must answer. *)
From Coq Require Export Sorting.Sorted.
From Verif Require Export Fuse SpecArchive.

(** [root] is the range of the directory [rd] of the archive ([] for the whole archive). *)
Definition mounted (a : archive) (root : range) (rd : path) : Prop :=
  (rd = [] /\ root = a_root a) \/
  (exists i r f nb, apath a i rd /\ at_ (a_recs a) i = Some r /\ r_payload r = RDir f nb /\ root = (f, nb)).

(** Inode [ino] is the directory or entry of path [p]. *)
Definition denotes (a : archive) (rd : path) (ino : N) (p : path) : Prop :=
  (ino = 1 /\ p = rd) \/ (exists i, ino = i + 2 /\ apath a i p).

Definition is_dir (a : archive) (p : path) : Prop := p = [] \/ exists i mt, astored a i p (KDir, mt).

Definition ftype_kind (k : kind) : ftype := match k with KDir => FtDir | KFile _ _ => FtFile | KLink _ => FtLink end.

(** Attributes of the entry [i] with path [p] holding [nd]. *)
Definition attr_shows (a : archive) (i : N) (p : path) (nd : node) (t : attr) : Prop :=
  let m := snd nd in
  at_ino t = i + 2 /\ at_kind t = ftype_kind (fst nd) /\
  at_uid t = m_uid m mod 2^32 /\ at_gid t = m_gid m mod 2^32 /\ at_mtime t = m_mtime m /\
  at_nlink t = 1 /\ at_blksize t = 512 /\
  (* the 16 low bits of the mode, without the write bits of user (7), group (4) and others (1) *)
  (forall k, N.testbit (at_perm t) k =
     N.testbit (m_mode m) k && (k <? 16) && negb ((k =? 1) || (k =? 4) || (k =? 7))) /\
  (let sized size := at_size t = size /\ exists pages, at_blocks t = 8 * pages /\ size <= 4096 * pages < size + 4096 in
   match fst nd with
   | KFile size _ => sized size
   | KLink target => sized (N.of_nat (length target))
   | KDir => at_blocks t = 0 /\
       exists kids, NoDup kids /\ (forall k, In k kids <-> exists n, apath a k (p ++ [n])) /\
                    at_size t = (N.of_nat (length kids) + 1) * 10
   end).

(** Values the attributes can represent: times before year 292277026596, sizes that can be rounded
    up to 4 KiB in 64 bits. *)
Definition sane (nd : node) : Prop :=
  m_mtime (snd nd) < 2^63 /\
  match fst nd with
  | KFile size _ => size + 4095 < 2^64
  | KLink t => N.of_nat (length t) + 4095 < 2^64
  | KDir => True
  end.
Definition all_sane (a : archive) : Prop := forall i p nd, astored a i p nd -> sane nd.
(** No directory has more than 2^32-3 entries. *)
Definition narrow (a : archive) : Prop := N.of_nat (length (a_recs a)) + 2 < 2^32.

(** The bytes of the file of inode [ino]. *)
Definition file_data (a : archive) (ino : N) (data : bytes) : Prop :=
  exists i p size addr mt, ino = i + 2 /\ astored a i p (KFile size addr, mt) /\ a_fetch a addr = Found data.

(** How many more successful opens than releases, after a history of requests and replies. *)
Fixpoint opens (ino : N) (l : list (request * res reply)) : N :=
  match l with
  | [] => 0
  | (Open i, Ok ROpened) :: r => opens ino r + (if i =? ino then 1 else 0)
  | _ :: r => opens ino r
  end.
Fixpoint releases (ino : N) (l : list (request * res reply)) : N :=
  match l with
  | [] => 0
  | (Release i, Ok ROk) :: r => releases ino r + (if i =? ino then 1 else 0)
  | _ :: r => releases ino r
  end.

(** A server state with the history of requests it answered since the mount. *)
Inductive served (a : archive) (root : range) : list (request * res reply) -> fs -> Prop :=
| served_new : served a root [] fs_new
| served_step h s q s' r : served a root h s -> step a root s q = (s', Ok r) -> served a root (h ++ [(q, Ok r)]) s'.

(** Listing a directory page after page: each page is asked from the offset of the last entry seen;
    each page has its own reply buffer, and any requests may be served before it. *)
Notation buffer := (list dirent -> dirent -> bool) (only parsing).
Fixpoint pages (a : archive) (root : range) (s : fs) (ino off : N) (l : list (list request * buffer))
  : list (res (list dirent)) :=
  match l with
  | [] => []
  | (between, f) :: r =>
      match step a root (fst (serve a root s between)) (Readdir ino off f) with
      | (s', Ok (RDirents l)) => Ok l :: pages a root s' ino (last (map de_off l) off) r
      | (s', Ok _) => []
      | (s', Err e) => [Err e]
      | (s', Panic) => [Panic]
      | (s', Diverge) => [Diverge]
      end
  end.

Definition replies (l : list (res (list dirent))) : list dirent :=
  flat_map (fun r => match r with Ok l => l | _ => [] end) l.

(** The complete listing of the directory of path [p] and inode [ino]: ".", ".." and then the
    children in strict name order, each once. *)
Definition complete_listing (a : archive) (rd : path) (ino : N) (p : path) (l : list dirent) : Prop :=
  exists dot dotdot kids, l = dot :: dotdot :: kids /\
    de_ino dot = ino /\ de_name dot = b "." /\ de_kind dot = FtDir /\
    de_name dotdot = b ".." /\ de_kind dotdot = FtDir /\
    StronglySorted (fun x y => bytes_cmp (de_name x) (de_name y) = Lt) kids /\
    (forall k nd n, astored a k (p ++ [n]) nd ->
       exists d, In d kids /\ de_name d = n /\ de_ino d = k + 2 /\ de_kind d = ftype_kind (fst nd)) /\
    (forall d, In d kids -> exists k nd, astored a k (p ++ [de_name d]) nd /\ de_ino d = k + 2).

(** The reply buffer has room for one more entry when it is empty. *)
Definition fits_one (f : buffer) : Prop := forall d, f [] d = false.
Definition fits_two (f : buffer) : Prop := fits_one f /\ forall d d', f [d] d' = false.

(** Requests a kernel sends after the history [h]: inodes it was given, directories where
    directories are needed, reads within files that are open. *)
Definition legit (a : archive) (rd : path) (h : list (request * res reply)) (q : request) : Prop :=
  match q with
  | Lookup i _ => exists p, denotes a rd i p /\ is_dir a p
  | Getattr i | Readlink i | Open i | Opendir i => exists p, denotes a rd i p
  | Read i off _ => (exists p, denotes a rd i p) /\ releases i h < opens i h /\
                    forall data, file_data a i data -> off <= N.of_nat (length data)
  | Release i => i <> 0
  | Readdir i _ _ => exists p, denotes a rd i p /\ is_dir a p
  | Releasedir _ => True
  end.
