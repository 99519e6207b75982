(** A host on which an archive is mounted. *)
From Verif Require Export SpecCreated SpecMount.

(** The file type bits of a mode. *)
Definition type_bits (k : ftype) : N := match k with FtDir => 16384 | FtFile => 32768 | FtLink => 40960 end.
Definition of_type (k : ftype) (n : hnode) : Prop :=
  match k with FtDir => n = HDir | FtFile => exists i, n = HFile i | FtLink => exists t m, n = HLink t m end.

(** Successive reads of the given sizes, each where the previous one stopped. *)
Fixpoint read_on (a : archive) (root : range) (s : fs) (ino off : N) (sizes : list N) : res bytes :=
  match sizes with
  | [] => Ok []
  | z :: r =>
      match Fuse.step a root s (Read ino off z) with
      | (s', Ok (RData d)) => let? rest := read_on a root s' ino (off + N.of_nat (length d)) r in Ok (d ++ rest)
      | _ => Panic
      end
  end.

(** A process on the host [w] finds below the directory [M] what the server of the mount answers, at
    whatever moments the kernel asks and whatever else it asks for in between: the paths that resolve and their types, the
    attributes, the targets of links, the bytes of a file opened and read to its end, the names of a
    directory listed to its end.  (The kernel reads up to the size in the attributes; see [whole] below.) *)
Record mount_seen (a : archive) (root : range) (w : world) (M : path) : Prop := {
  ms_none : forall h s q e, resolves a root h s q (Refused e) -> h_names (w_fs w) (M ++ q) = None;
  ms_some : forall h s q ino k, resolves a root h s q (Reached ino k) -> q <> [] ->
    exists n, h_names (w_fs w) (M ++ q) = Some n /\ of_type k n;
  ms_attr : forall h s q ino k t, resolves a root h s q (Reached ino k) -> q <> [] -> snd (Fuse.step a root s (Getattr ino)) = Ok (RAttr t) ->
    let x := w_attr w (M ++ q) in
    FsAdder.at_uid x = Fuse.at_uid t /\ FsAdder.at_gid x = Fuse.at_gid t /\ FsAdder.at_mtime x = Z.of_N (Fuse.at_mtime t) /\
    at_mode x = N.lor (type_bits k) (at_perm t);
  ms_link : forall h s q ino t, resolves a root h s q (Reached ino FtLink) -> q <> [] -> snd (Fuse.step a root s (Readlink ino)) = Ok (RData t) ->
    exists m, h_names (w_fs w) (M ++ q) = Some (HLink t m);
  ms_open : forall h s q ino, resolves a root h s q (Reached ino FtFile) -> q <> [] -> snd (Fuse.step a root s (Open ino)) = Ok ROpened ->
    at_special (w_attr w (M ++ q)) = false /\ at_readable (w_attr w (M ++ q)) = true;
  ms_read : forall h s q ino i sizes data, resolves a root h s q (Reached ino FtFile) -> q <> [] -> releases ino h < opens ino h ->
    h_names (w_fs w) (M ++ q) = Some (HFile i) ->
    read_on a root s ino 0 sizes = Ok data -> snd (Fuse.step a root s (Read ino (N.of_nat (length data)) 1)) = Ok (RData []) ->
    h_data (w_fs w) i = data;
  ms_list : forall h s q ino, resolves a root h s q (Reached ino FtDir) -> exists names, w_list w (M ++ q) = Some names /\
    forall between f more, fits_two f -> Forall (fun bf => fits_one (snd bf)) more ->
    let res := pages a root s ino 0 ((between, f) :: more) in
    In (Ok []) res -> names = filter (fun n => negb (bytes_eqb n (b ".") || bytes_eqb n (b ".."))) (map de_name (replies res)) }.

(** The session can be shown by a mount and archived again: ordinary UTF-8 names, UTF-8 targets, times and sizes
    that FUSE can show, the contents are there and have the sizes recorded. *)
Definition whole (l : list entry) (fetch : caddr -> fetched) : Prop := forall p nd, has l p nd ->
  (forall n, In n p -> ordinary n /\ utf8 n = true) /\ m_mtime (snd nd) < 2^63 /\
  match fst nd with
  | KFile size addr => size + 4095 < 2^64 /\ exists data, fetch addr = Found data /\ N.of_nat (length data) = size
  | KLink t => t <> [] /\ utf8 t = true /\ N.of_nat (length t) + 4095 < 2^64
  | KDir => True
  end.

(** What the second archive has for an entry of the first: the same but for the owner and group
    modulo 2^32 and the write permissions, and with the type bits in the mode. *)
Definition carried (fetch fetch2 : caddr -> fetched) (nd nd2 : node) : Prop :=
  m_uid (snd nd2) = m_uid (snd nd) mod 2^32 /\ m_gid (snd nd2) = m_gid (snd nd) mod 2^32 /\ m_mtime (snd nd2) = m_mtime (snd nd) /\
  (forall k, N.testbit (m_mode (snd nd2)) k =
     N.testbit (type_bits (ftype_kind (fst nd))) k || (N.testbit (m_mode (snd nd)) k && (k <? 16) && negb ((k =? 1) || (k =? 4) || (k =? 7)))) /\
  match fst nd with
  | KDir => fst nd2 = KDir
  | KLink t => fst nd2 = KLink t
  | KFile size addr => exists addr2, fst nd2 = KFile size addr2 /\ fetch2 addr2 = fetch addr
  end.
