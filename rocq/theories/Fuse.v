(** Model of the FUSE server, /repo/libarx/src/arx_fs.rs. *)
From Verif Require Export Reader.

(** [Result::unwrap]. *)
Definition unwrap {A} (r : res A) : res A := match r with Err _ => Panic | x => x end.

(** [Ino] (lines 46-77).  [ino_from]: [assert_ne!(v, 0)]; [ino_idx]: None is the root. *)
Definition ino_from (v : N) : res N := if v =? 0 then Panic else Ok v.
Definition ino_of_idx (idx : N) : N := idx + 2.
Definition ino_idx (ino : N) : option N := if ino =? 1 then None else Some (as_u32 (ino - 2)).

(** [EntryType] as [fuser::FileType] (/repo/libarx/src/common/entry_type.rs 37-44). *)
Inductive ftype := FtFile | FtDir | FtLink.
Definition ftype_of (r : rec) : res ftype :=
  match r_payload r with
  | RFile _ _ => Ok FtFile
  | RDir _ _ => Ok FtDir
  | RLink _ => Ok FtLink
  | RBad _ => Err EBadVariant
  end.

(** The fields of [fuser::FileAttr] that are not constant in lines 312-329 and 438-454; times in
    seconds since the epoch. *)
Record attr := mkAttr {
  at_ino : N; at_size : N; at_kind : ftype; at_blocks : N; at_mtime : N; at_perm : N;
  at_nlink : N; at_uid : N; at_gid : N; at_blksize : N }.

(** ROOT_ATTR, lines 438-454 (0o555 = 365). *)
Definition root_attr : attr := mkAttr 1 0 FtDir 1 0 365 2 1000 1000 0.

(** The "arx_entries" index (line 368). *)
Definition entry_index (a : archive) : range := a_entries a.

(** [Index::get_entry(builder, idx)] (jbk): bounds check, then the builder on the index in the table. *)
Definition index_get {A} (f : N -> rec -> res A) (a : archive) (idx : N) : res A :=
  if idx <? snd (entry_index a) then
    let? r := rec_at a (fst (entry_index a) + idx) in f (fst (entry_index a) + idx) r
  else Err EBadIndex.

(** lines 276-282 *)
Definition div_ceil (v rhs : N) : N := v / rhs + (if v mod rhs =? 0 then 0 else 1).

(** [u64] arithmetic that overflows panics. *)
Definition u64 (x : N) : res N := if x <? 2^64 then Ok x else Panic.

(** [AttrBuilder], lines 284-331.  [UNIX_EPOCH + Duration::from_secs(t)] panics for t >= 2^63. *)
Definition build_attr (idx : N) (r : rec) : res attr :=
  let? kind := ftype_of r in
  let? size := (match r_payload r with
                | RFile _ s => Ok s
                | RDir _ nb => u64 ((nb + 1) * 10)
                | RLink t => Ok (N.of_nat (length t))
                | RBad _ => Err EBadVariant
                end) in
  let perm := N.land (as_u16 (r_rights r)) 65389 (* 0b1111_1111_0110_1101 *) in
  let? allocated := (match kind with FtDir => Ok 0 | _ => u64 (div_ceil size 4096 * 4096) end) in
  if r_mtime r <? 2^63 then
    Ok (mkAttr (ino_of_idx idx) size kind (div_ceil allocated 512) (r_mtime r) perm 1
          (as_u32 (r_owner r)) (as_u32 (r_group r)) 512)
  else Panic.

(** Light builders, lines 95-246; [inl]/[inr] are the inner [EntryResult]. *)
Definition light_link (_ : N) (r : rec) : res (bytes + ftype) :=
  let? k := ftype_of r in
  match r_payload r with RLink t => Ok (inl t) | _ => Ok (Datatypes.inr k) end.
Definition light_file (_ : N) (r : rec) : res (caddr + ftype) :=
  let? k := ftype_of r in
  match r_payload r with RFile c _ => Ok (inl c) | _ => Ok (Datatypes.inr k) end.
Definition light_dir (_ : N) (r : rec) : res (range + ftype) :=
  let? k := ftype_of r in
  match r_payload r with RDir f n => Ok (inl (as_u32 f, as_u32 n)) | _ => Ok (Datatypes.inr k) end.
Definition light_parent (_ : N) (r : rec) : res (option N) :=
  if r_parent r =? 0 then Ok None
  else if as_u32 (r_parent r) =? 0 then Panic
  else Ok (Some (as_u32 (r_parent r) - 1)).

(** An LRU cache (crate lru): most recent binding first. *)
Section Lru.
  Context {K V : Type}.
  Variable eqb : K -> K -> bool.
  Fixpoint lru_find (k : K) (l : list (K * V)) : option V :=
    match l with [] => None | (k', v) :: r => if eqb k k' then Some v else lru_find k r end.
  Definition lru_drop (k : K) (l : list (K * V)) : list (K * V) := filter (fun kv => negb (eqb k (fst kv))) l.
  (** [get]: the value, and the cache with the key promoted. *)
  Definition lru_get (k : K) (l : list (K * V)) : option V * list (K * V) :=
    match lru_find k l with
    | Some v => (Some v, (k, v) :: lru_drop k l)
    | None => (None, l)
    end.
  (** [put] / [push]: insert or replace as the most recent; evict the least recent above [cap]. *)
  Definition lru_put (cap : nat) (k : K) (v : V) (l : list (K * V)) : list (K * V) :=
    firstn cap ((k, v) :: lru_drop k l).
End Lru.

Definition rkey_eqb (x y : N * bytes) : bool := (fst x =? fst y) && bytes_eqb (snd x) (snd y).

Definition resolve_cap : nat := 4 * 1024.  (* line 389 *)
Definition attr_cap : nat := 100.          (* line 393 *)

(** The mutable part of [ArxFs] (lines 346-348). *)
Record fs := mkFs {
  f_names : list ((N * bytes) * option N);
  f_attrs : list (N * attr);
  f_open : list (N * (bytes * N)) }.
Definition fs_new : fs := mkFs [] [] [].

(** Requests and replies. [rq_full] of [Readdir] is the behaviour of [ReplyDirectory::add] (fuser):
    given what the reply already holds, does the next entry NOT fit?  Offsets are i64 in the code;
    only non-negative ones are modelled. *)
Record dirent := mkDirent { de_ino : N; de_off : N; de_kind : ftype; de_name : bytes }.
Inductive request :=
| Lookup (parent : N) (nm : bytes)
| Getattr (ino : N)
| Readlink (ino : N)
| Open (ino : N)
| Read (ino off size : N)
| Release (ino : N)
| Opendir (ino : N)
| Readdir (ino off : N) (full : list dirent -> dirent -> bool)
| Releasedir (ino : N).

Inductive errno := ENOENT | ENOLINK | EISDIR | ENOTDIR | EIO | ENOMEDIUM.
Inductive reply :=
| REntry (a : attr)
| RAttr (a : attr)
| RData (d : bytes)
| ROpened
| ROk
| RDirents (l : list dirent)
| RError (e : errno).

Section Server.
  Variable a : archive.
  Variable root : range.   (* root_range, line 338 *)

  (** lines 401-409 *)
  Definition get_entry_range (ino : N) : res range :=
    match ino_idx ino with
    | None => Ok root
    | Some idx => let? e := index_get light_dir a idx in
                  match e with inl r => Ok r | _ => Err ENotADirectory end
    end.

  (** lines 472-477 *)
  Definition resolve (parent : N) (nm : bytes) : res (option N) :=
    let? rg := unwrap (get_entry_range parent) in
    let? k := unwrap (range_find a rg nm) in
    Ok (option_map (fun k => fst rg + k) k).

  (** lines 485-493 and 513-521 *)
  Definition cached_attr (s : fs) (idx : N) : fs * res attr :=
    match lru_get N.eqb idx (f_attrs s) with
    | (Some at_, l) => (mkFs (f_names s) l (f_open s), Ok at_)
    | (None, l) =>
        match unwrap (index_get build_attr a idx) with
        | Ok at_ => (mkFs (f_names s) (lru_put N.eqb attr_cap idx at_ l) (f_open s), Ok at_)
        | x => (s, x)
        end
    end.

  (** lines 457-497 *)
  Definition do_lookup (s : fs) (parent : N) (nm : bytes) : fs * res reply :=
    andthen (s, ino_from parent) (fun s parent =>
    andthen
      (match lru_get rkey_eqb (parent, nm) (f_names s) with
       | (Some v, l) => (mkFs l (f_attrs s) (f_open s), Ok v)
       | (None, l) =>
           match resolve parent nm with
           | Ok v => (mkFs (lru_put rkey_eqb resolve_cap (parent, nm) v l) (f_attrs s) (f_open s), Ok v)
           | x => (s, x)
           end
       end)
      (fun s v =>
         match v with
         | None => (s, Ok (RError ENOENT))
         | Some idx => andthen (cached_attr s idx) (fun s at_ => (s, Ok (REntry at_)))
         end)).

  (** lines 499-525 *)
  Definition do_getattr (s : fs) (ino : N) : fs * res reply :=
    andthen (s, ino_from ino) (fun s ino =>
      match ino_idx ino with
      | None => (s, Ok (RAttr root_attr))
      | Some idx => andthen (cached_attr s idx) (fun s at_ => (s, Ok (RAttr at_)))
      end).

  (** lines 527-543 *)
  Definition do_readlink (s : fs) (ino : N) : fs * res reply :=
    andthen (s, ino_from ino) (fun s ino =>
      match ino_idx ino with
      | None => (s, Ok (RError ENOLINK))
      | Some idx =>
          andthen (s, unwrap (index_get light_link a idx)) (fun s e =>
            match e with inl t => (s, Ok (RData t)) | _ => (s, Ok (RError ENOLINK)) end)
      end).

  Definition open_find (ino : N) (l : list (N * (bytes * N))) : option (bytes * N) := lru_find N.eqb ino l.
  Definition open_set (ino : N) (v : bytes * N) (l : list (N * (bytes * N))) := (ino, v) :: lru_drop N.eqb ino l.

  (** lines 545-581.  The counter is a u64 that is assumed not to overflow. *)
  Definition do_open (s : fs) (ino : N) : fs * res reply :=
    andthen (s, ino_from ino) (fun s ino =>
      match open_find ino (f_open s) with
      | Some (data, c) => (mkFs (f_names s) (f_attrs s) (open_set ino (data, c + 1) (f_open s)), Ok ROpened)
      | None =>
          match ino_idx ino with
          | None => (s, Ok (RError EISDIR))
          | Some idx =>
              andthen (s, unwrap (index_get light_file a idx)) (fun s e =>
                match e with
                | inl c =>
                    match a_fetch a c with
                    | Found data => (mkFs (f_names s) (f_attrs s) (open_set ino (data, 1) (f_open s)), Ok ROpened)
                    | MissingPack => (s, Ok (RError ENOMEDIUM))
                    | NoContent | FetchErr => (s, Ok (RError EIO))
                    end
                | Datatypes.inr FtDir => (s, Ok (RError EISDIR))
                | Datatypes.inr FtLink => (s, Ok (RError ENOENT))
                | Datatypes.inr FtFile => (s, Panic)
                end)
          end
      end).

  (** [ByteRegion::get_slice] (jbk). *)
  Definition get_slice (d : bytes) (off size : N) : bytes :=
    firstn (N.to_nat size) (skipn (N.to_nat off) d).

  (** lines 583-601 *)
  Definition do_read (s : fs) (ino off size : N) : fs * res reply :=
    andthen (s, ino_from ino) (fun s ino =>
      match open_find ino (f_open s) with
      | None => (s, Panic)
      | Some (data, _) =>
          let len := N.of_nat (length data) in
          if len <? off then (s, Panic)
          else (s, Ok (RData (get_slice data off (N.min size (len - off)))))
      end).

  (** lines 603-625 *)
  Definition do_release (s : fs) (ino : N) : fs * res reply :=
    andthen (s, ino_from ino) (fun s ino =>
      match open_find ino (f_open s) with
      | Some (data, c) =>
          (mkFs (f_names s) (f_attrs s)
             (if c - 1 =? 0 then lru_drop N.eqb ino (f_open s) else open_set ino (data, c - 1) (f_open s)), Ok ROk)
      | None => (s, Ok (RError ENOENT))
      end).

  (** lines 627-643 *)
  Definition do_opendir (s : fs) (ino : N) : fs * res reply :=
    andthen (s, ino_from ino) (fun s ino =>
      match ino_idx ino with
      | None => (s, Ok ROpened)
      | Some idx =>
          andthen (s, unwrap (index_get light_dir a idx)) (fun s e =>
            match e with inl _ => (s, Ok ROpened) | _ => (s, Ok (RError ENOTDIR)) end)
      end).

  (** lines 670-682 *)
  Definition parent_ino (ino : N) : res N :=
    match ino_idx ino with
    | None => Ok ino
    | Some idx => let? p := unwrap (index_get light_parent a idx) in
                  match p with None => Ok 1 | Some j => Ok (ino_of_idx j) end
    end.

  (** The loop of lines 664-708 over [is]; the reply so far is [acc].  [entry] reads the record at
      the iterator's position, which is [fst rg + (i - 2)] (lines 658-663, 687, 692). *)
  Fixpoint readdir_loop (ino : N) (rg : range) (full : list dirent -> dirent -> bool) (is : list N)
      (s : fs) (acc : list dirent) : fs * res (list dirent) :=
    match is with
    | [] => (s, Ok acc)
    | i :: rest =>
        if i =? 0 then
          let d := mkDirent ino 0 FtDir (b ".") in
          if full acc d then (s, Ok acc) else readdir_loop ino rg full rest s (acc ++ [d])
        else if i =? 1 then
          match parent_ino ino with
          | Ok p => let d := mkDirent p 1 FtDir (b "..") in
                    if full acc d then (s, Ok acc) else readdir_loop ino rg full rest s (acc ++ [d])
          | Err e => (s, Panic)
          | Panic => (s, Panic)
          | Diverge => (s, Diverge)
          end
        else
          let idx := fst rg + (i - 2) in
          if i - 2 =? snd rg then (s, Ok acc)
          else
            match unwrap (let? r := rec_at a idx in let? k := ftype_of r in Ok (r_name r, k)) with
            | Ok (nm, k) =>
                let d := mkDirent (ino_of_idx idx) i k nm in
                let s' := mkFs (lru_put rkey_eqb resolve_cap (ino, nm) (Some idx) (f_names s)) (f_attrs s) (f_open s) in
                if full acc d then (s', Ok acc) else readdir_loop ino rg full rest s' (acc ++ [d])
            | Err e => (s, Panic)
            | Panic => (s, Panic)
            | Diverge => (s, Diverge)
            end
    end.

  (** lines 645-710; [range.count() + 2] is a u32 addition (line 656). *)
  Definition do_readdir (s : fs) (ino off : N) (full : list dirent -> dirent -> bool) : fs * res reply :=
    andthen (s, ino_from ino) (fun s ino =>
      andthen (s, unwrap (get_entry_range ino)) (fun s rg =>
        if snd rg + 2 <? 2^32 then
          let nb := snd rg + 2 in
          let off := if off =? 0 then 0 else off + 1 in
          andthen (readdir_loop ino rg full (iota off (N.to_nat (nb - off))) s []) (fun s l => (s, Ok (RDirents l)))
        else (s, Panic))).

  Definition step (s : fs) (q : request) : fs * res reply :=
    match q with
    | Lookup p n => do_lookup s p n
    | Getattr i => do_getattr s i
    | Readlink i => do_readlink s i
    | Open i => do_open s i
    | Read i o n => do_read s i o n
    | Release i => do_release s i
    | Opendir i => do_opendir s i
    | Readdir i o f => do_readdir s i o f
    | Releasedir _ => (s, Ok ROk)    (* lines 712-722 *)
    end.

  (** A history of requests; a panic kills the server. *)
  Fixpoint serve (s : fs) (l : list request) : fs * list (res reply) :=
    match l with
    | [] => (s, [])
    | q :: r =>
        match step s q with
        | (s', Ok x) => let (s2, outs) := serve s' r in (s2, Ok x :: outs)
        | (s', o) => (s', [o])
        end
    end.
End Server.

(** [arx mount] (/repo/arx/src/mount.rs 123-133): the range to serve.  With [--root-dir] the path is
    looked up with the empty builder; only its range is kept. *)
Definition unit_builder : builder unit unit unit :=
  mkBuilder (fun _ _ => Ok tt) (fun _ _ => Ok tt) (fun _ _ => Ok tt).
Definition mount_range (a : archive) (root_dir : option bytes) : res range :=
  match root_dir with
  | None => Ok (a_root a)
  | Some p =>
      let? rel := ref_from_path p in
      let? e := get_entry unit_builder a rel in
      match e with GDir r _ => Ok r | _ => Err ENotADirectory end
  end.
