(** Model of the converters: /repo/tar2arx/src/main.rs and /repo/zip2arx/src/main.rs. *)
From Verif Require Export Cli.

(** ** tar2arx *)
(** tar::EntryType *)
Inductive tar_type :=
| TRegular | TLink | TSymlink | TChar | TBlock | TDirectory | TFifo | TContinuous
| TGnuLongName | TGnuLongLink | TGnuSparse | TXGlobalHeader | TXHeader | TOtherType (c : N).

(** What the [tar] crate (0.4.43, trusted) answers about one member: the fields of its header (each may
    be malformed), its path and link name (long names and pax records already merged), the data that
    follows.  [tm_ustar]: the header has the POSIX ustar magic; [tm_header_path]: the path bytes of the
    header block itself. *)
Record tar_member := mkTar {
  tm_uid : res N; tm_gid : res N; tm_mtime : res N; tm_mode : res N;
  tm_path : res bytes; tm_type : tar_type; tm_link : res (option bytes);
  tm_ustar : bool; tm_header_path : bytes; tm_data : res bytes }.

(** [unwrap] of a result: an error is a panic. *)
Definition unwrap {A} (r : res A) : res A := match r with Err _ => Panic | x => x end.

(** [TarEntry::new], lines 145-216, and the [EntryTrait] of the result, lines 219-239.  The contents of
    the creator are threaded through. *)
Definition tar_entry (m : tar_member) (l : list bytes) : res (list bytes * option entry) :=
  let? uid := tm_uid m in
  let? gid := tm_gid m in
  let? mtime := tm_mtime m in
  let? mode := tm_mode m in
  let? raw := tm_path m in
  let? p := unwrap (from_path raw) in
  let made k := mkEntry p (Ok (Some k)) (mkMeta uid gid mode mtime) in
  match tm_type m with
  | TDirectory => Ok (l, Some (made KDir))
  | TSymlink =>
      let? t := tm_link m in
      match t with Some target => Ok (l, Some (made (KLink target))) | None => Panic end
  | TGnuLongName | TGnuLongLink | TXHeader | TXGlobalHeader => Ok (l, None)
  | _ =>
      if negb (tm_ustar m) && ends_with_sep (tm_header_path m) then Ok (l, Some (made KDir))
      else
        let? data := tm_data m in
        let (l', addr) := add_content l data in
        Ok (l', Some (made (KFile (N.of_nat (length data)) addr)))
  end.

(** The loop of [Converter::run], lines 270-275; an item of the iterator may be an error. *)
Fixpoint tar_members (items : list (res tar_member)) (c : creator) : creator * res unit :=
  match items with
  | [] => (c, Ok tt)
  | Ok m :: r =>
      match tar_entry m (cr_contents c) with
      | Ok (l, None) => tar_members r (mkCreator (cr_entries c) l)
      | Ok (l, Some e) =>
          match add_entry (cr_entries c) e with
          | (st, Ok _) => tar_members r (mkCreator st l)
          | (st, x) => (mkCreator st l, x)
          end
      | Err x => (c, Err x)
      | Panic => (c, Panic)
      | Diverge => (c, Diverge)
      end
  | Err x :: _ => (c, Err x)
  | Panic :: _ => (c, Panic)
  | Diverge :: _ => (c, Diverge)
  end.

(** What happens to an output path. *)
Inductive conv_event :=
| COpened (out : bytes) (m : concat_mode) (x : compression)
| CWritten (out : bytes) (a : archive).

(** [Converter::new] then [run] and [finalize], lines 241-278 (zip: 230-267).  [fill]: the creator after
    the loop; [can_open]: does [SimpleCreator::new] work? *)
Definition convert (out : bytes) (m : concat_mode) (x : compression) (can_open : bool) (filled : creator * res unit)
  : list conv_event * res unit :=
  if can_open then
    match filled with
    | (c, Ok _) => match finalize c with
                   | Some a => ([COpened out m x; CWritten out a], Ok tt)
                   | None => ([COpened out m x], Err (EOther (b "jbk")))
                   end
    | (_, r) => ([COpened out m x], r)
    end
  else ([], Err (EIo IoOther)).

(** *** The name of the archive *)
(** std::path: the trailing separators and "." components of a path (reversed) do not count. *)
Fixpoint trim_tail_rev (r : bytes) : bytes :=
  match r with
  | [] => []
  | c :: t =>
      if is_sep c then trim_tail_rev t
      else match t with
           | d :: _ => if (c =? 46) && is_sep d then trim_tail_rev t else r
           | [] => r
           end
  end.
Definition not_sep (c : N) : bool := negb (is_sep c).
(** What precedes the last component, and the last component when it is a [Normal] one
    ([Path::file_name]). *)
Definition split_file_name (s : bytes) : option (bytes * bytes) :=
  let r := trim_tail_rev (rev s) in
  let n := rev (take_while not_sep r) in
  if bytes_eqb n [] || bytes_eqb n (b ".") || bytes_eqb n (b "..") then None
  else Some (rev (drop_while not_sep r), n).
(** [Path::file_stem]: the name up to its last dot, unless that dot comes first. *)
Definition file_stem (n : bytes) : bytes :=
  match drop_while (fun c => negb (c =? 46)) (rev n) with
  | _ :: ((_ :: _) as t) => rev t
  | _ => n
  end.
(** [Path::with_extension] *)
Definition with_extension (s ext : bytes) : bytes :=
  match split_file_name s with
  | None => s
  | Some (d, n) => d ++ file_stem n ++ (if nonempty ext then 46 :: ext else [])
  end.
(** [Path::starts_with] compares components: "https://" is the one component "https:". *)
Definition starts_with_comp (s : bytes) (x : bytes) : bool :=
  match std_components s with Some c :: _ => bytes_eqb (as_str c) x | _ => false end.

(** Lines 308-325; [None] for standard input. *)
Definition tar_outfile (outfile tar_file : option bytes) : res bytes :=
  match outfile with
  | Some o => Ok o
  | None =>
      match tar_file with
      | None => Err (EOther (b "Cannot infer arx name"))
      | Some f =>
          if bytes_eqb f (b "-") then Err (EOther (b "Cannot infer arx name"))
          else if starts_with_comp f (b "https:") || starts_with_comp f (b "http:") then
            match split_file_name f with
            | Some (_, n) => Ok (with_extension (with_extension n []) (b "arx"))
            | None => Panic
            end
          else Ok (with_extension (with_extension f []) (b "arx"))
      end
  end.

(** The options (lines 27-62) that produce an archive (the others print and return, lines 289-305). *)
Record tar_opts := mkTarOpts {
  to_file : option bytes; to_out : option bytes; to_concat : option concat_flags; to_comp : compression }.

(** [main], lines 306-366.  [input]: opening the file, the URL or standard input; [niffler::get_reader]
    fails on an input that is too short ([None]: the [unwrap] panics); [archive.entries()] may fail; then
    the items. *)
Definition tar_main (o : tar_opts) (input : res (option (res (list (res tar_member))))) (can_open : bool)
  : list conv_event * res unit :=
  match tar_outfile (to_out o) (to_file o) with
  | Ok out =>
      match input with
      | Ok None => ([], Panic)
      | Ok (Some stream) =>
          match create_concat (to_concat o) with
          | Ok m =>
              convert out m (to_comp o) can_open
                (match stream with
                 | Ok items => tar_members items creator_empty
                 | Err e => (creator_empty, Err e)
                 | Panic => (creator_empty, Panic)
                 | Diverge => (creator_empty, Diverge)
                 end)
          | Err e => ([], Err e)
          | Panic => ([], Panic)
          | Diverge => ([], Diverge)
          end
      | Err e => ([], Err e)
      | Panic => ([], Panic)
      | Diverge => ([], Diverge)
      end
  | Err e => ([], Err e)
  | Panic => ([], Panic)
  | Diverge => ([], Diverge)
  end.

(** ** zip2arx *)
(** What the [zip] crate (2.2.1, trusted) answers about one member: the modification time of each
    extended timestamp field, the DOS time as seconds since the epoch (may be absent, or not a date),
    the unix mode, the name (UTF-8), the compression method, the size and place of the data, and the
    data as decompressed. *)
Record zip_member := mkZip {
  zm_ext_times : list (option N); zm_dos_time : option (option Z); zm_mode : option N;
  zm_name : bytes; zm_stored : bool; zm_size : N; zm_start : N; zm_data : res bytes }.

(** [ZipFile::enclosed_name]: no NUL, relative, and never above where it starts.  The path is returned
    as it is. *)
Fixpoint stays_inside (depth : N) (l : list (option comp)) : bool :=
  match l with
  | [] => true
  | None :: _ => false
  | Some ParentDir :: r => if depth =? 0 then false else stays_inside (depth - 1) r
  | Some (Normal _) :: r => stays_inside (depth + 1) r
  | Some CurDir :: r => stays_inside depth r
  end.
Definition enclosed_name (s : bytes) : option bytes :=
  if existsb (fun c => c =? 0) s then None
  else if stays_inside 0 (std_components s) then Some s else None.
(** [ZipFile::is_dir]: the name ends with "/" or "\". *)
Definition zip_is_dir (s : bytes) : bool :=
  match rev s with c :: _ => is_sep c || (c =? 92) | [] => false end.

(** Lines 151-166: the last extended timestamp field decides, even when it has no modification time. *)
Definition zip_mtime (m : zip_member) : res N :=
  match last (zm_ext_times m) None with
  | Some ts => Ok ts
  | None => match zm_dos_time m with
            | None => Ok 0
            | Some None => Panic
            | Some (Some t) => Ok (as_u64 t)
            end
  end.

(** [ZipEntry::new], lines 146-205, and the [EntryTrait] of the result, lines 208-228.  [reopen]: opening
    and reading the zip file again (line 187). *)
Definition zip_entry (reopen : res bytes) (m : zip_member) (l : list bytes) : res (list bytes * entry) :=
  let? mtime := zip_mtime m in
  let mode := match zm_mode m with Some x => x | None => 420 end in (* 0o644 *)
  match enclosed_name (zm_name m) with
  | None => Err (EOther (b "Invalid path"))
  | Some raw =>
      let? p := unwrap (from_path raw) in
      let made k := mkEntry p (Ok (Some k)) (mkMeta 0 0 mode mtime) in
      if zip_is_dir (zm_name m) then Ok (l, made KDir)
      else
        let? data := (if zm_stored m then
                        let? z := reopen in Ok (firstn (N.to_nat (zm_size m)) (skipn (N.to_nat (zm_start m)) z))
                      else zm_data m) in
        let (l', addr) := add_content l data in
        Ok (l', made (KFile (zm_size m) addr))
  end.

(** The loop of [Converter::run], lines 259-264; [None]: [by_index] fails (encrypted, unknown method...)
    and is unwrapped. *)
Fixpoint zip_members (reopen : res bytes) (items : list (option zip_member)) (c : creator) : creator * res unit :=
  match items with
  | [] => (c, Ok tt)
  | None :: _ => (c, Panic)
  | Some m :: r =>
      match zip_entry reopen m (cr_contents c) with
      | Ok (l, e) =>
          match add_entry (cr_entries c) e with
          | (st, Ok _) => zip_members reopen r (mkCreator st l)
          | (st, x) => (mkCreator st l, x)
          end
      | Err x => (c, Err x)
      | Panic => (c, Panic)
      | Diverge => (c, Diverge)
      end
  end.

(** The options (lines 23-65) that produce an archive. *)
Record zip_opts := mkZipOpts { zo_out : bytes; zo_concat : option concat_flags; zo_comp : compression }.

(** [main], lines 296-308.  [input]: opening the zip file; [None]: it is not a zip ([unwrap] panics). *)
Definition zip_main (o : zip_opts) (input : res (option (list (option zip_member)))) (reopen : res bytes) (can_open : bool)
  : list conv_event * res unit :=
  match input with
  | Ok None => ([], Panic)
  | Ok (Some items) =>
      match create_concat (zo_concat o) with
      | Ok m => convert (zo_out o) m (CZstd 5) can_open (zip_members reopen items creator_empty)
      | Err e => ([], Err e)
      | Panic => ([], Panic)
      | Diverge => ([], Diverge)
      end
  | Err e => ([], Err e)
  | Panic => ([], Panic)
  | Diverge => ([], Diverge)
  end.
