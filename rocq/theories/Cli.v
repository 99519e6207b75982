(** Model of the commands of the [arx] binary: /repo/arx/src/dump.rs, create.rs, extract.rs, and of
    /repo/libarx/src/cmd_utils.rs (jbk::cmd_utils has the same functions). *)
From Verif Require Export FsAdder Extract.
From Verif Require Fuse.

(** ** dump, /repo/arx/src/dump.rs *)
(** [FileBuilder] and [FullBuilder], lines 7-25 *)
Definition dump_builder : builder caddr unit unit :=
  mkBuilder (fun _ r => match r_payload r with RFile addr _ => Ok addr | _ => Panic end) (fun _ _ => Ok tt) (fun _ _ => Ok tt).

(** A writer: what it does when given non-empty bytes. *)
Inductive sink := ToStdout | ReadOnlyFile.

(** [dump_entry], lines 27-51: what reaches the standard output, and the result.  [io::copy] of an
    empty content writes nothing; [write] on a file opened for reading fails (EBADF). *)
Definition dump_entry (a : archive) (e : gentry caddr unit unit) (o : sink) : bytes * res unit :=
  match e with
  | GDir _ _ => ([], Err EFoundDir)
  | GFile addr =>
      match a_fetch a addr with
      | Found data =>
          match o, data with
          | ToStdout, _ => (data, Ok tt)
          | ReadOnlyFile, [] => ([], Ok tt)
          | ReadOnlyFile, _ :: _ => ([], Err (EIo IoBadFd))
          end
      | MissingPack => ([], Ok tt)
      | NoContent | FetchErr => ([], Err (EOther (b "jbk")))
      end
  | GLink _ => ([], Err EFoundLink)
  end.

(** [File::open]: read only; a directory can be opened. *)
Definition open_read (w : world) (s : bytes) : res unit :=
  match look_str w true s with At _ _ => Ok tt | Missing _ => Err (EIo IoNotFound) | Bad e => Err (EIo e) end.

(** [dump], lines 72-89, on an archive that could be opened.  No case changes the file system. *)
Definition dump (w : world) (a : archive) (p : bytes) (output : option bytes) : bytes * res unit :=
  match get_entry dump_builder a p with
  | Ok e =>
      match output with
      | None => dump_entry a e ToStdout
      | Some out =>
          if bytes_eqb out (b "-") then dump_entry a e ToStdout
          else match open_read w out with
               | Ok _ => dump_entry a e ReadOnlyFile
               | Err x => ([], Err x)
               | Panic => ([], Panic)
               | Diverge => ([], Diverge)
               end
      end
  | Err x => ([], Err x)
  | Panic => ([], Panic)
  | Diverge => ([], Diverge)
  end.

(** ** cmd_utils *)
(** [jbk::creator::Compression] *)
Inductive compression := CNone | CLz4 (level : Z) | CLzma (level : Z) | CZstd (level : Z).
(** [InvalidCompression], cmd_utils.rs 50-54 *)
Inductive invalid_compression := BadLevel | BadAlgorithm (s : bytes).

(** [u8::to_ascii_lowercase] *)
Definition ascii_lower (c : N) : N := if inr 65 c 90 then c + 32 else c.

(** [s.splitn(2, '=')] *)
Fixpoint split_eq (s : bytes) : bytes * option bytes :=
  match s with
  | [] => ([], None)
  | c :: r => if c =? 61 then ([], Some r) else let (x, y) := split_eq r in (c :: x, y)
  end.

(** [i32::from_str] and [u32::from_str] (radix 10): an optional sign ('-' only for signed), at least
    one digit; each step is checked for overflow against the bounds of the type. *)
Fixpoint digits (lo hi : Z) (neg : bool) (acc : Z) (s : bytes) : option Z :=
  match s with
  | [] => Some acc
  | c :: r =>
      if inr 48 c 57 then
        let acc' := (if neg then 10 * acc - Z.of_N (c - 48) else 10 * acc + Z.of_N (c - 48))%Z in
        if ((lo <=? acc') && (acc' <=? hi))%Z then digits lo hi neg acc' r else None
      else None
  end.
Definition parse_int (signed : bool) (lo hi : Z) (s : bytes) : option Z :=
  match s with
  | [] => None
  | c :: r =>
      if (c =? 43) && nonempty r then digits lo hi false 0 r
      else if signed && (c =? 45) && nonempty r then digits lo hi true 0 r
      else digits lo hi false 0 s
  end.
(** [deranged]'s [FromStr]: the integer must be in the range. *)
Definition parse_ranged (signed : bool) (lo hi : Z) (s : bytes) : option Z :=
  match parse_int signed (if signed then - 2^31 else 0)%Z (if signed then 2^31 - 1 else 2^32 - 1)%Z s with
  | Some z => if ((lo <=? z) && (z <=? hi))%Z then Some z else None
  | None => None
  end.

(** [compression_arg_parser], cmd_utils.rs 15-48 (all features on).  Levels: lz4 RangedU32<0,15>,
    lzma RangedU32<0,9>, zstd RangedI32<-22,22>; the defaults are jbk's: lz4 3, lzma 9, zstd 5. *)
Definition level_of (dflt : Z) (signed : bool) (lo hi : Z) (level : option bytes) : option Z :=
  match level with None => Some dflt | Some s => parse_ranged signed lo hi s end.
Definition compression_arg_parser (s : bytes) : compression + invalid_compression :=
  let (algo, level) := split_eq s in
  let algo := map ascii_lower algo in
  let ret mk o := match o with Some z => inl (mk z) | None => Datatypes.inr BadLevel end in
  if bytes_eqb algo (b "none") then inl CNone
  else if bytes_eqb algo (b "lz4") then ret CLz4 (level_of 3 false 0 15 level)
  else if bytes_eqb algo (b "lzma") then ret CLzma (level_of 9 false 0 9 level)
  else if bytes_eqb algo (b "zstd") then ret CZstd (level_of 5 true (-22) 22 level)
  else Datatypes.inr (BadAlgorithm algo).

(** [jbk::creator::ConcatMode] and the flags of cmd_utils.rs 66-102. *)
Inductive concat_mode := OneFile | TwoFiles | NoConcat.
Record concat_flags := mkFlags { f_one : bool; f_two : bool; f_many : bool }.

(** clap (trusted): flags given on the command line, at most one of a group with [multiple = false]
    (usage error otherwise); an optional flattened group is [None] when no flag of it is given. *)
Definition parse_concat (given : list concat_mode) : option (option concat_flags) :=
  match given with
  | [] => Some None
  | [OneFile] => Some (Some (mkFlags true false false))
  | [TwoFiles] => Some (Some (mkFlags false true false))
  | [NoConcat] => Some (Some (mkFlags false false true))
  | _ => None
  end.
(** [impl From<ConcatMode>], cmd_utils.rs 104-116 *)
Definition concat_of (f : concat_flags) : res concat_mode :=
  match f_one f, f_two f, f_many f with
  | true, _, _ => Ok OneFile
  | _, true, _ => Ok TwoFiles
  | _, _, true => Ok NoConcat
  | _, _, _ => Panic
  end.
(** create.rs 306-309 *)
Definition create_concat (f : option concat_flags) : res concat_mode :=
  match f with None => Ok OneFile | Some e => concat_of e end.

(** ** create, /repo/arx/src/create.rs *)
(** clap (trusted): [--recurse] conflicts with [--no-recurse] (usage error, [None]); otherwise the flag,
    or the first matching default of lines 135-138, or false. [positional]: are INFILES present? *)
Definition recurse_value (recurse no_recurse positional : bool) : option bool :=
  if recurse && no_recurse then None
  else Some (if recurse then true else if no_recurse then false else if positional then true else false).

(** The options (lines 77-179), after parsing. *)
Record create_opts := mkOpts {
  o_list_compressions : bool;
  o_out : bytes;
  o_prefix : option bytes;
  o_base : option bytes;
  o_infiles : list bytes;
  o_file_list : option bytes;
  o_recurse : bool;
  o_concat : option concat_flags;
  o_force : bool;
  o_follow : bool }.

(** What happens to the output path.  [Opened]: [SimpleCreator::new] (jbk opens a temporary file next
    to the output); [Written]: [finalize] succeeded, the archive is at the output path. *)
Inductive out_event := Opened (m : concat_mode) | Written (a : archive).

(** [BufRead::lines], each line a [String]: split at "\n" with an optional "\r" before; a last line
    without "\n" counts (its "\r" is kept) unless it is empty. *)
Definition strip_cr (s : bytes) : bytes :=
  match rev s with c :: r => if c =? 13 then rev r else s | [] => s end.
Fixpoint split_lines (cur : bytes) (s : bytes) : list bytes :=
  match s with
  | [] => match cur with [] => [] | _ => [cur] end
  | c :: r => if c =? 10 then strip_cr cur :: split_lines [] r else split_lines (cur ++ [c]) r
  end.
Definition read_lines (s : bytes) : res (list bytes) :=
  let l := split_lines [] s in if forallb utf8 l then Ok l else Err (EIo IoOther).

(** The content of a file given by its path. *)
Definition read_file (w : world) (s : bytes) : res bytes :=
  match look_str w true s with
  | At q (HFile i) => if at_readable (w_attr w q) then Ok (h_data (w_fs w) i) else Err (EIo IoOther)
  | At _ HDir => Err (EIo IoIsDir)
  | At _ (HLink _ _) => Err (EIo IoLoop)
  | Missing _ => Err (EIo IoNotFound)
  | Bad e => Err (EIo e)
  end.

(** [Path::exists] *)
Definition exists_path (w : world) (s : bytes) : bool := match look_str w true s with At _ _ => true | _ => false end.

(** [check_input_paths_exist], lines 181-192 *)
Definition check_input_paths_exist (w : world) (l : list bytes) : res unit :=
  if forallb (exists_path w) l then Ok tt else Err (EOther (b "doesn't exist")).

(** [current_dir()?.join(out_file)] (line 285) as components from "/" *)
Definition out_comps (w : world) (s : bytes) : list bytes :=
  (if is_abs s then [] else w_cwd w) ++ filter not_dot (pieces s).

(** [check_output_path_writable], lines 194-208; "/" has no parent. *)
Definition check_output_path_writable (w : world) (s : bytes) (force : bool) : res unit :=
  match out_comps w s with
  | [] => Panic
  | c :: r =>
      if negb (is_dir_path (w_fs w) ([], removelast (c :: r))) then Err (EOther (b "Directory doesn't exist"))
      else if exists_path w s && negb force then Err (EOther (b "File already exists"))
      else Ok tt
  end.

(** [set_current_dir] *)
Definition chdir (w : world) (s : bytes) : res world :=
  match look_str w true s with
  | At q HDir => Ok (mkWorld (w_fs w) (w_attr w) (w_list w) q)
  | At _ _ => Err (EIo IoNotDir)
  | Missing _ => Err (EIo IoNotFound)
  | Bad e => Err (EIo e)
  end.

(** The loop of lines 338-341. *)
Fixpoint add_infiles (fuel : nat) (w : world) (pre : bytes) (l : list bytes) (recurse : bool) (c : creator) : creator * res unit :=
  match l with
  | [] => (c, Ok tt)
  | s :: r => match add_from_path fuel w pre s recurse c with
              | (c1, Ok _) => add_infiles fuel w pre r recurse c1
              | (c1, x) => (c1, x)
              end
  end.

(** Lines 315-342: filling the creator; [w0] is the host before the change of directory. *)
Definition fill (fuel : nat) (w0 w : world) (o : create_opts) : creator * res unit :=
  let pre := match o_prefix o with Some s => s | None => [] end in
  match o_file_list o with
  | Some fl =>
      match bind (read_file w0 fl) read_lines with
      | Ok files => add_from_list w pre files (o_follow o) creator_empty
      | Err e => (creator_empty, Err e)
      | Panic => (creator_empty, Panic)
      | Diverge => (creator_empty, Diverge)
      end
  | None =>
      if existsb is_abs (o_infiles o) then (creator_empty, Err (EOther (b "must be relative")))
      else match check_input_paths_exist w (o_infiles o) with
           | Ok _ => add_infiles fuel w pre (o_infiles o) (o_recurse o) creator_empty
           | x => (creator_empty, x)
           end
  end.

(** [create], lines 271-347.  [can_open]: does [SimpleCreator::new] work?  Simplification: the host does
    not change during the creation (the temporary file is not among the inputs). *)
Definition create (fuel : nat) (w : world) (can_open : bool) (o : create_opts) : list out_event * res unit :=
  if o_list_compressions o then ([], Ok tt)
  else
    match check_output_path_writable w (o_out o) (o_force o) with
    | Ok _ =>
        match (match o_base o with Some d => chdir w d | None => Ok w end) with
        | Ok w' =>
            match create_concat (o_concat o) with
            | Ok m =>
                if can_open then
                  match fill fuel w w' o with
                  | (c, Ok _) => match finalize c with
                                 | Some a => ([Opened m; Written a], Ok tt)
                                 | None => ([Opened m], Err (EOther (b "jbk")))
                                 end
                  | (_, r) => ([Opened m], r)
                  end
                else ([], Err (EIo IoOther))
            | Err e => ([], Err e)
            | Panic => ([], Panic)
            | Diverge => ([], Diverge)
            end
        | Err e => ([], Err e)
        | Panic => ([], Panic)
        | Diverge => ([], Diverge)
        end
    | r => ([], r)
    end.

(** ** extract, /repo/arx/src/extract.rs *)
(** [get_files_to_extract], lines 78-89; a file list is read relatively to the current directory. *)
Definition files_to_extract (w : world) (file_list : option bytes) (files : list bytes) : res (list bytes) :=
  match file_list with Some fl => bind (read_file w fl) read_lines | None => Ok files end.

(** [--root-dir], extract.rs 107-132: the same code as in mount.rs. *)
Notation extract_root := Fuse.mount_range (only parsing).

(** [extract], lines 93-134, on an archive that could be opened; [outdir] is [-C] or the current
    directory. *)
Definition extract_cmd (w : world) (a : archive) (outdir : option bytes) (files : list bytes) (file_list root_dir : option bytes)
    (recurse : bool) (policy : overwrite) (sched : nat -> turns) (last : turns) : hostfs * res unit :=
  let f := w_fs w in
  match files_to_extract w file_list files with
  | Ok l =>
      let base := match outdir with Some s => (if is_abs s then [] else w_cwd w, pieces s) | None => ([], w_cwd w) end in
      match extract_root a root_dir with
      | Ok rg => extract_range a rg (mkConfig l base recurse policy) sched last f
      | Err e => (f, Err e)
      | Panic => (f, Panic)
      | Diverge => (f, Diverge)
      end
  | Err e => (f, Err e)
  | Panic => (f, Panic)
  | Diverge => (f, Diverge)
  end.
