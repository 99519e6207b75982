(** The programs that mount an archive: [arx mount] (/repo/arx/src/mount.rs), [mount.fuse.arx]
    (/repo/arx/src/bin/mount_fuse_arx.rs) and [auto_mount] (/repo/arx/src/bin/auto_mount.rs), and the
    statistics of a mount.  Serving the requests of a mount is modelled in [Fuse]. *)
From Verif Require Export Cli ListCmd.
From Verif Require Import Fuse.

(** ** Statistics *)
(** [StatCounter], mount.rs 7-17. *)
Record counters := mkCounters {
  nb_lookup : N; nb_getattr : N; nb_readlink : N; nb_open : N; nb_read : N;
  nb_release : N; nb_opendir : N; nb_readdir : N; nb_releasedir : N }.
(** mount.rs 20-32 *)
Definition counters_new : counters := mkCounters 0 0 0 0 0 0 0 0 0.

(** The call each handler makes first (arx_fs.rs 464, 506, 528, 546, 594, 613, 628, 653, 720), with
    mount.rs 35-70.  [+= 1] on a u64 that overflows panics. *)
Definition count (c : counters) (q : request) : res counters :=
  let 'mkCounters l g k o r e p y z := c in
  match q with
  | Lookup _ _ => let? l := u64 (l + 1) in Ok (mkCounters l g k o r e p y z)
  | Getattr _ => let? g := u64 (g + 1) in Ok (mkCounters l g k o r e p y z)
  | Readlink _ => let? k := u64 (k + 1) in Ok (mkCounters l g k o r e p y z)
  | Open _ => let? o := u64 (o + 1) in Ok (mkCounters l g k o r e p y z)
  | Read _ _ _ => let? r := u64 (r + 1) in Ok (mkCounters l g k o r e p y z)
  | Release _ => let? e := u64 (e + 1) in Ok (mkCounters l g k o r e p y z)
  | Opendir _ => let? p := u64 (p + 1) in Ok (mkCounters l g k o r e p y z)
  | Readdir _ _ _ => let? y := u64 (y + 1) in Ok (mkCounters l g k o r e p y z)
  | Releasedir _ => let? z := u64 (z + 1) in Ok (mkCounters l g k o r e p y z)
  end.

(** A request served with statistics (arx_fs.rs 456-722): the counter, then the handler. *)
Definition step_counted (a : archive) (root : range) (s : fs * counters) (q : request) : (fs * counters) * res reply :=
  match count (snd s) q with
  | Ok c => let (s', r) := step a root (fst s) q in ((s', c), r)
  | Err e => (s, Err e)
  | Panic => (s, Panic)
  | Diverge => (s, Diverge)
  end.

(** [Display], mount.rs 78-91. *)
Definition show_counters (c : counters) : bytes :=
  let line n v := b n ++ b ": " ++ dec v ++ [10] in
  line "nb_lookup"%string (nb_lookup c) ++ line "nb_getattr"%string (nb_getattr c) ++
  line "nb_readlink"%string (nb_readlink c) ++ line "nb_open"%string (nb_open c) ++
  line "nb_read"%string (nb_read c) ++ line "nb_release"%string (nb_release c) ++
  line "nb_opendir"%string (nb_opendir c) ++ line "nb_readdir"%string (nb_readdir c) ++
  line "nb_releasedir"%string (nb_releasedir c).

(** ** Mounting *)
(** [fuser::MountOption], those that occur. *)
Inductive mount_option := RO | FSName (n : bytes) | Subtype (s : bytes) | DefaultPermissions.
(** [mount_options], arx_fs.rs 411-418. *)
Definition mount_options (n : bytes) : list mount_option := [RO; FSName n; Subtype (b "arx"); DefaultPermissions].

(** What [ArxFs::mount] (arx_fs.rs 420-424) hands to [fuser::mount2]: the archive and the range it
    serves, the options, and the mount point (from "/", or from the current directory when the program
    passes a relative path). *)
Record attached := mkAttached { at_archive : archive; at_range : range; at_options : list mount_option; at_point : opath }.

(** The environment of a run: the random strings of [tempfile] and how many it tries (65536 in
    the version of Cargo.lock), whether the process can become a
    daemon, and a session of [fuser::mount2]: what the rest of the system does to the file system
    until the file system is unmounted, and how it ends (an error also when it cannot be mounted). *)
Record mount_env := mkEnv {
  en_random : nat -> bytes;
  en_tries : nat;
  en_daemon : bool;
  en_session : attached -> hostfs -> hostfs * res unit }.

(** A run as seen from outside: what was mounted and the file system at that time, the exit status
    the caller of the command sees, and the file system when every process of the run has ended. *)
Record mount_run := mkRun { mr_mounted : option (attached * hostfs); mr_status : res unit; mr_after : hostfs }.

(** [Arx::new] on a path: the file is read and parsed by jbk ([parse]). *)
Definition open_archive (parse : bytes -> res archive) (w : world) (s : bytes) : res archive :=
  match look_str w true s with
  | At _ (HFile i) => parse (h_data (w_fs w) i)
  | At _ _ => Err (EIo IoIsDir)
  | Missing _ => Err (EIo IoNotFound)
  | Bad e => Err (EIo e)
  end.

(** [current_dir().unwrap().join(p)] as a string (mount.rs 138-139, mount_fuse_arx.rs 28-29,
    auto_mount.rs 28-29). *)
Definition abs_string (w : world) (s : bytes) : bytes :=
  if is_abs s then s else path_join (sep :: join (w_cwd w)) s.

(** [Path::file_name] and [Path::parent] of that path, as components from "/". *)
Definition abs_file_name (w : world) (s : bytes) : option bytes :=
  match rev (out_comps w s) with
  | [] => None
  | n :: _ => if bytes_eqb n (b "..") then None else Some n
  end.
Definition abs_parent (w : world) (s : bytes) : option (list bytes) :=
  match out_comps w s with [] => None | c :: r => Some (removelast (c :: r)) end.

(** [tempfile::TempDir::with_prefix_in]: names are tried until one does not exist yet, at most
    [tries] times. *)
Fixpoint tempdir (f : hostfs) (dir : list bytes) (prefix : bytes) (random : nat -> bytes) (k : nat) (tries : nat)
    : hostfs * (list bytes + ioerr) :=
  match tries with
  | O => (f, Datatypes.inr IoExists)
  | S n =>
      let p := dir ++ [prefix ++ random k] in
      match mkdir f ([], p) with
      | (f', None) => (f', inl p)
      | (_, Some IoExists) => tempdir f dir prefix random (S k) n
      | (_, Some e) => (f, Datatypes.inr e)
      end
  end.

Fixpoint below' (q p : path) : bool :=
  match q, p with
  | [], _ => true
  | x :: q', y :: p' => bytes_eqb x y && below' q' p'
  | _, [] => false
  end.
(** Dropping the [TempDir]: [remove_dir_all], whose errors are ignored. *)
Definition tempdir_drop (f : hostfs) (p : list bytes) : hostfs :=
  match look f false ([], p) with
  | At q _ => mkHost (fun r => if below' q r then None else h_names f r) (h_data f) (h_mtime f) (h_next f) (h_dirtime f) (h_now f)
  | _ => f
  end.

(** [arx mount], mount.rs 117-180.  [daemonize.start()] (162-170) ends the calling process with status
    0 once the daemon is on its own: whatever comes after, the caller has seen a success. *)
Definition mount_cmd (parse : bytes -> res archive) (w : world) (env : mount_env)
    (infile : bytes) (mountdir root_dir : option bytes) (foreground : bool) : mount_run :=
  let f := w_fs w in
  let stop {A} (r : res A) (g : hostfs) := mkRun None (match r with Ok _ => Ok tt | Err e => Err e | Panic => Panic | Diverge => Diverge end) g in
  (* 162-177, from the file system [g] with the mount point [point] and the cleaning [drop] *)
  let go (a : archive) (rg : range) (g : hostfs) (point : opath) (drop : hostfs -> hostfs) :=
    if negb foreground && negb (en_daemon env) then stop (@Err unit (EOther (b "Failed to daemonize."))) (drop g)
    else
      let status r := if foreground then r else Ok tt in
      if utf8 (abs_string w infile) then
        let m := mkAttached a rg (mount_options (abs_string w infile)) point in
        let (h, r) := en_session env m g in
        mkRun (Some (m, g)) (status r) (drop h)
      else mkRun None (status Panic) (drop g) in
  match open_archive parse w infile with
  | Ok a =>
      match mount_range a root_dir with
      | Ok rg =>
          match mountdir with
          | Some m => go a rg f (if is_abs m then [] else w_cwd w, pieces m) (fun h => h)
          | None =>
              match abs_file_name w infile, abs_parent w infile with
              | Some n, Some dir =>
                  match tempdir f dir (n ++ b ".") (en_random env) 0 (en_tries env) with
                  | (g, inl p) => go a rg g ([], p) (fun h => tempdir_drop h p)
                  | (g, Datatypes.inr e) => stop (@Err unit (EIo e)) g
                  end
              | _, _ => stop (@Panic unit) f
              end
          end
      | r => stop r f
      end
  | r => stop r f
  end.

(** [mount] of mount_fuse_arx.rs 20-33 and auto_mount.rs 18-32: the whole archive, in the foreground. *)
Definition mount_whole (parse : bytes -> res archive) (w : world) (env : mount_env) (infile mountdir : bytes) : mount_run :=
  let f := w_fs w in
  match open_archive parse w infile with
  | Ok a =>
      if utf8 (abs_string w infile) then
        let m := mkAttached a (a_root a) (mount_options (abs_string w infile)) (if is_abs mountdir then [] else w_cwd w, pieces mountdir) in
        let (h, r) := en_session env m f in
        mkRun (Some (m, f)) r h
      else mkRun None Panic f
  | Err e => mkRun None (Err e) f
  | Panic => mkRun None Panic f
  | Diverge => mkRun None Diverge f
  end.

(** [main] of mount_fuse_arx.rs 37-54: [options] are the values of [-o], as given. *)
Definition mount_fuse_main (parse : bytes -> res archive) (w : world) (env : mount_env) (infile mountdir : bytes) (options : list bytes) : mount_run :=
  if existsb (bytes_eqb (b "rw")) options then mkRun None (Err (EOther (b "arx cannot be mounted rw"))) (w_fs w)
  else mount_whole parse w env infile mountdir.

(** [main] of auto_mount.rs 36-70: the archive is the executable itself, when its path is known. *)
Definition auto_mount_main (parse : bytes -> res archive) (w : world) (env : mount_env) (exe : res bytes) (mountdir : bytes) : mount_run :=
  match exe with
  | Ok e => mount_whole parse w env e mountdir
  | r => mkRun None (bind r (fun _ => Ok tt)) (w_fs w)
  end.
