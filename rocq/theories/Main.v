(** The whole program: one run of the process [arx], /repo/arx/src/main.rs lines 92-151, from its parsed
    arguments to the host, the standard output and the exit status it leaves.  Man pages, completions and
    the help (lines 96-118) are not modelled. *)
From Verif Require Export Output CreateHost Killed.
From Verif Require Import MountCmd.

(** [Commands], lines 53-71, with the options of each (after clap): /repo/arx/src/create.rs 40-161,
    list.rs 139-152, dump.rs 51-70, extract.rs 10-76.  [mount] is in MountCmd.v. *)
Inductive invocation :=
| ICreate (o : create_opts)
| IList (infile : bytes) (stable : option N)
| IDump (infile path : bytes) (output : option bytes)
| IExtract (infile : bytes) (outdir : option bytes) (files : list bytes) (file_list root_dir : option bytes)
    (recurse : bool) (policy : overwrite).

(** [Arx::new] and then the command, for [list] (list.rs 154-177) and [dump] (dump.rs 72-89): the text
    written and the result. *)
Definition on_archive (parse : bytes -> res archive) (w : world) (infile : bytes) (k : archive -> bytes * res unit) : bytes * res unit :=
  match open_archive parse w infile with
  | Ok a => k a
  | Err e => ([], Err e)
  | Panic => ([], Panic)
  | Diverge => ([], Diverge)
  end.
Definition printed (parse : bytes -> res archive) (w : world) (inv : invocation) : option (bool * (bytes * res unit)) :=
  match inv with
  | IList infile stable => Some (true, on_archive parse w infile (fun a => list_cmd a stable))
  | IDump infile p output => Some (false, on_archive parse w infile (fun a => dump w a p output))
  | _ => None
  end.

(** [extract], extract.rs 93-134: the file list is read first (line 94), then the archive is opened. *)
Definition extract_from (parse : bytes -> res archive) (w : world) (infile : bytes) (file_list : option bytes) (files : list bytes) : res archive :=
  let? _ := files_to_extract w file_list files in open_archive parse w infile.
Definition extract_config (w : world) (outdir : option bytes) (l : list bytes) (recurse : bool) (policy : overwrite) : config :=
  mkConfig l (match outdir with Some s => (if is_abs s then [] else w_cwd w, pieces s) | None => ([], w_cwd w) end) recurse policy.

(** One run on the world [w], with the standard output [dv]: the host it leaves, what the standard
    output got, and how it ended; [None]: it was killed (or is still running).  [create] writes nothing
    to standard output, except for [--list-compressions], which is not modelled; [extract] writes
    nothing there. *)
Inductive arx_run (parse : bytes -> res archive) (J : jbk) (w : world) (dv : device) : invocation -> hostfs -> bytes -> option ending -> Prop :=
| arx_create fuel can_open o x g : create_run J fuel w can_open o x g ->
    arx_run parse J w dv (ICreate o) g [] (option_map exit_of x)
| arx_printed inv bu cs r x e : printed parse w inv = Some (bu, (concat cs, r)) -> process dv bu cs r = (x, e) ->
    arx_run parse J w dv inv (w_fs w) x (Some e)
| arx_print_killed inv bu cs r x e k : printed parse w inv = Some (bu, (concat cs, r)) -> process dv bu cs r = (x, e) ->
    arx_run parse J w dv inv (w_fs w) (firstn k x) None
| arx_extract_refused infile outdir files fl root rc pol (r : res unit) :
    (let? _ := extract_from parse w infile fl files in Ok tt) = r -> r <> Ok tt ->
    arx_run parse J w dv (IExtract infile outdir files fl root rc pol) (w_fs w) [] (Some (exit_of r))
| arx_extract infile outdir files fl root rc pol a sched last g r : extract_from parse w infile fl files = Ok a ->
    extract_cmd w a outdir files fl root rc pol sched last = (g, r) ->
    arx_run parse J w dv (IExtract infile outdir files fl root rc pol) g [] (Some (exit_of r))
| arx_extract_started infile outdir files fl root rc pol :
    arx_run parse J w dv (IExtract infile outdir files fl root rc pol) (w_fs w) [] None
| arx_extract_killed infile outdir files fl root rc pol a rg l sched last n j : extract_from parse w infile fl files = Ok a ->
    files_to_extract w fl files = Ok l -> Fuse.mount_range a root = Ok rg ->
    arx_run parse J w dv (IExtract infile outdir files fl root rc pol)
      (killed_run a rg (extract_config w outdir l rc pol) sched last n j (w_fs w)) [] None.

(** Runs one after the other, each finished or killed, from any directory, at any time.  Nothing else
    changes the files in between (attributes and listing orders are those each run sees). *)
Inductive runs (parse : bytes -> res archive) (J : jbk) (f : hostfs) : list invocation -> hostfs -> Prop :=
| runs_none : runs parse J f [] f
| runs_more l g w t dv inv h x e : runs parse J f l g -> w_fs w = at_time t g -> arx_run parse J w dv inv h x e ->
    runs parse J f (l ++ [inv]) h.
