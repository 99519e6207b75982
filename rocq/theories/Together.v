(** Several creations at the same time on one host: /repo/arx/src/create.rs lines 271-347 with one host
    for each system call of each of them (and of other programs that write with jbk: tar2arx, zip2arx,
    Python creators).  Cli.v and CreateHost.v are the same code alone on a host that does not change. *)
From Verif Require Export Live CreateHost.

(** ** Reading the inputs.  [W]: the hosts that the system calls may see, each call any of them. *)

(** walkdir 2.5.0 (trusted; FsAdder.v has it on one host): a directory is opened, listed, and each name
    has the kind it had at some moment. *)
Inductive live_walk_in (W : world -> Prop) : bytes -> list witem -> Prop :=
| lw_fail w s : W w -> read_dir w s = None -> live_walk_in W s [WFail]
| lw_dir w w' s q names l : W w -> look_str w true s = At q HDir -> W w' -> w_list w' q = Some names ->
    live_walk_names W s q names l -> live_walk_in W s l
with live_walk_names (W : world -> Prop) : bytes -> path -> list bytes -> list witem -> Prop :=
| ln_none s q : live_walk_names W s q [] []
| ln_dir w s q n r l l' : W w -> h_names (w_fs w) (q ++ [n]) = Some HDir -> live_walk_in W (path_join s n) l ->
    live_walk_names W s q r l' -> live_walk_names W s q (n :: r) (WEntry (path_join s n) :: l ++ l')
| ln_other w s q n r l' : W w -> h_names (w_fs w) (q ++ [n]) <> Some HDir ->
    live_walk_names W s q r l' -> live_walk_names W s q (n :: r) (WEntry (path_join s n) :: l').

(** What a look at the root of the walk says: a directory to enter, something else, nothing. *)
Inductive live_root (W : world -> Prop) (s : bytes) : option bool -> Prop :=
| lr_plain w q n : W w -> look_str w false s = At q n -> (forall t m, n <> HLink t m) ->
    live_root W s (Some (match n with HDir => true | _ => false end))
| lr_link w q t m w' q' n' : W w -> look_str w false s = At q (HLink t m) -> W w' -> look_str w' true s = At q' n' ->
    live_root W s (Some (match n' with HDir => true | _ => false end))
| lr_broken w q t m w' : W w -> look_str w false s = At q (HLink t m) -> W w' -> (forall q' n', look_str w' true s <> At q' n') ->
    live_root W s None
| lr_none w : W w -> (forall q n, look_str w false s <> At q n) -> live_root W s None.
Inductive live_walk (W : world -> Prop) (s : bytes) (recurse : bool) : list witem -> Prop :=
| lk_enter l : live_root W s (Some true) -> recurse = true -> live_walk_in W s l -> live_walk W s recurse (WEntry s :: l)
| lk_stay k : live_root W s (Some k) -> k && recurse = false -> live_walk W s recurse [WEntry s]
| lk_fail : live_root W s None -> live_walk W s recurse [WFail].

(** [FsAdder::add_from_path] (fs_adder.rs lines 164-197) for each input, create.rs lines 335-341; the
    paths are added as in Live.v. *)
Inductive live_infiles (W : world -> Prop) (pre : bytes) (recurse : bool) : list bytes -> creator -> creator -> res unit -> Prop :=
| li_none c : live_infiles W pre recurse [] c c (Ok tt)
| li_more s l its H t t' c c1 c2 r : live_walk W s recurse its -> (forall k, W (hs_at H k)) ->
    live_each H t pre (map (fun p => (p, std_path_eqb p s)) (before_fail its)) c = (t', c1, Ok tt) ->
    live_infiles W pre recurse l c1 c2 r -> live_infiles W pre recurse (s :: l) c c2 r
| li_failed s l its H t t' c c1 r : live_walk W s recurse its -> (forall k, W (hs_at H k)) ->
    live_each H t pre (map (fun p => (p, std_path_eqb p s)) (before_fail its)) c = (t', c1, r) -> r <> Ok tt ->
    live_infiles W pre recurse (s :: l) c c1 r.

(** [fill] of Cli.v (create.rs lines 315-342).  [W0]: the hosts, seen from the first directory (for the
    file list, by its absolute path), [W]: seen from the directory of [-C].  The list is opened at one
    moment and read at another one. *)
Definition list_read (w w' : world) (fl : bytes) : res bytes :=
  match look_str w true fl with
  | At q (HFile i) => if at_readable (w_attr w q) then Ok (h_data (w_fs w') i) else Err (EIo IoOther)
  | At _ HDir => Err (EIo IoIsDir)
  | At _ (HLink _ _) => Err (EIo IoLoop)
  | Missing _ => Err (EIo IoNotFound)
  | Bad e => Err (EIo e)
  end.
Inductive live_fill (W0 W : world -> Prop) (o : create_opts) : creator -> res unit -> Prop :=
| lf_list fl w w' files H t t' c r : o_file_list o = Some fl -> W0 w -> W0 w' -> bind (list_read w w' fl) read_lines = Ok files ->
    (forall k, W (hs_at H k)) ->
    live_each H t (match o_prefix o with Some s => s | None => [] end) (map (fun s => (s, o_follow o)) files) creator_empty = (t', c, r) ->
    live_fill W0 W o c r
| lf_no_list fl w w' : o_file_list o = Some fl -> W0 w -> W0 w' -> (forall files, bind (list_read w w' fl) read_lines <> Ok files) ->
    live_fill W0 W o creator_empty (bind (list_read w w' fl) (fun d => bind (read_lines d) (fun _ => Ok tt)))
| lf_absolute : o_file_list o = None -> existsb is_abs (o_infiles o) = true ->
    live_fill W0 W o creator_empty (Err (EOther (b "must be relative")))
| lf_missing w s : o_file_list o = None -> existsb is_abs (o_infiles o) = false -> W w -> In s (o_infiles o) -> exists_path w s = false ->
    live_fill W0 W o creator_empty (Err (EOther (b "doesn't exist")))
| lf_inputs c r : o_file_list o = None -> existsb is_abs (o_infiles o) = false ->
    (forall s, In s (o_infiles o) -> exists w, W w /\ exists_path w s = true) ->
    live_infiles W (match o_prefix o with Some s => s | None => [] end) (o_recurse o) (o_infiles o) creator_empty c r ->
    live_fill W0 W o c r.

(** ** The host and the creations at work *)

(** What the system tells of a host besides names and bytes: the attributes and the listings. *)
Record told := mkTold { tl_attr : hostfs -> path -> FsAdder.attr; tl_list : hostfs -> path -> option (list bytes) }.
Definition world_of (T : told) (cwd : path) (f : hostfs) : world := mkWorld f (tl_attr T f) (tl_list T f) cwd.

(** A creation at work: what it was asked ([None]: another program than [arx create]), the directories it
    was started and runs in, the place of its output; what [finalize] was called with; its temporary files
    and the files it has put in place. *)
Record creation := mkCreation {
  ct_opts : option create_opts; ct_from : path; ct_in : path; ct_mode : concat_mode; ct_dir : path; ct_name : bytes;
  ct_sealed : option creator; ct_temps : list (path * N); ct_done : list bytes }.
(** The host, the hosts there were (this one is the first), the creations. *)
Record together := mkTogether { tg_fs : hostfs; tg_past : list hostfs; tg_all : list creation }.

Definition past_world (T : told) (past : list hostfs) (cwd : path) (w : world) : Prop := exists f, In f past /\ w = world_of T cwd f.

(** One step of one of them.  [asked]: the files that the creations are asked for; temporary files have
    other names (random ones).  A creation that fails or is dropped removes its temporary files. *)
Inductive together_step (J : jbk) (T : told) (asked : path -> Prop) : together -> together -> Prop :=
| tg_start f past l o cwd dir n m w' : (* create.rs lines 277-314 *)
    o_list_compressions o = false -> check_output_path_writable (world_of T cwd f) (o_out o) (o_force o) = Ok tt ->
    out_place (world_of T cwd f) (o_out o) = Some (dir, n) -> create_concat (o_concat o) = Ok m ->
    match o_base o with Some d => chdir (world_of T cwd f) d = Ok w' | None => w' = world_of T cwd f end ->
    (forall k, In k (jb_names J m n) -> asked (dir ++ [k])) ->
    together_step J T asked (mkTogether f past l) (mkTogether f past (l ++ [mkCreation (Some o) cwd (w_cwd w') m dir n None [] []]))
| tg_start_other f past l dir n m : (forall k, In k (jb_names J m n) -> asked (dir ++ [k])) ->
    together_step J T asked (mkTogether f past l) (mkTogether f past (l ++ [mkCreation None [] [] m dir n None [] []]))
| tg_call f past l1 l2 o cwd cwd' m dir n sealed ts dn f' ts' dn' : (* jbk, see CreateHost.v *)
    jbk_call dir (jb_names J m n) (option_map (jb_bytes J m n) sealed) (mkWriting f ts dn) (mkWriting f' ts' dn') ->
    (forall q i, In (q, i) ts' -> In (q, i) ts \/ ~ asked q) ->
    together_step J T asked (mkTogether f past (l1 ++ mkCreation o cwd cwd' m dir n sealed ts dn :: l2))
      (mkTogether f' (f' :: past) (l1 ++ mkCreation o cwd cwd' m dir n sealed ts' dn' :: l2))
| tg_seal f past l1 l2 o cwd cwd' m dir n ts dn c a : (* create.rs lines 315-344 *)
    live_fill (past_world T past cwd) (past_world T past cwd') o c (Ok tt) -> finalize c = Some a ->
    together_step J T asked (mkTogether f past (l1 ++ mkCreation (Some o) cwd cwd' m dir n None ts dn :: l2))
      (mkTogether f past (l1 ++ mkCreation (Some o) cwd cwd' m dir n (Some c) ts dn :: l2))
| tg_seal_other f past l1 l2 cwd cwd' m dir n ts dn c a : finalize c = Some a ->
    together_step J T asked (mkTogether f past (l1 ++ mkCreation None cwd cwd' m dir n None ts dn :: l2))
      (mkTogether f past (l1 ++ mkCreation None cwd cwd' m dir n (Some c) ts dn :: l2)).
Inductive together_steps (J : jbk) (T : told) (asked : path -> Prop) : together -> together -> Prop :=
| ts_none s : together_steps J T asked s s
| ts_more s t u : together_steps J T asked s t -> together_step J T asked t u -> together_steps J T asked s u.
