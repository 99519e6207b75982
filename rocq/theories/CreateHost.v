(** Model of what [arx create] does to the host: /repo/arx/src/create.rs with the files jbk makes for
    [SimpleCreator] (/repo/libarx/src/create/creator.rs lines 16-44).  How jbk writes is a contract of
    the dependency (trusted): every file is written under a fresh temporary name in the directory of the
    output (made exclusively, removed when the creator is dropped) and renamed to its final name by
    [finalize], once complete. *)
From Verif Require Export Cli.

(** The names of the files of an archive (in the directory of the output; one file, or several for
    [--two-files] and [--no-concat]) and their complete bytes, for an output named [n]. *)
Record jbk := mkJbk {
  jb_names : concat_mode -> bytes -> list bytes;
  jb_bytes : concat_mode -> bytes -> creator -> bytes -> bytes }.

(** The directory and the name of the output (create.rs line 285): [out_file.parent()] and
    [out_file.file_name()]; ".." is not a name. *)
Definition out_place (w : world) (s : bytes) : option (path * bytes) :=
  match rev (filter not_dot (pieces s)) with
  | [] => None
  | n :: r =>
      if bytes_eqb n (b "..") then None
      else match look (w_fs w) true (if is_abs s then [] else w_cwd w, rev r) with
           | At dir HDir => Some (dir, n)
           | _ => None
           end
  end.

(** Creation in progress: the host, the temporary files (their names and inodes) and the final names
    already given. *)
Record writing := mkWriting { wr_fs : hostfs; wr_temps : list (path * N); wr_done : list bytes }.

(** [open] with O_CREAT|O_EXCL of a free name. *)
Definition make_temp (f : hostfs) (q : path) : hostfs :=
  let i := h_next f in touch (set_data (bump (set_name f q (Some (HFile i)))) i []) i.
(** [rename] of a file over a name that is not a directory. *)
Definition rename_file (f : hostfs) (q t : path) : hostfs := set_name (set_name f q None) t (h_names f q).
Definition without (q : path) (l : list (path * N)) : list (path * N) := filter (fun x => negb (path_eqb' (fst x) q)) l.

(** One system call of jbk (contract, see above).  [final] is [None] until [finalize] is called. *)
Inductive jbk_call (dir : path) (names : list bytes) (final : option (bytes -> bytes)) : writing -> writing -> Prop :=
| call_temp f ts dn n : ~ In n names -> h_names f (dir ++ [n]) = None ->
    jbk_call dir names final (mkWriting f ts dn) (mkWriting (make_temp f (dir ++ [n])) ((dir ++ [n], h_next f) :: ts) dn)
| call_write f ts dn q i d : In (q, i) ts ->
    jbk_call dir names final (mkWriting f ts dn) (mkWriting (touch (set_data f i d) i) ts dn)
| call_rename f ts dn q i n content : final = Some content -> In (q, i) ts -> In n names ->
    h_data f i = content n -> h_names f (dir ++ [n]) <> Some HDir ->
    jbk_call dir names final (mkWriting f ts dn) (mkWriting (rename_file f q (dir ++ [n])) (without q ts) (n :: dn))
| call_remove f ts dn q i : In (q, i) ts ->
    jbk_call dir names final (mkWriting f ts dn) (mkWriting (set_name f q None) (without q ts) dn).
Inductive jbk_calls (dir : path) (names : list bytes) (final : option (bytes -> bytes)) : writing -> writing -> Prop :=
| calls_none s : jbk_calls dir names final s s
| calls_more s t u : jbk_calls dir names final s t -> jbk_call dir names final t u -> jbk_calls dir names final s u.

(** The states of the host during [create] (create.rs lines 271-347), and after it.  [None]: it is
    running, or was killed there; [Some r]: it returned (or aborted) and what it owned was dropped.
    The inputs do not change during the run (see Cli.v). *)
Inductive create_run (J : jbk) (fuel : nat) (w : world) (can_open : bool) (o : create_opts) : option (res unit) -> hostfs -> Prop :=
| run_before : create_run J fuel w can_open o None (w_fs w)
| run_refused r :
    create fuel w (can_open && match out_place w (o_out o) with Some _ => true | None => false end) o = ([], r) ->
    create_run J fuel w can_open o (Some r) (w_fs w)
| run_opened m r dir n s x :
    out_place w (o_out o) = Some (dir, n) -> create fuel w can_open o = ([Opened m], r) ->
    jbk_calls dir (jb_names J m n) None (mkWriting (w_fs w) [] []) s ->
    (x = None \/ (wr_temps s = [] /\ x = Some r)) ->
    create_run J fuel w can_open o x (wr_fs s)
| run_written m a c w' dir n s1 s2 x :
    out_place w (o_out o) = Some (dir, n) -> create fuel w can_open o = ([Opened m; Written a], Ok tt) ->
    match o_base o with Some d => chdir w d = Ok w' | None => w' = w end ->
    fill fuel w w' o = (c, Ok tt) ->
    jbk_calls dir (jb_names J m n) None (mkWriting (w_fs w) [] []) s1 ->
    jbk_calls dir (jb_names J m n) (Some (jb_bytes J m n c)) s1 s2 ->
    (x = None \/
     (wr_temps s2 = [] /\ (forall k, In k (jb_names J m n) -> In k (wr_done s2)) /\ x = Some (Ok tt)) \/
     (wr_temps s2 = [] /\ (exists k, In k (jb_names J m n) /\ ~ In k (wr_done s2)) /\ exists e, x = Some (Err (EIo e)))) ->
    create_run J fuel w can_open o x (wr_fs s2).
