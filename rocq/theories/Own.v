(** [arx create] seeing its own temporary files: /repo/arx/src/create.rs lines 271-347, where the output
    is opened (line 304) before the inputs are read (lines 318-342). *)
From Verif Require Export CreateHost.

(** [create] of Cli.v with two moments of the host: [w] before and [w1] after [SimpleCreator::new]
    (/repo/libarx/src/create/creator.rs lines 16-38), which works.  The file list, by its absolute path
    (lines 289-293), and the inputs are read from the second. *)
Definition create_own (fuel : nat) (w w1 : world) (o : create_opts) : list out_event * res unit :=
  if o_list_compressions o then ([], Ok tt)
  else
    match check_output_path_writable w (o_out o) (o_force o) with
    | Ok _ =>
        match (match o_base o with Some d => chdir w d | None => Ok w end) with
        | Ok w' =>
            match create_concat (o_concat o) with
            | Ok m =>
                match fill fuel w1 (mkWorld (w_fs w1) (w_attr w1) (w_list w1) (w_cwd w')) o with
                | (c, Ok _) => match finalize c with
                               | Some a => ([Opened m; Written a], Ok tt)
                               | None => ([Opened m], Err (EOther (b "jbk")))
                               end
                | (_, r) => ([Opened m], r)
                end
            | Err e => ([], Err e)
            | Panic => ([], Panic)
            | Diverge => ([], Diverge)
            end
        | Err e => ([], Err e)
        | Panic => ([], Panic)
        | Diverge => ([], Diverge)
        end
    | r => ([], r)
    end.

(** The host after some calls of jbk (the contract of CreateHost.v) in the directory [dir]: they make,
    write and remove files there.  The system lists a directory's new names somewhere among the others,
    gives [dir] a new time, and leaves the other attributes and listings as they are. *)
Record opened (dir : path) (names : list bytes) (w w1 : world) : Prop := {
  op_calls : exists s, jbk_calls dir names None (mkWriting (w_fs w) [] []) s /\ w_fs w1 = wr_fs s;
  op_cwd : w_cwd w1 = w_cwd w;
  op_attr : forall q, h_names (w_fs w1) q = h_names (w_fs w) q -> q <> dir -> w_attr w1 q = w_attr w q;
  op_readable : forall q, h_names (w_fs w1) q = h_names (w_fs w) q -> at_readable (w_attr w1 q) = at_readable (w_attr w q);
  op_list : forall q, q <> dir -> w_list w1 q = w_list w q;
  op_list_dir : forall l1, w_list w1 dir = Some l1 -> forall k, h_names (w_fs w) (dir ++ [k]) = None -> h_names (w_fs w1) (dir ++ [k]) <> None -> In k l1 }.
