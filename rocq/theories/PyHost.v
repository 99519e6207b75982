(** Model of a Python [Creator] on the host: /repo/python/src/creator.rs with the file jbk makes for
    [SimpleCreator] (see CreateHost.v), while the rest of the Python program and other programs change the
    host too. *)
From Verif Require Export CreateHost Python.

(** From [Creator(outfile)] on.  [Closing t d]: [__exit__] called [finalize]; the file [d] goes to [t];
    [renamed] tells if it is there.  [Closed o]: nothing is owned any more; [o] is the answer of that
    [__exit__] ([None]: the object was dropped without it). *)
Inductive stage :=
| Working
| Closing (t : path) (d : bytes) (renamed : bool)
| Closed (o : option (res unit)).

(** The host, the temporary files of this creator, the methods called on it so far. *)
Record pyhost := mkPyHost { ph_fs : hostfs; ph_temps : list (path * N); ph_calls : list pycall; ph_stage : stage }.

(** The others do not touch the temporary files of this creator: their names, their bytes; they give them
    no other name.  Inodes are never given twice while in use. *)
Definition leaves_alone (temps : list (path * N)) (f g : hostfs) : Prop :=
  (forall q i, In (q, i) temps ->
     h_names g q = h_names f q /\ h_data g i = h_data f i /\ forall p, h_names g p = Some (HFile i) -> h_names f p = Some (HFile i)) /\
  h_next f <= h_next g /\ (forall q i, h_names g q = Some (HFile i) -> i < h_next g).

(** [Creator::new], lines 24-40, for an output in [dir] named [n]. *)
Definition py_start (f : hostfs) : pyhost := mkPyHost f [] [] Working.

(** One step of this creator: a method returns, or a system call of jbk (contract of CreateHost.v; jbk
    works in threads, between the methods too).  [s] is [outfile] as given; [finalize] gets it again (line
    66): a relative path may then be resolved from the directory the program is in by now. *)
Inductive py_own (J : jbk) (fuel : nat) (s : bytes) (dir : path) (n : bytes) : pyhost -> pyhost -> Prop :=
| own_method f ts h k st os st' r :
    py_run fuel (mkPy false (Some creator_empty)) h = (st, [], os) -> py_step fuel st k = (st', None, r) ->
    match k with PyAdd w _ _ => w_fs w = f | _ => True end ->
    py_own J fuel s dir n (mkPyHost f ts h Working) (mkPyHost f ts (h ++ [k]) Working)
| own_exit f ts h exc st os st' a c w t :
    py_run fuel (mkPy false (Some creator_empty)) h = (st, [], os) -> py_creator st = Some c ->
    py_step fuel st (PyExit exc) = (st', Some a, Ok tt) ->
    (t = dir ++ [n] \/ (w_fs w = f /\ exists dir', out_place w s = Some (dir', n) /\ t = dir' ++ [n])) ->
    py_own J fuel s dir n (mkPyHost f ts h Working) (mkPyHost f ts (h ++ [PyExit exc]) (Closing t (jb_bytes J OneFile n c n) false))
| own_temp f ts h g k : (forall o, g <> Closed o) -> k <> n -> h_names f (dir ++ [k]) = None ->
    py_own J fuel s dir n (mkPyHost f ts h g) (mkPyHost (make_temp f (dir ++ [k])) ((dir ++ [k], h_next f) :: ts) h g)
| own_write f ts h g q i d : In (q, i) ts ->
    py_own J fuel s dir n (mkPyHost f ts h g) (mkPyHost (touch (set_data f i d) i) ts h g)
| own_rename f ts h t d q i : In (q, i) ts -> h_data f i = d -> h_names f t <> Some HDir ->
    py_own J fuel s dir n (mkPyHost f ts h (Closing t d false)) (mkPyHost (rename_file f q t) (without q ts) h (Closing t d true))
| own_remove f ts h g q i : In (q, i) ts ->
    py_own J fuel s dir n (mkPyHost f ts h g) (mkPyHost (set_name f q None) (without q ts) h g)
| own_closed f h t d renamed :
    py_own J fuel s dir n (mkPyHost f [] h (Closing t d renamed))
      (mkPyHost f [] h (Closed (Some (if renamed then Ok tt else Err (EOther (b "RuntimeError"))))))
| own_dropped f h :
    py_own J fuel s dir n (mkPyHost f [] h Working) (mkPyHost f [] h (Closed None))
| own_after f h k r : (* "Creator already finalized" *)
    py_own J fuel s dir n (mkPyHost f [] h (Closed (Some r))) (mkPyHost f [] (h ++ [k]) (Closed (Some r))).

(** A step of the others. *)
Inductive py_others : pyhost -> pyhost -> Prop :=
| others f ts h g f' : leaves_alone ts f f' -> py_others (mkPyHost f ts h g) (mkPyHost f' ts h g).

(** What can happen from [Creator(outfile)] on. *)
Inductive py_life (J : jbk) (fuel : nat) (s : bytes) (dir : path) (n : bytes) (f0 : hostfs) : pyhost -> Prop :=
| life_start : py_life J fuel s dir n f0 (py_start f0)
| life_own x y : py_life J fuel s dir n f0 x -> py_own J fuel s dir n x y -> py_life J fuel s dir n f0 y
| life_others x y : py_life J fuel s dir n f0 x -> py_others x y -> py_life J fuel s dir n f0 y.
(** The same while nobody else changes the host. *)
Inductive py_quiet (J : jbk) (fuel : nat) (s : bytes) (dir : path) (n : bytes) (f0 : hostfs) : pyhost -> Prop :=
| quiet_start : py_quiet J fuel s dir n f0 (py_start f0)
| quiet_own x y : py_quiet J fuel s dir n f0 x -> py_own J fuel s dir n x y -> py_quiet J fuel s dir n f0 y.
