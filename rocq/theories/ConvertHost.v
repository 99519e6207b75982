(** Model of tar2arx and zip2arx on the host: /repo/tar2arx/src/main.rs and /repo/zip2arx/src/main.rs,
    with the files jbk makes for [SimpleCreator] (see CreateHost.v). *)
From Verif Require Export CreateHost Converters.

(** What surrounds a run: how niffler and [tar], and [zip], read bytes (trusted), standard input and the
    answers of remote hosts. *)
Record surroundings := mkAround {
  ar_tar : bytes -> option (res (list (res tar_member)));
  ar_zip : bytes -> option (list (option zip_member));
  ar_stdin : bytes;
  ar_remote : bytes -> res bytes }.

(** [File::open]: a directory can be opened ([None]); reading it fails.  Simplification: no pipes nor
    devices. *)
Definition open_input (w : world) (s : bytes) : res (option bytes) :=
  match look_str w true s with
  | At _ HDir => Ok None
  | _ => let? d := read_file w s in Ok (Some d)
  end.

(** [String::starts_with] *)
Definition begins_with (s x : bytes) : bool := bytes_eqb (firstn (length x) s) x.

(** tar2arx, lines 327-349: the input and what is found in it.  Simplification: what comes first is read
    by niffler and the rest while converting, from the file opened here, which does not change. *)
Definition tar_input (A : surroundings) (w : world) (o : tar_opts) : res (option (res (list (res tar_member)))) :=
  match to_file o with
  | None => Ok (ar_tar A (ar_stdin A))
  | Some p =>
      if bytes_eqb p (b "-") then Ok (ar_tar A (ar_stdin A))
      else if begins_with p (b "https://") || begins_with p (b "http://") then let? d := ar_remote A p in Ok (ar_tar A d)
      else let? d := open_input w p in Ok (match d with Some d => ar_tar A d | None => None end)
  end.
(** zip2arx, lines 296-297 *)
Definition zip_input (A : surroundings) (w : world) (p : bytes) : res (option (list (option zip_member))) :=
  let? d := open_input w p in Ok (match d with Some d => ar_zip A d | None => None end).

(** A call of one of the two programs. *)
Inductive program := Tar2arx (o : tar_opts) | Zip2arx (p : bytes) (o : zip_opts).

(** What it does (zip2arx opens its input again for the stored members, line 185). *)
Definition program_main (A : surroundings) (w : world) (P : program) (can_open : bool) : list conv_event * res unit :=
  match P with
  | Tar2arx o => tar_main o (tar_input A w o) can_open
  | Zip2arx p o => zip_main o (zip_input A w p) (read_file w p) can_open
  end.
(** The output (tar2arx lines 308-325). *)
Definition program_out (P : program) : option bytes :=
  match P with
  | Tar2arx o => match tar_outfile (to_out o) (to_file o) with Ok s => Some s | _ => None end
  | Zip2arx _ o => Some (zo_out o)
  end.
(** The creator after the loop. *)
Definition program_filled (A : surroundings) (w : world) (P : program) : creator :=
  match P with
  | Tar2arx o => match tar_input A w o with Ok (Some (Ok items)) => fst (tar_members items creator_empty) | _ => creator_empty end
  | Zip2arx p o => match zip_input A w p with Ok (Some items) => fst (zip_members (read_file w p) items creator_empty) | _ => creator_empty end
  end.

(** The states of the host during a run and after it, as [create_run] of CreateHost.v.  Nothing is asked
    about the output before [SimpleCreator::new]. *)
Inductive convert_run (J : jbk) (A : surroundings) (w : world) (can_open : bool) (P : program) : option (res unit) -> hostfs -> Prop :=
| conv_before : convert_run J A w can_open P None (w_fs w)
| conv_refused r :
    program_main A w P (can_open && match program_out P with
                                    | Some s => match out_place w s with Some _ => true | None => false end
                                    | None => false
                                    end) = ([], r) ->
    convert_run J A w can_open P (Some r) (w_fs w)
| conv_opened out m y r dir n s x :
    out_place w out = Some (dir, n) -> program_main A w P can_open = ([COpened out m y], r) ->
    jbk_calls dir (jb_names J m n) None (mkWriting (w_fs w) [] []) s ->
    (x = None \/ (wr_temps s = [] /\ x = Some r)) ->
    convert_run J A w can_open P x (wr_fs s)
| conv_written out m y a dir n s1 s2 x :
    out_place w out = Some (dir, n) -> program_main A w P can_open = ([COpened out m y; CWritten out a], Ok tt) ->
    jbk_calls dir (jb_names J m n) None (mkWriting (w_fs w) [] []) s1 ->
    jbk_calls dir (jb_names J m n) (Some (jb_bytes J m n (program_filled A w P))) s1 s2 ->
    (x = None \/
     (wr_temps s2 = [] /\ (forall k, In k (jb_names J m n) -> In k (wr_done s2)) /\ x = Some (Ok tt)) \/
     (wr_temps s2 = [] /\ (exists k, In k (jb_names J m n) /\ ~ In k (wr_done s2)) /\ exists e, x = Some (Err (EIo e)))) ->
    convert_run J A w can_open P x (wr_fs s2).
