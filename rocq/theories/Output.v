(** What the commands print, byte by byte: the standard output of [arx list] and [arx dump] on a device
    that may be full, or a pipe that may be closed, and the way the process ends (/repo/arx/src/main.rs
    lines 130-151).  The writers of std (BufWriter, LineWriter) are a contract of the language
    (trusted). *)
From Verif Require Export Cli ListCmd.

(** Where the standard output goes: how many more bytes are taken ([None]: any number), and whether it
    is a pipe whose reader leaves then. *)
Record device := mkDevice { dv_room : option nat; dv_pipe : bool }.

(** A process while it prints: what the device got, the room left, the bytes held by [Stdout] (a
    LineWriter of 1024 bytes) and by the [BufWriter] of 8192 bytes that list.rs line 156 puts in front
    of it. *)
Record printer := mkPrinter { pr_sent : bytes; pr_room : option nat; pr_line : bytes; pr_buf : bytes }.
Definition line_cap : nat := Nat.pow 2 10.
Definition buf_cap : nat := Nat.pow 2 13.

(** [write_all] on the file descriptor.  When the device is full the bytes that fit are taken, and then
    every write fails. *)
Definition send (p : printer) (x : bytes) : printer * bool :=
  match pr_room p with
  | None => (mkPrinter (pr_sent p ++ x) None (pr_line p) (pr_buf p), true)
  | Some r => (mkPrinter (pr_sent p ++ firstn r x) (Some (r - length x)%nat) (pr_line p) (pr_buf p), (length x <=? r)%nat)
  end.

Definition set_line (p : printer) (x : bytes) : printer := mkPrinter (pr_sent p) (pr_room p) x (pr_buf p).
Definition set_buf (p : printer) (x : bytes) : printer := mkPrinter (pr_sent p) (pr_room p) (pr_line p) x.

(** [BufWriter::flush_buf] of the BufWriter in the LineWriter.  After an error the rest stays in the
    buffer; here it is dropped (the device is full: it will not be taken later). *)
Definition line_flush (p : printer) : printer * bool := send (set_line p []) (pr_line p).

(** [BufWriter::write_all] of the same. *)
Definition line_put (p : printer) (x : bytes) : printer * bool :=
  if (length x <? line_cap - length (pr_line p))%nat then (set_line p (pr_line p ++ x), true)
  else
    let (p, ok) := if (line_cap - length (pr_line p) <? length x)%nat then line_flush p else (p, true) in
    if ok then
      if (line_cap <=? length x)%nat then send p x else (set_line p (pr_line p ++ x), true)
    else (p, false).

(** The text up to its last newline, and the rest ([memrchr]). *)
Fixpoint split_last_line (x : bytes) : option (bytes * bytes) :=
  match x with
  | [] => None
  | c :: r => match split_last_line r with
              | Some (u, v) => Some (c :: u, v)
              | None => if c =? 10 then Some ([c], r) else None
              end
  end.
(** [flush_if_completed_line] *)
Definition completed (x : bytes) : bool := match rev x with c :: _ => c =? 10 | [] => false end.

(** [LineWriter::write_all] ([LineWriterShim]). *)
Definition line_write (p : printer) (x : bytes) : printer * bool :=
  match split_last_line x with
  | None =>
      let (p, ok) := if completed (pr_line p) then line_flush p else (p, true) in
      if ok then line_put p x else (p, false)
  | Some (lines, tail) =>
      let (p, ok) := match pr_line p with
                     | [] => send p lines
                     | _ => let (p, ok) := line_put p lines in if ok then line_flush p else (p, false)
                     end in
      if ok then line_put p tail else (p, false)
  end.

(** [BufWriter::flush_buf] in front of the LineWriter.  Simplification: std calls [write] until
    everything is taken; on these devices the same bytes are taken. *)
Definition buf_flush (p : printer) : printer * bool := line_write (set_buf p []) (pr_buf p).
(** [BufWriter::write_all] *)
Definition buf_write (p : printer) (x : bytes) : printer * bool :=
  if (length x <? buf_cap - length (pr_buf p))%nat then (set_buf p (pr_buf p ++ x), true)
  else
    let (p, ok) := if (buf_cap - length (pr_buf p) <? length x)%nat then buf_flush p else (p, true) in
    if ok then
      if (buf_cap <=? length x)%nat then line_write p x else (set_buf p (pr_buf p ++ x), true)
    else (p, false).

(** The writes of a command, up to the first error.  [buffered]: through the BufWriter. *)
Fixpoint print_all (buffered : bool) (p : printer) (cs : list bytes) : printer * bool :=
  match cs with
  | [] => (p, true)
  | x :: r => let (p, ok) := if buffered then buf_write p x else line_write p x in
              if ok then print_all buffered p r else (p, false)
  end.

(** The drop of the BufWriter (list.rs: there is no [flush]) and, at the end of the process, of the
    LineWriter: errors are ignored.  The second component: did a write fail? *)
Definition drop_all (p : printer) : printer * bool :=
  let (p, ok1) := buf_flush p in
  let (p, ok2) := line_flush p in
  (p, ok1 && ok2).

(** How a process ends: [main], main.rs lines 130-151.  A panic ends with 101. *)
Inductive ending := Exits (code : N) | Signal (n : N) | Hangs.
Definition exit_of (r : res unit) : ending :=
  match r with Ok _ => Exits 0 | Err _ => Exits 1 | Panic => Exits 101 | Diverge => Hangs end.

(** A command that writes [cs] and then answers [r], run on a device.  A failed write is an error of the
    command ([?]), unless the process was killed by SIGPIPE, whose default action main.rs lines 137-140
    restores; errors while dropping do not count. *)
Definition process (dv : device) (buffered : bool) (cs : list bytes) (r : res unit) : bytes * ending :=
  let (p, ok) := print_all buffered (mkPrinter [] (dv_room dv) [] []) cs in
  match r, ok with
  | Diverge, true => (pr_sent p, Hangs)
  | _, _ =>
      let (q, ok') := drop_all p in
      if dv_pipe dv && negb (ok && ok') then (pr_sent q, Signal 13)
      else (pr_sent q, if ok then exit_of r else Exits 1)
  end.
