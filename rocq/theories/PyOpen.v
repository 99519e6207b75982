(** [libarx.Arx(path)] and [Arx.extract] of a Python program, on the host: /repo/python/src/arx.rs. *)
From Verif Require Export MountCmd Python.

(** [Arx.__new__], arx.rs 68-76: any error of [arx::Arx::new] is a ValueError; a panic is raised too.
    ([path.extract()] of pyo3 - the string as bytes of a path - is trusted.) *)
Definition py_open (parse : bytes -> res archive) (w : world) (s : bytes) : res archive :=
  match open_archive parse w s with
  | Ok a => Ok a
  | Err _ => Err (EOther (b "Cannot create arx"))
  | Panic => Panic
  | Diverge => Diverge
  end.
