(** What C94 says: archives that are open, and archives that are replaced. *)
From Verif Require Export SpecMain ConvertHost SpecPyHost.

(** A run that is not an extraction asked to overwrite ([create --force] is one). *)
Definition writes_anew (inv : invocation) : Prop :=
  match inv with
  | IExtract _ _ _ _ _ _ pol => pol = Skip \/ pol = Warn \/ pol = Error
  | _ => True
  end.

(** Any such runs of [arx], of tar2arx, of zip2arx and lives of Python creators, one after the other, each
    up to any of its system calls, at any times. *)
Inductive tools (parse : bytes -> res archive) (J : jbk) (f : hostfs) : hostfs -> Prop :=
| tools_none : tools parse J f f
| tools_arx g w t dv inv h x e : tools parse J f g -> w_fs w = at_time t g -> writes_anew inv ->
    arx_run parse J w dv inv h x e -> tools parse J f h
| tools_convert g w t A can_open P x h : tools parse J f g -> w_fs w = at_time t g ->
    convert_run J A w can_open P x h -> tools parse J f h
| tools_python g t fuel s dir n y : tools parse J f g -> py_quiet J fuel s dir n (at_time t g) y -> tools parse J f (ph_fs y).

(** The path [s] is opened: the file it leads to. *)
Definition opens_at (w : world) (s : bytes) (i : N) : Prop := exists q, look_str w true s = At q (HFile i).
