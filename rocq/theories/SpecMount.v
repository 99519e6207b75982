(** Resolving a path in a mount, as a kernel does: one look-up per component. *)
From Verif Require Export SpecFuse.

(** What resolving a path gives: an inode and its type, or an errno. *)
Inductive found := Reached (ino : N) (k : ftype) | Refused (e : errno).

(** [resolves a root h s q o]: the requests [h] were served since the mount and left the server in
    state [s]; among them, in order, are the look-ups that resolve the path [q] from the root of
    the mount, each in the directory the previous one returned, with outcome [o].  Any other
    requests may come before, between and after them.  A component below something that is not a
    directory is refused by the kernel itself, as is anything below a failure; symbolic links are not
    followed (following one is resolving another path). *)
Inductive resolves (a : archive) (root : range) : list (request * res reply) -> fs -> path -> found -> Prop :=
| res_root h s : served a root h s -> resolves a root h s [] (Reached 1 FtDir)
| res_other h s p o q s' r : resolves a root h s p o -> step a root s q = (s', Ok r) ->
    resolves a root (h ++ [(q, Ok r)]) s' p o
| res_down h s p ino nm s' t : resolves a root h s p (Reached ino FtDir) ->
    step a root s (Lookup ino nm) = (s', Ok (REntry t)) ->
    resolves a root (h ++ [(Lookup ino nm, Ok (REntry t))]) s' (p ++ [nm]) (Reached (at_ino t) (at_kind t))
| res_error h s p ino nm s' e : resolves a root h s p (Reached ino FtDir) ->
    step a root s (Lookup ino nm) = (s', Ok (RError e)) ->
    resolves a root (h ++ [(Lookup ino nm, Ok (RError e))]) s' (p ++ [nm]) (Refused e)
| res_not_dir h s p ino k nm : resolves a root h s p (Reached ino k) -> k <> FtDir ->
    resolves a root h s (p ++ [nm]) (Refused ENOTDIR)
| res_failed h s p e nm : resolves a root h s p (Refused e) -> resolves a root h s (p ++ [nm]) (Refused e).
