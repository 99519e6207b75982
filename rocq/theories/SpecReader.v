(** What the entries returned by the API must show. *)
From Verif Require Export Reader SpecArchive.

(** The common accessors of an entry at index [i] with path [p] and metadata [m]:
    owner and group are cut to 32 bits, rights to 8 bits; the parent is the index of the directory
    that contains the entry. *)
Definition shows_common (a : archive) (c : common) (i : N) (p : path) (m : meta) : Prop :=
  c_idx c = i /\
  (exists dir n, p = dir ++ [n] /\ c_path c = n /\
     match c_parent c with
     | None => dir = []
     | Some j => apath a j dir
     end) /\
  c_owner c = m_uid m mod 2^32 /\
  c_group c = m_gid m mod 2^32 /\
  c_rights c = m_mode m mod 2^8 /\
  c_mtime c = m_mtime m.

(** The entry [e] shows the node [nd] stored at index [i] under path [p]. *)
Definition shows (a : archive) (e : full_entry) (i : N) (p : path) (nd : node) : Prop :=
  match e, fst nd with
  | GFile (c, addr, size), KFile size' addr' => shows_common a c i p (snd nd) /\ addr = addr' /\ size = size'
  | GLink (c, t), KLink t' => shows_common a c i p (snd nd) /\ t = t'
  | GDir r (c, r'), KDir =>
      shows_common a c i p (snd nd) /\ r = r' /\
      (* the range is the children *)
      (forall k, fst r <= k < fst r + snd r <-> exists n, apath a k (p ++ [n]))
  | _, _ => False
  end.
