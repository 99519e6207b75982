(** What a text is read as when it may not be UTF-8 (Unicode, U+FFFD substitution of maximal subparts). *)
From Verif Require Export Base.

(** The UTF-8 form of one character: well-formed, and no shorter beginning of it is. *)
Definition one_char (u : bytes) : Prop :=
  u <> [] /\ utf8 u = true /\ forall x y, u = x ++ y -> x <> [] -> y <> [] -> utf8 x = false.
Definition begins_char (x : bytes) : Prop := exists y, one_char (x ++ y).

(** Characters are kept.  Where there is none, the longest beginning of a character, or else one byte,
    becomes U+FFFD. *)
Inductive reads_as : bytes -> bytes -> Prop :=
| reads_end : reads_as [] []
| reads_char u s t : one_char u -> reads_as s t -> reads_as (u ++ s) (u ++ t)
| reads_bad x s t : (forall u v, x ++ s = u ++ v -> ~ one_char u) ->
    (exists c, x = [c]) \/ begins_char x -> x <> [] ->
    (forall c v, s = c :: v -> ~ begins_char (x ++ [c])) ->
    reads_as s t -> reads_as (x ++ s) ([239; 191; 189] ++ t).
