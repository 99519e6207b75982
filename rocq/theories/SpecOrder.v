(** Orders on paths used in statements. *)
From Verif Require Export Api.

(** Component-wise order: at the first difference the smaller name (byte-wise) comes first, a path
    comes before the paths below it. *)
Fixpoint path_cmp (p q : path) : comparison :=
  match p, q with
  | [], [] => Eq
  | [], _ :: _ => Lt
  | _ :: _, [] => Gt
  | a :: p', c :: q' => match bytes_cmp a c with Eq => path_cmp p' q' | r => r end
  end.
Definition path_lt (p q : path) : Prop := path_cmp p q = Lt.

(** Short-lex: shorter paths first, then component-wise. *)
Definition shortlex_lt (p q : path) : Prop :=
  (length p < length q)%nat \/ (length p = length q /\ path_lt p q).
