(** Base types shared by the whole model: bytes, byte-wise order, results, UTF-8. *)
From Coq Require Export String Ascii.
From Coq Require Export List Arith NArith ZArith Lia Bool.
From Coq Require Export ZifyBool ZifyNat ZifyN.
Export ListNotations.
Open Scope N_scope.
Open Scope list_scope.
Open Scope bool_scope.

(** A byte is an [N]; a byte string ([Vec<u8>], [&str], [OsStr] bytes) is a list.
    Simplification: values above 255 are not excluded by the type; no function of the
    model produces one and no theorem needs the bound (UTF-8 validity rejects them). *)
Notation byte := N (only parsing).
Notation bytes := (list N).

(** Literals: [b "foo"] is the byte string of a Coq string. *)
Fixpoint b (s : string) : bytes :=
  match s with
  | EmptyString => []
  | String a s' => N_of_ascii a :: b s'
  end.

Fixpoint bytes_eqb (x y : bytes) : bool :=
  match x, y with
  | [], [] => true
  | a :: x', c :: y' => (a =? c) && bytes_eqb x' y'
  | _, _ => false
  end.

(** Byte-wise lexicographic order: Rust's [Ord] on [[u8]] and [str]; the order used both by the
    writer when it sorts on [Property::Name] and by the reader ([partial_cmp] of an array
    property with a slice, /repo/libarx/src/common/mod.rs 51). *)
Fixpoint bytes_cmp (x y : bytes) : comparison :=
  match x, y with
  | [], [] => Eq
  | [], _ :: _ => Lt
  | _ :: _, [] => Gt
  | a :: x', c :: y' =>
      match N.compare a c with
      | Eq => bytes_cmp x' y'
      | r => r
      end
  end.

(** Errors. One constructor per error message or errno the code can return. *)
Inductive ioerr :=
| IoExists | IoNotFound | IoNotDir | IoIsDir | IoLoop | IoBadFd | IoOther.

Inductive err :=
| ENotFound          (* "Cannot found entry"                arx.rs 63, 72 *)
| EParentNotDir      (* "Cannot add a entry to something which is not a directory" *)
| EDirClash          (* "Cannot add a dir when file or link already exists" *)
| EFileClash         (* "Cannot add a file when one already exists" *)
| ELinkClash         (* "Cannot add a link when one already exists" *)
| EKindErr           (* entry.kind() failed *)
| EBadVariant        (* "Invalid variant id" *)
| EBadIndex          (* jbk: entry index outside of the range *)
| ECannotCompare     (* "Cannot compare" *)
| ENotADirectory     (* "No at directory" / "must be a directory" *)
| EUtf8              (* String::from_utf8 failed *)
| EIo (e : ioerr)    (* an io::Error *)
| EFileExists (p : bytes)   (* "File {} already exists." *)
| ELinkExists (p : bytes)   (* "Link {} already exists." *)
| ESomeErrors        (* "Some errors appends during extraction." *)
| ENonRelative | ENonUtf8 | EBadSeparator | ENotInPrefix
| EFoundDir | EFoundLink    (* dump: "Found directory" / "Found link" *)
| EOther (s : bytes).

(** Results: [Ok]/[Err] are Rust's [Result]; [Panic] is any panic, failed [unwrap], [assert!],
    [unreachable!], arithmetic overflow; [Diverge] is only returned when the fuel of a fuelled
    recursion is exhausted (the Rust code would still be running). *)
Inductive res (A : Type) :=
| Ok (a : A)
| Err (e : err)
| Panic
| Diverge.
Arguments Ok {A} a. Arguments Err {A} e. Arguments Panic {A}. Arguments Diverge {A}.

Definition bind {A B} (r : res A) (f : A -> res B) : res B :=
  match r with
  | Ok a => f a
  | Err e => Err e
  | Panic => Panic
  | Diverge => Diverge
  end.
Notation "'let?' x ':=' r 'in' k" := (bind r (fun x => k)) (at level 200, x name, r at level 100, k at level 200, only parsing).

(** Rust's truncating integer casts. *)
Definition as_u8 (x : N) : N := x mod 2^8.
Definition as_u16 (x : N) : N := x mod 2^16.
Definition as_u32 (x : N) : N := x mod 2^32.
Definition as_u64 (x : Z) : N := Z.to_N (x mod 2^64)%Z.

(** [String::from_utf8] / [str::from_utf8]: Unicode table 3-7 (well-formed UTF-8). *)
Definition inr (lo x hi : N) : bool := (lo <=? x) && (x <=? hi).
Definition cont (x : N) : bool := inr 128 x 191.

Fixpoint utf8 (s : bytes) : bool :=
  match s with
  | [] => true
  | c :: r =>
    if c <=? 127 then utf8 r
    else match r with
    | [] => false
    | c1 :: r1 =>
      if inr 194 c 223 then cont c1 && utf8 r1
      else match r1 with
      | [] => false
      | c2 :: r2 =>
        if inr 224 c 239 then
          (if c =? 224 then inr 160 c1 191
           else if c =? 237 then inr 128 c1 159
           else cont c1) && cont c2 && utf8 r2
        else match r2 with
        | [] => false
        | c3 :: r3 =>
          if inr 240 c 244 then
            (if c =? 240 then inr 144 c1 191
             else if c =? 244 then inr 128 c1 143
             else cont c1) && cont c2 && cont c3 && utf8 r3
          else false
        end
      end
    end
  end.

(** Indexing of lists by [N] (never converts a number larger than the list to unary). *)
Definition at_ {A} (l : list A) (i : N) : option A :=
  if i <? N.of_nat (length l) then nth_error l (N.to_nat i) else None.

(** [iota lo n] = [lo; lo+1; ...], n numbers. *)
Fixpoint iota (lo : N) (n : nat) : list N :=
  match n with O => [] | S k => lo :: iota (lo + 1) k end.

#[global] Arguments N.add : simpl never.
#[global] Arguments N.sub : simpl never.
#[global] Arguments N.mul : simpl never.
#[global] Arguments N.of_nat : simpl never.
#[global] Arguments N.to_nat : simpl never.
#[global] Arguments N.compare : simpl never.
#[global] Arguments N.eqb : simpl never.
#[global] Arguments N.ltb : simpl never.
#[global] Arguments N.leb : simpl never.
#[global] Arguments N.modulo : simpl never.
#[global] Arguments N.div : simpl never.
#[global] Arguments N.pow : simpl never.
