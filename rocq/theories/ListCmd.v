(** Model of [arx list], /repo/arx/src/list.rs and /repo/arx/src/light_path.rs.
    Simplification: writing to the standard output always succeeds. *)
From Coq Require Decimal DecimalN.
From Verif Require Export Reader.

(** [Display] of an unsigned integer: its decimal digits. *)
Fixpoint uint_bytes (d : Decimal.uint) : bytes :=
  match d with
  | Decimal.Nil => []
  | Decimal.D0 d => 48 :: uint_bytes d | Decimal.D1 d => 49 :: uint_bytes d | Decimal.D2 d => 50 :: uint_bytes d
  | Decimal.D3 d => 51 :: uint_bytes d | Decimal.D4 d => 52 :: uint_bytes d | Decimal.D5 d => 53 :: uint_bytes d
  | Decimal.D6 d => 54 :: uint_bytes d | Decimal.D7 d => 55 :: uint_bytes d | Decimal.D8 d => 56 :: uint_bytes d
  | Decimal.D9 d => 57 :: uint_bytes d
  end.
Definition dec (n : N) : bytes := uint_bytes (N.to_uint n).

(** [String::from_utf8_lossy]: each maximal ill-formed piece becomes U+FFFD. *)
Definition replacement : bytes := [239; 191; 189].
Fixpoint lossy (s : bytes) : bytes :=
  match s with
  | [] => []
  | c :: r =>
    if c <=? 127 then c :: lossy r
    else if inr 194 c 223 then
      match r with
      | c1 :: r1 => if cont c1 then c :: c1 :: lossy r1 else replacement ++ lossy r
      | [] => replacement
      end
    else if inr 224 c 239 then
      match r with
      | c1 :: r1 =>
          if (if c =? 224 then inr 160 c1 191 else if c =? 237 then inr 128 c1 159 else cont c1) then
            match r1 with
            | c2 :: r2 => if cont c2 then c :: c1 :: c2 :: lossy r2 else replacement ++ lossy r1
            | [] => replacement
            end
          else replacement ++ lossy r
      | [] => replacement
      end
    else if inr 240 c 244 then
      match r with
      | c1 :: r1 =>
          if (if c =? 240 then inr 144 c1 191 else if c =? 244 then inr 128 c1 143 else cont c1) then
            match r1 with
            | c2 :: r2 =>
                if cont c2 then
                  match r2 with
                  | c3 :: r3 => if cont c3 then c :: c1 :: c2 :: c3 :: lossy r3 else replacement ++ lossy r2
                  | [] => replacement
                  end
                else replacement ++ lossy r1
            | [] => replacement
            end
          else replacement ++ lossy r
      | [] => replacement
      end
    else replacement ++ lossy r
  end.

(** [LightPath::println2], light_path.rs 19-35; [println] (lines 36-38) is [println2] of "". *)
Definition println2 (parts : list bytes) (component : bytes) : bytes :=
  (match parts with
   | [] => []
   | p :: ps => p ++ concat (map (fun q => sep :: q) ps) ++ (if nonempty component then [sep] else [])
   end) ++ component ++ [10].

(** [PathBuilder], list.rs 16-37 *)
Definition path_builder : builder bytes bytes bytes :=
  mkBuilder (fun _ r => Ok (r_name r)) (fun _ r => Ok (r_name r)) (fun _ r => Ok (r_name r)).

(** [Lister], list.rs 39-71: the context is the path and what was printed. *)
Definition lister : operator (list bytes * bytes) bytes bytes bytes :=
  let print c s := ((fst c, snd c ++ println2 (fst c) s), Ok tt) in
  mkOp (fun c => (c, Ok tt)) (fun c => (c, Ok tt))
       (fun c d => let p := fst c ++ [d] in ((p, snd c ++ println2 p []), Ok true))
       (fun c _ => ((removelast (fst c), snd c), Ok tt))
       print print.

(** [StableLister], list.rs 73-137. *)
Definition stable_lister : operator (bytes * bytes) file_entry link_entry dir_entry :=
  mkOp (fun c => (c, Ok tt)) (fun c => (c, Ok tt))
       (fun c d =>                                                                  (* 90-103 *)
          let p := push (fst c) (lossy (c_path (fst d))) in
          ((p, snd c ++ b "d " ++ dec (c_mtime (fst d)) ++ b " " ++ p ++ [10]), Ok true))
       (fun c _ => ((pop (fst c), snd c), Ok tt))                                   (* 104-111 *)
       (fun c f =>                                                                  (* 112-123 *)
          let '(m, _, size) := f in
          let p := push (fst c) (lossy (c_path m)) in
          ((pop p, snd c ++ b "f " ++ dec (c_mtime m) ++ b " " ++ dec size ++ b " " ++ p ++ [10]), Ok tt))
       (fun c l =>                                                                  (* 124-136 *)
          let '(m, target) := l in
          let p := push (fst c) (lossy (c_path m)) in
          ((pop p, snd c ++ b "l " ++ dec (c_mtime m) ++ b " " ++ p ++ b "->" ++ lossy target ++ [10]), Ok tt)).

(** [list], list.rs 154-177, on an archive that could be opened: what is printed, and the result. *)
Definition list_cmd (a : archive) (stable : option N) : bytes * res unit :=
  match stable with
  | Some v =>
      if v =? 1 then let (c, r) := run full_builder a stable_lister ([], []) in (snd c, r)
      else ([], Err (EOther (b "Stable version not supported")))
  | None => let (c, r) := run path_builder a lister ([], []) in (snd c, r)
  end.
