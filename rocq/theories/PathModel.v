(** Paths.  A [std::path::Path] is modelled by the sequence of its components
    (what [Path::components] yields on Unix); std compares, prefixes and takes
    file names through that sequence.  Names are byte strings ([OsStr]). *)
From Verif Require Import Base Utf8.

Inductive comp :=
| RootDir
| CurDir
| ParentDir
| Normal (name : list byte).

Definition path := list comp.

Definition comp_eq_dec (a b : comp) : {a = b} + {a <> b}.
Proof. decide equality. apply (list_eq_dec N.eq_dec). Defined.
Definition comp_eqb (a b : comp) : bool := if comp_eq_dec a b then true else false.
Definition path_eq_dec (a b : path) : {a = b} + {a <> b} := list_eq_dec comp_eq_dec a b.
Definition path_eqb (a b : path) : bool := if path_eq_dec a b then true else false.

(** [Path::file_name] (std): the last component if it is a normal one. *)
Definition path_file_name (p : path) : option (list byte) :=
  match rev p with
  | Normal n :: _ => Some n
  | _ => None
  end.

Definition DOT : byte := 46%N.

(** Split at the last dot: [name.rsplitn(2, |b| b == b'.')] (std): the part
    after the last dot, and the part before it if there is a dot.  Computed on
    the reversed name. *)
Fixpoint take_to_dot (r : list byte) : list byte * option (list byte) :=
  match r with
  | [] => ([], None)
  | b :: r' => if N.eqb b DOT then ([], Some r')
               else let '(a, before) := take_to_dot r' in (b :: a, before)
  end.
Definition rsplit_dot (n : list byte) : list byte * option (list byte) :=
  let '(a, before) := take_to_dot (rev n) in
  (rev a, match before with Some x => Some (rev x) | None => None end).

(** [Path::extension] (std, [rsplit_file_at_dot]): [None] for "..", for names
    without a dot and for names whose only dot is the first byte. *)
Definition path_extension (p : path) : option (list byte) :=
  match path_file_name p with
  | None => None
  | Some n =>
    if list_N_eqb n [DOT; DOT] then None
    else match rsplit_dot n with
         | (after, Some before) => match before with [] => None | _ => Some after end
         | (_, None) => None
         end
  end.

(** [Path::strip_prefix] (std): [Ok] suffix iff [base] is a component prefix. *)
Fixpoint strip_prefix (p base : path) : option path :=
  match base, p with
  | [], _ => Some p
  | b :: base', c :: p' => if comp_eqb b c then strip_prefix p' base' else None
  | _ :: _, [] => None
  end.
