(** Base definitions shared by all model files: the panic monad and a few
    list functions that stand for Rust primitives on slices and ranges. *)
From Coq Require Export List Arith NArith ZArith Lia Bool.
Export ListNotations.

(** A Rust computation either returns or panics (index out of bounds, inverted
    slice, integer underflow in a debug build, [unwrap] on [None]).
    It models the implicit panics of the code in /repo/src; no single line. *)
Inductive res (A : Type) : Type :=
| Ok (a : A)
| Panic.
Arguments Ok {A} a.
Arguments Panic {A}.

Definition bind {A B} (m : res A) (f : A -> res B) : res B :=
  match m with Ok a => f a | Panic => Panic end.

Declare Scope res_scope.
Delimit Scope res_scope with res.
Notation "'let*' x ':=' m 'in' k" := (bind m (fun x => k))
  (at level 200, x pattern, m at level 100, k at level 200) : res_scope.
Open Scope res_scope.

(** [a - b] on usize: panics on underflow (debug build). *)
Definition usub (a b : nat) : res nat :=
  if b <=? a then Ok (a - b) else Panic.

(** Slice index assignment [v[i] = x]; panics out of bounds. *)
Fixpoint upd {A} (v : list A) (i : nat) (x : A) : res (list A) :=
  match v, i with
  | [], _ => Panic
  | _ :: v', 0 => Ok (x :: v')
  | y :: v', S i' => let* w := upd v' i' x in Ok (y :: w)
  end.

(** Slice index read [v[i]]; panics out of bounds. *)
Definition get {A} (v : list A) (i : nat) : res A :=
  match nth_error v i with Some x => Ok x | None => Panic end.

(** Slice [&v[a..b]]; panics if [a > b] or [b > v.len()]. *)
Definition slice {A} (v : list A) (a b : nat) : res (list A) :=
  if (a <=? b) && (b <=? length v)
  then Ok (firstn (b - a) (skipn a v)) else Panic.

(** The range [a..b] of a [for] loop. *)
Definition range (a b : nat) : list nat := seq a (b - a).

(** A [for] loop whose body may panic. *)
Fixpoint for_each {A S} (xs : list A) (s : S) (body : A -> S -> res S) : res S :=
  match xs with
  | [] => Ok s
  | x :: xs' => let* s' := body x s in for_each xs' s' body
  end.
