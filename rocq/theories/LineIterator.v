(** Lines with their numbers, src/util/line_iterator.rs. *)
From Verif Require Import Base Utf8.

(** Slicing a [str] by byte index; panics off char boundaries (std). *)
Fixpoint bskip (s : text) (n : nat) : res text :=
  match n with
  | 0 => Ok s
  | _ => match s with
         | [] => Panic
         | c :: s' => if len1 c <=? n then bskip s' (n - len1 c) else Panic
         end
  end.
Fixpoint btake (s : text) (n : nat) : res text :=
  match n with
  | 0 => Ok []
  | _ => match s with
         | [] => Panic
         | c :: s' => if len1 c <=? n
                      then let* r := btake s' (n - len1 c) in Ok (c :: r)
                      else Panic
         end
  end.
(** [&s[a..b]] *)
Definition str_slice (s : text) (a b : nat) : res text :=
  let* n := usub b a in
  let* s' := bskip s a in
  btake s' n.

(** line_iterator.rs:1-7. *)
Record line_iter := LI {
  li_data : text;
  li_number : nat;
  li_start : nat;
  li_end : nat;
  li_done : bool }.

(** [LineIterator::new], line_iterator.rs:10-18. *)
Definition li_new (data : text) : line_iter := LI data 0 0 0 false.

(** [out_of_data], line_iterator.rs:20-22. *)
Definition out_of_data (it : line_iter) : bool := li_end it =? blen (li_data it).

(** The scanning loop, line_iterator.rs:41-49: new end of line and whether the
    line ends in a newline. *)
Fixpoint li_scan (cs : text) (e : nat) : nat * bool :=
  match cs with
  | [] => (e, false)
  | c :: cs' => let e' := e + len1 c in
                if N.eqb c LF then (e', true) else li_scan cs' e'
  end.

(** [next], line_iterator.rs:28-62. *)
Definition li_next (it : line_iter) : res (option (nat * text) * line_iter) :=
  if li_done it then Ok (None, it)
  else
    let start := li_end it in
    let* rest := bskip (li_data it) start in
    let '(e, trailing_newline) := li_scan rest (li_end it) in
    let* l := str_slice (li_data it) start e in
    let it1 := LI (li_data it) (li_number it) start e (li_done it) in
    let it2 := if out_of_data it1 && negb trailing_newline
               then LI (li_data it) (li_number it) start e true
               else LI (li_data it) (li_number it + 1) start e (li_done it) in
    Ok (Some (li_number it, l), it2).
