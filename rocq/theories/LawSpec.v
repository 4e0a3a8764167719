(** What is said about sequences of edits: where positions move, and when two
    sequences of calls come to the same. *)
From Verif Require Import Base Utf8 Grapheme Position GapBuffer Spec Calls.

(** Where a position [q], not before [p], is after [d] was inserted at [p]: on the
    line of [p] as far behind the end of [d] as it was behind [p], on later lines
    in the same column. *)
Definition shifted (brk : brk_rule) (p : position) (d : text) (q : position) : position :=
  let e := text_end brk p d in
  if line q =? line p then Pos (line e) (offset e + (offset q - offset p))
  else Pos (line q + (line e - line p)) (offset q).

(** Where a position [r], not before [q], is after everything between [p] and [q]
    was deleted. *)
Definition pulled (p q r : position) : position :=
  if line r =? line q then Pos (line p) (offset p + (offset r - offset q))
  else Pos (line r - (line q - line p)) (offset r).

(** From the text [s], both sequences of calls run without panics, whatever the
    allocators do, and lead to the same text. *)
Definition agree (brk : brk_rule) (s : text) (cs cs' : list gcall) : Prop :=
  forall al al' acs acs', map snd acs = cs -> map snd acs' = cs' ->
    Forall (fun ac => alloc_ok (fst ac)) acs -> Forall (fun ac => alloc_ok (fst ac)) acs' ->
    exists os os' g g' t, gsession brk al s acs = Ok (os, g) /\ gsession brk al' s acs' = Ok (os', g') /\
      gb_to_string g = Ok t /\ gb_to_string g' = Ok t.

(** From the text [s], the calls return this. *)
Definition returns (brk : brk_rule) (s : text) (cs : list gcall) (os : list gout) : Prop :=
  forall al acs, map snd acs = cs -> Forall (fun ac => alloc_ok (fst ac)) acs ->
    exists g, gsession brk al s acs = Ok (os, g).
