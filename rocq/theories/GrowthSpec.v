(** Memory that a gap buffer asks for. *)
From Verif Require Import Base Utf8 Grapheme Position GapBuffer Spec Calls.

(** How [Vec] grows (std, not part of the repository): to twice its capacity or
    to what is needed, but to no less than 8 bytes.  The vector of a gap buffer is
    always full, so its length is its capacity. *)
Definition std_growth (al : allocator) : Prop :=
  forall len additional,
    len + length (al len additional) = Nat.max 8 (Nat.max (2 * len) (len + additional)).

(** Bytes allocated. *)
Definition capacity (g : gapbuf) : nat := vcap (gb_data g).

(** How often a sequence of calls changes that. *)
Fixpoint reallocations (brk : brk_rule) (cs : list (allocator * gcall)) (g : gapbuf) : nat :=
  match cs with
  | [] => 0
  | (al, c) :: cs' =>
    match gexec brk al c g with
    | Ok (_, g') => (if capacity g' =? capacity g then 0 else 1) + reallocations brk cs' g'
    | Panic => 0
    end
  end.

(** The longest text that the calls ask for, in bytes: the text before an insert
    and what is inserted. *)
Fixpoint longest (brk : brk_rule) (cs : list (allocator * gcall)) (g : gapbuf) : nat :=
  match cs with
  | [] => 0
  | (al, c) :: cs' =>
    Nat.max
      (match c, gb_to_string g with
       | GInsert d _, Ok t => length (enc t) + length (enc d)
       | _, _ => 0
       end)
      (match gexec brk al c g with Ok (_, g') => longest brk cs' g' | Panic => 0 end)
  end.
