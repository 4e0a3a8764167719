(** Property C95: how many bytes of the text an edit moves.  The counted functions
    are in Copies.v and what is said about them in CopiesSpec.v. *)
From Coq Require Import String.
From Verif Require Import Base Utf8 Utf8Proofs Grapheme UnicodeTable Position GapBuffer Spec Calls GrowthSpec
  GrowthProofs Copies CopiesSpec CopiesProofs Witness CopiesWitness.

(** C95: counting changes nothing: the counted calls return what the calls return,
    leave the same buffer, and panic where they panic. *)
Theorem C95_same_calls : forall brk cs g,
  match c_run brk cs g with
  | Ok (os, g', _) => grun brk cs g = Ok (os, g')
  | Panic => grun brk cs g = Panic
  end.
Proof. exact same_calls. Qed.
Print Assumptions C95_same_calls.

(** C95: and a session moves what its calls move together. *)
Theorem C95_sessions : forall brk cs al c g os g1 n o g2 m, c_run brk cs g = Ok (os, g1, n) ->
  c_exec brk al c g1 = Ok (o, g2, m) -> c_run brk (cs ++ [(al, c)]) g = Ok (os ++ [o], g2, n + m).
Proof. exact sessions_sum. Qed.
Print Assumptions C95_sessions.

(** C95: a new buffer has its free space behind the text. *)
Theorem C95_new : forall al s g, gb_new al s = Ok g -> gap_place g = size s.
Proof. exact new_place. Qed.
Print Assumptions C95_new.

(** C95: an insert that fits moves the bytes between the place of the last edit and
    its own; one that does not fit moves those behind the last edit to the front and
    those behind its own place back (or only the latter, if the buffer is full). *)
Theorem C95_insert : forall brk al g t d p o g' n a b,
  coherent brk g t -> alloc_ok al -> valid_text d -> d <> [] ->
  split_at brk t p = Some (a, b) -> c_exec brk al (GInsert d p) g = Ok (o, g', n) ->
  gap_place g' = size a + size d /\
  n = if size t + size d <=? capacity g then distance (size a) (gap_place g)
      else (if capacity g =? size t then 0 else size t - gap_place g) + size b.
Proof. exact insert_moves. Qed.
Print Assumptions C95_insert.

(** C95: a delete moves the bytes between the place of the last edit and its own
    start, however much it deletes; nothing if the buffer is full. *)
Theorem C95_delete : forall brk al g t p q o g' n a b,
  coherent brk g t -> split_at brk t (first_of p q) = Some (a, b) ->
  c_exec brk al (GDelete p q) g = Ok (o, g', n) ->
  gap_place g' = size a /\ n = if capacity g =? size t then 0 else distance (size a) (gap_place g).
Proof. exact delete_moves. Qed.
Print Assumptions C95_delete.

(** C95: reads, and edits at a position that is not there, move nothing and leave the
    buffer as it is, unless the edit is an insert that does not fit. *)
Theorem C95_nothing_done : forall brk al c g t o g' n, coherent brk g t -> alloc_ok al ->
  match c with
  | GInsert d p => valid_text d /\ split_at brk t p = None
  | GDelete p q => split_at brk t (first_of p q) = None
  | _ => True
  end -> c_exec brk al c g = Ok (o, g', n) ->
  (capacity g' = capacity g -> n = 0 /\ g' = g) /\
  (capacity g' <> capacity g ->
   n = (if capacity g =? size t then 0 else size t - gap_place g) /\ gap_place g' = size t).
Proof. exact nowhere_moves. Qed.
Print Assumptions C95_nothing_done.

(** C95: no call on any buffer moves more than the whole text, or twice that if it
    reallocates. *)
Theorem C95_any_call : forall brk al c g t o g' n, reachable brk g -> alloc_ok al ->
  match c with GInsert d _ => valid_text d | _ => True end ->
  gb_to_string g = Ok t -> c_exec brk al c g = Ok (o, g', n) ->
  n <= if capacity g' =? capacity g then size t else 2 * size t.
Proof. exact moves_bound. Qed.
Print Assumptions C95_any_call.

(** C95: typing, however long, moves the bytes between the last edit and the place
    where the typing starts, once, and after that the bytes behind that place twice
    for each of [k] reallocations; [k] is logarithmic in the size of the text. *)
Theorem C95_typing : forall brk a b ks g os g' n, coherent brk g (a ++ b) -> typing brk a b ks ->
  c_run brk (insertions ks) g = Ok (os, g', n) ->
  gb_to_string g' = Ok (a ++ typed ks ++ b) /\
  exists k, n <= distance (size a) (gap_place g) + 2 * size b * k /\
    (k <= 1 \/ 2 ^ (k + 1) <= size (a ++ typed ks ++ b)).
Proof. exact typing_cheap. Qed.
Print Assumptions C95_typing.

(** Twenty keys typed into the middle of "one two" move the three bytes behind them
    twice, when the buffer, full at 7 and at 14 bytes, is reallocated.  Then a delete at
    the front, two inserts there, one that fits and one that does not, and an insert
    at a position that is not there. *)
Example C95_example : exists g0 os g',
  gb_new tight (txt "one two") = Ok g0 /\ coherent uax29_15 g0 (txt "one two") /\
  typing uax29_15 (txt "one ") (txt "two") twenty_keys /\
  c_run uax29_15 (insertions twenty_keys) g0 = Ok (os, g', 6) /\
  gb_to_string g' = Ok (txt "one xxxxxxxxxxxxxxxxxxxxtwo") /\ capacity g' = 28 /\
  (exists o g2, c_exec uax29_15 grow_as_std (GDelete (Pos 0 1) (Pos 0 2)) g' = Ok (o, g2, 23)) /\
  (exists o g2, c_exec uax29_15 grow_as_std (GInsert (txt "y") (Pos 0 0)) g' = Ok (o, g2, 24)) /\
  (exists o g2, c_exec uax29_15 grow_as_std (GInsert (txt "yy") (Pos 0 0)) g' = Ok (o, g2, 30)) /\
  (exists o g2, c_exec uax29_15 grow_as_std (GInsert (txt "y") (Pos 9 0)) g' = Ok (o, g2, 0)).
Proof. exact example_copies. Qed.
