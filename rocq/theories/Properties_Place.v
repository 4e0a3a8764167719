(** Property C07, exactly: what the answers of a buffer depend on, besides its text.
    [gap_place] and [size] are in CopiesSpec.v. *)
From Coq Require Import String.
From Verif Require Import Base Utf8 Utf8Proofs Grapheme UnicodeTable Position GapBuffer Spec Calls GrowthSpec CopiesSpec
  HalvesProofs PlaceProofs Witness.

(** C07: two buffers with the same text answer the same if their last edits ended at
    the same place. *)
Theorem C07_text_and_place_partial : forall brk g g' t, reachable brk g -> reachable brk g' ->
  gb_to_string g = Ok t -> gb_to_string g' = Ok t -> gap_place g = gap_place g' ->
  (forall p, in_bounds brk g p = in_bounds brk g' p) /\
  (forall p q, gb_read brk g (range_new p q) = gb_read brk g' (range_new p q)).
Proof. exact same_place. Qed.
Print Assumptions C07_text_and_place_partial.

(** C07: a buffer reads as a new one of the same text exactly when no cluster of the
    text straddles that place. *)
Theorem C07_as_new_exactly_when_partial : forall brk g t al g0,
  reachable brk g -> gb_to_string g = Ok t -> gb_new al t = Ok g0 ->
  exists a c, t = a ++ c /\ size a = gap_place g /\
    ((forall p q, gb_read brk g (range_new p q) = gb_read brk g0 (range_new p q)) <->
     graphemes brk t = graphemes brk a ++ graphemes brk c).
Proof. exact as_new. Qed.
Print Assumptions C07_as_new_exactly_when_partial.

(** C07: that place is behind what was inserted last, or where something was deleted;
    the end of the text in a new buffer (C95), or after an insert that did not fit and
    had nowhere to go. *)
Theorem C07_place_after_insert : forall brk al g t d p g', reachable brk g -> alloc_ok al -> valid_text d ->
  gb_to_string g = Ok t -> gb_insert brk al g d p = Ok g' ->
  (exists a c, t = a ++ c /\ gb_to_string g' = Ok (a ++ d ++ c) /\ gap_place g' = size (a ++ d)) \/
  (gb_to_string g' = Ok t /\ gap_place g' = if capacity g <? size t + size d then size t else gap_place g).
Proof. exact place_after_insert. Qed.
Print Assumptions C07_place_after_insert.

Theorem C07_place_after_delete : forall brk g t p q g', reachable brk g -> gb_to_string g = Ok t ->
  gb_delete brk g (range_new p q) = Ok g' ->
  (exists a m c, t = a ++ m ++ c /\ gb_to_string g' = Ok (a ++ c) /\ gap_place g' = size a) \/ g' = g.
Proof. exact place_after_delete. Qed.
Print Assumptions C07_place_after_delete.

(** A carriage return put before a newline, and the same text with an edit elsewhere. *)
Example C07_place_example : exists g g1 g0 os,
  reachable uax29_15 g /\ gb_to_string g = Ok (crlf ++ txt "b") /\ gap_place g = 1 /\
  gb_new tight (crlf ++ txt "b") = Ok g0 /\
  gb_read uax29_15 g (range_new (Pos 0 0) (Pos 1 0)) = Ok (Some crlf) /\
  gb_read uax29_15 g0 (range_new (Pos 0 0) (Pos 1 0)) = Ok None /\
  graphemes uax29_15 (crlf ++ txt "b") <> graphemes uax29_15 [CR] ++ graphemes uax29_15 (nl ++ txt "b") /\
  grun uax29_15 [(tight, GInsert (txt "c") (Pos 1 1)); (tight, GDelete (Pos 0 2) (Pos 0 3))] g = Ok (os, g1) /\
  gb_to_string g1 = Ok (crlf ++ txt "b") /\ gap_place g1 = 3 /\
  gb_read uax29_15 g1 (range_new (Pos 0 0) (Pos 1 0)) = Ok None.
Proof.
  destruct (reachable_new uax29_15 tight (nl ++ txt "b") ltac:(now apply valid_textb_ok)) as (gn & En & Rn & _).
  destruct (gexec uax29_15 tight (GInsert [CR] (Pos 0 0)) gn) as [[o g]|] eqn:E;
    [|vm_compute in En; injection En as <-; vm_compute in E; discriminate].
  assert (R : reachable uax29_15 g).
  { apply (reachable_exec uax29_15 gn tight (GInsert [CR] (Pos 0 0)) o g Rn tight_ok); [|exact E].
    now apply valid_textb_ok. }
  vm_compute in En. injection En as <-. vm_compute in E. injection E as <- <-.
  do 4 eexists. split; [exact R|]. split; [vm_compute; reflexivity|]. split; [vm_compute; reflexivity|].
  split; [vm_compute; reflexivity|]. split; [vm_compute; reflexivity|]. split; [vm_compute; reflexivity|].
  split; [vm_compute; discriminate|]. split; [vm_compute; reflexivity|]. split; [vm_compute; reflexivity|].
  split; vm_compute; reflexivity.
Qed.
