(** Property C47, exactly: when the capacity of a buffer can be told from its
    answers.  [gap_place] and [size] are in CopiesSpec.v, [m_new] in MarkSpec.v. *)
From Coq Require Import String.
From Verif Require Import Base Utf8 Utf8Proofs Grapheme UnicodeTable Position GapBuffer Spec Calls GrowthSpec CopiesSpec MarkSpec
  CapacitySpec CapacityProofs Witness.

(** C47: an insert into two buffers with the same text, the last edit of which
    ended at the same place, leaves the same again exactly when both have room
    for it or neither has, or the position is at the same place in the text
    with the mark and without it. *)
Theorem C47_insert_exactly_when_partial : forall brk al al' g g' t d p g1 g1',
  reachable brk g -> reachable brk g' -> alloc_ok al -> alloc_ok al' -> valid_text d -> d <> [] ->
  gb_to_string g = Ok t -> gb_to_string g' = Ok t -> gap_place g = gap_place g' ->
  gb_insert brk al g d p = Ok g1 -> gb_insert brk al' g' d p = Ok g1' ->
  exists a c, t = a ++ c /\ size a = gap_place g /\
    (gb_to_string g1 = gb_to_string g1' /\ gap_place g1 = gap_place g1' <->
     (size t + size d <= capacity g <-> size t + size d <= capacity g') \/ found_alike brk a c p).
Proof. exact insert_exactly_when. Qed.
Print Assumptions C47_insert_exactly_when_partial.

(** C47: two sessions of the same calls with different amounts of memory give the
    same answers, whatever the text, if this is so at each insert.  Missing:
    the others (their texts or the places of their last edits differ). *)
Theorem C47_sessions_alike_partial : forall cls al al' s cs als, cls LF = GC_LF -> valid_text s ->
  Forall (fun ac => alloc_ok (fst ac)) cs -> Forall alloc_ok als -> List.length als = List.length cs ->
  Forall (fun ac => match snd ac with GInsert d _ => valid_text d | _ => True end) cs ->
  alike (uax29 cls) cs als (m_new al s) (m_new al' s) ->
  outputs (gsession (uax29 cls) al s cs) = outputs (gsession (uax29 cls) al' s (combine als (map snd cs))).
Proof. exact sessions_alike. Qed.
Print Assumptions C47_sessions_alike_partial.

(** A carriage return before a newline, with room and without it; inserts at the
    start are found alike, one behind the newline is not. *)
Example C47_alike_example :
  let cs := [(tight, GInsert [CR] (Pos 0 0)); (tight, GInsert (txt "x") (Pos 0 0)); (tight, GToString)] in
  ~ fits [CR] (m_new tight (nl ++ txt "b")) /\ fits [CR] (m_new (roomy 9 0%N) (nl ++ txt "b")) /\
  alike uax29_15 cs [tight; tight; tight] (m_new tight (nl ++ txt "b")) (m_new (roomy 9 0%N) (nl ++ txt "b")) /\
  ~ found_alike uax29_15 [CR] (nl ++ txt "b") (Pos 1 0).
Proof.
  split; [vm_compute; lia|]. split; [vm_compute; lia|]. split; [|vm_compute; easy].
  split; [right; vm_compute; reflexivity|]. split; [right; vm_compute; reflexivity|]. now split.
Qed.
