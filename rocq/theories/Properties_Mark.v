(** Property C65, and what C07, C32, C47 and C48 become for every text.
    Specification: MarkSpec.v. *)
From Coq Require Import String.
From Verif Require Import Base Utf8 Grapheme GraphemeProofs UnicodeTable Position GapBuffer
  Cursor PathModel Buffer Spec Calls BufferCalls HalvesProofs MarkSpec MarkProofs Witness.

(** C65: a session of calls answers as a text with a mark does, whatever the
    text, the positions and the memory that is allocated. *)
Theorem C65_calls_of_a_marked_text : forall cls al s cs,
  cls LF = GC_LF -> valid_text s ->
  Forall (fun ac => alloc_ok (fst ac)) cs ->
  Forall (fun ac => match snd ac with GInsert d _ => valid_text d | _ => True end) cs ->
  exists g, gsession (uax29 cls) al s cs = Ok (fst (m_calls (uax29 cls) cs (m_new al s)), g).
Proof. exact session_marked. Qed.
Print Assumptions C65_calls_of_a_marked_text.

(** A carriage return is put before a newline; an insert that fits goes to line 1,
    and after a reallocation there is no line 1. *)
Example C65_example : forall al,
  (al = tight \/ al = roomy 9 0%N) ->
  fst (m_calls uax29_15 [(al, GInsert [CR] (Pos 0 0)); (al, GInBounds (Pos 1 0));
                         (al, GInsert (txt "x") (Pos 1 0)); (al, GToString)] (m_new tight nl))
  = [OUnit; OBool true; OUnit;
     OText (if List.length (al 0 0) =? 0 then crlf else crlf ++ txt "x")].
Proof. intros al [->| ->]; vm_compute; reflexivity. Qed.

(** C07, for every text: the answers depend on the text and on one mark in it. *)
Theorem C07_answers_of_a_marked_text : forall brk g, reachable brk g -> exists m,
  gb_to_string g = Ok (whole m)
  /\ (forall p, in_bounds brk g p = Ok (match locate brk m p with Some _ => true | None => false end))
  /\ (forall p q, gb_read brk g (range_new p q) = Ok (m_read brk p q m)).
Proof. exact reachable_marked. Qed.
Print Assumptions C07_answers_of_a_marked_text.

(** C32, for every text: the lines that can be addressed are fewer than
    [line_count] by the number of "\r\n" in the two parts of the text. *)
Theorem C32_addressable_lines : forall cls b f t,
  cls LF = GC_LF -> (forall c, cls c = GC_CR <-> c = CR) ->
  reachable_buffer (uax29 cls) b f -> buf_data b = Ok t ->
  exists a c n, t = a ++ c /\ buf_line_count b = Ok n /\
    forall l, in_bounds (uax29 cls) (b_data b) (Pos l 0) = Ok (l + crlfs a + crlfs c <? n).
Proof. exact buffer_lines. Qed.
Print Assumptions C32_addressable_lines.
(** In a new buffer the first part is the whole text. *)
Theorem C32_addressable_lines_when_new : forall cls al s,
  cls LF = GC_LF -> (forall c, cls c = GC_CR <-> c = CR) -> valid_text s ->
  exists g, gb_new al s = Ok g /\
    forall l, in_bounds (uax29 cls) g (Pos l 0) = Ok (l + crlfs s <? List.length (lines_of s)).
Proof. exact new_lines. Qed.
Print Assumptions C32_addressable_lines_when_new.
(** The table of Unicode classes is as these theorems require. *)
Theorem C32_table_has_one_carriage_return : forall c, gcb15 c = GC_CR <-> c = CR.
Proof. exact gcb15_cr. Qed.
Print Assumptions C32_table_has_one_carriage_return.

Example C32_addressable_example :
  let s := (txt "a" ++ crlf ++ txt "b" ++ nl ++ txt "c" ++ crlf)%list in
  valid_text s /\ crlfs s = 2 /\ List.length (lines_of s) = 4.
Proof. split; [now apply valid_textb_ok|]. vm_compute. split; reflexivity. Qed.

(** C48, part of the full statement: an insert that fits in the spare capacity
    leaves every text alone if its position is out of bounds.  Missing: inserts
    that do not fit (they can change it; see the refuted theorem). *)
Theorem C48_fitting_insert_partial : forall brk al g data p t,
  reachable brk g -> alloc_ok al -> valid_text data -> blen data <= gap_length g ->
  in_bounds brk g p = Ok false -> gb_to_string g = Ok t ->
  exists g', gb_insert brk al g data p = Ok g' /\ gb_to_string g' = Ok t.
Proof. exact fitting_insert. Qed.
Print Assumptions C48_fitting_insert_partial.

Example C48_fitting_example : exists g, reachable uax29_15 g
  /\ gb_to_string g = Ok (crlf ++ txt "b") /\ blen (txt "X") <= gap_length g
  /\ in_bounds uax29_15 g (Pos 0 3) = Ok false.
Proof.
  pose (run := gsession uax29_15 tight (nl ++ txt "b") [(roomy 9 0%N, GInsert [CR] (Pos 0 0))]).
  destruct run as [[os g]|] eqn:E; [|vm_compute in E; discriminate]. exists g. split.
  { exists tight, (nl ++ txt "b")%list, [(roomy 9 0%N, GInsert [CR] (Pos 0 0))], os.
    split; [now apply valid_textb_ok|]. split; [repeat constructor; apply roomy_ok|].
    split; [repeat constructor|exact E]. }
  vm_compute in E. injection E as _ <-. split; [vm_compute; reflexivity|]. split; [vm_compute; lia|].
  vm_compute. reflexivity.
Qed.

(** C47, part of the full statement: two sessions with room for everything that
    is inserted give the same answers, whatever the text.  Missing: sessions in
    which some insert does not fit (they can differ; see the refuted theorem). *)
Theorem C47_enough_room_partial : forall cls al al' s cs als,
  cls LF = GC_LF -> valid_text s ->
  Forall (fun ac => alloc_ok (fst ac)) cs -> Forall alloc_ok als -> List.length als = List.length cs ->
  Forall (fun ac => match snd ac with GInsert d _ => valid_text d | _ => True end) cs ->
  bytes_inserted cs <= List.length (al (List.length (enc s)) 0) ->
  bytes_inserted cs <= List.length (al' (List.length (enc s)) 0) ->
  outputs (gsession (uax29 cls) al s cs) =
  outputs (gsession (uax29 cls) al' s (combine als (map snd cs))).
Proof. exact enough_room. Qed.
Print Assumptions C47_enough_room_partial.

Example C47_enough_room_example :
  bytes_inserted [(tight, GInsert [CR] (Pos 0 0)); (tight, GInsert (txt "x") (Pos 1 0)); (tight, GToString)] = 2
  /\ List.length (roomy 9 0%N (List.length (enc nl)) 0) = 9
  /\ List.length (roomy 3 7%N (List.length (enc nl)) 0) = 3.
Proof. vm_compute. repeat split; reflexivity. Qed.
