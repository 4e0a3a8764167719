(** Properties C01-C10: the gap buffer, positions and ranges.
    Statements only; proofs are in the files named *Proofs.v, TextFacts.v and
    GapProps.v.  The specification is Spec.v. *)
From Coq Require Import String.
From Verif Require Import Base Utf8 Grapheme GraphemeProofs UnicodeTable Position GapBuffer
  Spec Calls TextProofs UaxProofs HalvesProofs TextFacts GapProps Witness.

(** C01: every session of calls that does not merge clusters returns what the
    same calls on an immutable string return, and never panics. *)
Theorem C01_gap_buffer_is_a_string : forall brk al s cs,
  clean_session brk s cs ->
  exists g, gsession brk al s cs = Ok (fst (spec_calls brk (map snd cs) s), g)
    /\ gb_to_string g = Ok (snd (spec_calls brk (map snd cs) s)).
Proof. exact session_refines_text. Qed.
Print Assumptions C01_gap_buffer_is_a_string.

(** C01, for the UAX #29 rules over any class table: sessions whose texts are
    made of single chars, marked letters and flags are such sessions. *)
Theorem C01_unicode_sessions_are_clean : forall cls s cs,
  cls LF = GC_LF -> words (simple_cluster cls) s ->
  Forall (fun ac => alloc_ok (fst ac)) cs ->
  Forall (fun ac => inserts (words (simple_cluster cls)) (snd ac)) cs ->
  clean_session (uax29 cls) s cs.
Proof. exact unicode_session. Qed.
Print Assumptions C01_unicode_sessions_are_clean.

(** C01, ASCII without carriage returns is made of such clusters. *)
Theorem C01_ascii_text_is_simple : forall t, ascii_no_cr t -> words (simple_cluster gcb15) t.
Proof. exact ascii_words. Qed.
Print Assumptions C01_ascii_text_is_simple.

Example C01_example :
  let cs := [(roomy 3 7%N, GInsert (txt "X" ++ nl ++ txt "yz") (Pos 1 1));
             (tight, GDelete (Pos 0 1) (Pos 1 2)); (tight, GRead (Pos 0 0) (Pos 1 1));
             (tight, GInBounds (Pos 1 9)); (tight, GToString)] in
  clean_session uax29_15 (txt "ab" ++ nl ++ txt "cd") cs /\
  outputs (gsession uax29_15 tight (txt "ab" ++ nl ++ txt "cd") cs) =
  Some [OUnit; OUnit; ORead (Some (txt "a" ++ nl ++ txt "y")); OBool false;
        OText (txt "a" ++ nl ++ txt "yzd")].
Proof.
  split; [|vm_compute; reflexivity]. apply ascii_session; [reflexivity|].
  repeat constructor; solve [apply tight_ok|apply roomy_ok].
Qed.

Example C01_example_marks :
  words (simple_cluster gcb15) (txt "e" ++ acute ++ txt "a" ++ nl) /\
  graphemes uax29_15 (txt "e" ++ acute ++ txt "a" ++ nl) = [txt "e" ++ acute; txt "a"; nl].
Proof.
  split; [|vm_compute; reflexivity].
  exists [txt "e" ++ acute; txt "a"; nl]. split; [|reflexivity]. repeat constructor.
Qed.

(** C02: for any text and any segmentation, an insert returns and leaves the
    content unchanged or with the data spliced in somewhere. *)
Theorem C02_insert_integrity : forall brk g al data p,
  reachable brk g -> alloc_ok al -> valid_text data ->
  exists t g' t', gb_to_string g = Ok t /\ gb_insert brk al g data p = Ok g'
    /\ gb_to_string g' = Ok t'
    /\ (t' = t \/ exists a b, t = a ++ b /\ t' = a ++ data ++ b).
Proof. exact insert_integrity. Qed.
Print Assumptions C02_insert_integrity.

(** C02: a delete that returns removes one contiguous piece. *)
Theorem C02_delete_integrity : forall brk g p q g',
  reachable brk g -> gb_delete brk g (range_new p q) = Ok g' ->
  exists a m b, gb_to_string g = Ok (a ++ m ++ b) /\ gb_to_string g' = Ok (a ++ b).
Proof. exact delete_integrity. Qed.
Print Assumptions C02_delete_integrity.

(** C02: a read returns and yields a contiguous piece. *)
Theorem C02_read_integrity : forall brk g p q,
  reachable brk g ->
  exists t r, gb_to_string g = Ok t /\ gb_read brk g (range_new p q) = Ok r
    /\ forall m, r = Some m -> exists a b, t = a ++ m ++ b.
Proof. exact read_integrity. Qed.
Print Assumptions C02_read_integrity.

(** C02: a new buffer holds its text, and buffers reached by calls stay in the
    class the theorems above speak about. *)
Theorem C02_new : forall brk al s, valid_text s ->
  exists g, gb_new al s = Ok g /\ reachable brk g /\ gb_to_string g = Ok s.
Proof. exact reachable_new. Qed.
Print Assumptions C02_new.
Theorem C02_closed : forall brk g al c o g',
  reachable brk g -> alloc_ok al -> match c with GInsert d _ => valid_text d | _ => True end ->
  gexec brk al c g = Ok (o, g') -> reachable brk g'.
Proof. exact reachable_exec. Qed.
Print Assumptions C02_closed.

Example C02_example :
  exists g, reachable uax29_15 g /\ gb_to_string g = Ok (crlf ++ txt "e" ++ acute).
Proof.
  destruct (C02_new uax29_15 tight (crlf ++ txt "e" ++ acute)) as (g & _ & H).
  - now apply valid_textb_ok.
  - now exists g.
Qed.

(** C03: no call panics, for any text at all, under the UAX #29 rules over any
    class table in which the newline char has class LF. *)
Theorem C03_no_panic : forall cls al s cs,
  cls LF = GC_LF -> valid_text s ->
  Forall (fun ac => alloc_ok (fst ac)) cs ->
  Forall (fun ac => match snd ac with GInsert d _ => valid_text d | _ => True end) cs ->
  exists os g, gsession (uax29 cls) al s cs = Ok (os, g).
Proof. exact session_no_panic. Qed.
Print Assumptions C03_no_panic.

Example C03_example : gcb15 LF = GC_LF /\ valid_text (crlf ++ txt "e" ++ acute)
  /\ alloc_ok tight /\ alloc_ok (roomy 5 255%N).
Proof.
  split; [vm_compute; reflexivity|]. split; [now apply valid_textb_ok|].
  split; [apply tight_ok|apply roomy_ok].
Qed.

(** C04: the contents of fresh memory are never observable. *)
Theorem C04_fresh_memory_invisible : forall brk al al' s cs als,
  valid_text s -> same_sizes al al' ->
  Forall (fun ac => alloc_ok (fst ac)) cs ->
  Forall2 same_sizes (map fst cs) als ->
  Forall (fun ac => match snd ac with GInsert d _ => valid_text d | _ => True end) cs ->
  outputs (gsession brk al s cs) = outputs (gsession brk al' s (combine als (map snd cs))).
Proof. exact session_fresh_memory. Qed.
Print Assumptions C04_fresh_memory_invisible.

(** C04: for calls that do not merge clusters the amounts are not observable
    either. *)
Theorem C04_capacity_invisible : forall brk s al al' cs als,
  clean_session brk s cs -> length als = length cs -> Forall alloc_ok als ->
  outputs (gsession brk al s cs) = outputs (gsession brk al' s (combine als (map snd cs))).
Proof. exact capacity_clean. Qed.
Print Assumptions C04_capacity_invisible.

Example C04_example : same_sizes (roomy 4 1%N) (roomy 4 200%N).
Proof. intros n a. unfold roomy. now rewrite !repeat_length. Qed.

(** C47: for texts whose clusters merge the capacity is observable (the same
    calls give different texts). *)
Theorem C47_capacity_invisible_refuted : exists al al' s cs als,
  valid_text s /\ Forall (fun ac => alloc_ok (fst ac)) cs /\ Forall alloc_ok als /\
  length als = length cs /\ alloc_ok al /\ alloc_ok al' /\
  Forall (fun ac => match snd ac with GInsert d _ => valid_text d | _ => True end) cs /\
  outputs (gsession uax29_15 al s cs) <>
  outputs (gsession uax29_15 al' s (combine als (map snd cs))).
Proof.
  exists tight, tight, nl,
    [(roomy 9 0%N, GInsert [CR] (Pos 0 0)); (roomy 9 0%N, GInsert (txt "x") (Pos 1 0));
     (tight, GToString)],
    [tight; tight; tight].
  split; [now apply valid_textb_ok|].
  split; [repeat constructor; solve [apply tight_ok|apply roomy_ok]|].
  split; [repeat constructor; apply tight_ok|].
  split; [reflexivity|]. split; [apply tight_ok|]. split; [apply tight_ok|].
  split; [repeat constructor|]. vm_compute. discriminate.
Qed.
Print Assumptions C47_capacity_invisible_refuted.

(** C01: buffers that read as their text.  Sessions that do not merge clusters
    end in such buffers, and new buffers of any text with plain newlines are so. *)
Theorem C01_clean_buffers_are_coherent : forall brk g t, clean_buffer brk g t -> coherent brk g t.
Proof. exact clean_coherent. Qed.
Print Assumptions C01_clean_buffers_are_coherent.
Theorem C01_new_buffers_are_coherent : forall brk al s, valid_text s -> plain_newlines brk s ->
  exists g, gb_new al s = Ok g /\ coherent brk g s.
Proof. exact new_coherent. Qed.
Print Assumptions C01_new_buffers_are_coherent.
(** C01: such a buffer answers [in_bounds] as its text does, and an insert or a
    delete changes its text as the same call on a string does, even if clusters
    merge. *)
Theorem C01_coherent_calls : forall brk g t, coherent brk g t ->
  (forall p, in_bounds brk g p = Ok (exists_at brk t p)) /\
  (forall al data p, alloc_ok al -> valid_text data ->
   exists g', gb_insert brk al g data p = Ok g' /\ gb_to_string g' = Ok (spec_insert brk t data p)) /\
  (forall p q,
   exists g', gb_delete brk g (range_new p q) = Ok g' /\ gb_to_string g' = Ok (spec_delete brk t p q)).
Proof. exact coherent_calls. Qed.
Print Assumptions C01_coherent_calls.

Example C01_coherent_example : exists g,
  gb_new tight (txt "e" ++ acute ++ nl ++ acute ++ txt "x") = Ok g /\
  coherent uax29_15 g (txt "e" ++ acute ++ nl ++ acute ++ txt "x").
Proof.
  apply new_coherent; [now apply valid_textb_ok|]. intros u Hu Hl. vm_compute in Hu.
  destruct Hu as [<-|[<-|[<-|[<-|[]]]]]; vm_compute in Hl; try reflexivity;
    repeat (destruct Hl as [Hl|Hl]; [discriminate|]); destruct Hl.
Qed.

(** C05: inserting at a position that does not exist changes nothing (text whose
    clusters do not merge; any text, if the data fits in the gap). *)
Theorem C05_insert_out_of_bounds : forall brk g t al data p,
  coherent brk g t -> alloc_ok al -> valid_text data -> in_bounds brk g p = Ok false ->
  exists g', gb_insert brk al g data p = Ok g' /\ gb_to_string g' = Ok t.
Proof. exact coherent_insert_oob. Qed.
Print Assumptions C05_insert_out_of_bounds.
Theorem C05_insert_out_of_bounds_any_text : forall brk g al data p,
  reachable brk g -> alloc_ok al -> valid_text data -> blen data <= gap_length g ->
  in_bounds brk g p = Ok false -> gb_insert brk al g data p = Ok g.
Proof. exact insert_oob. Qed.
Print Assumptions C05_insert_out_of_bounds_any_text.

(** C05: deleting from a start that does not exist changes nothing at all. *)
Theorem C05_delete_out_of_bounds : forall brk g r,
  in_bounds brk g (r_start r) = Ok false -> gb_delete brk g r = Ok g.
Proof. exact delete_oob. Qed.
Print Assumptions C05_delete_out_of_bounds.

(** C05: reading with a missing end gives None. *)
Theorem C05_read_out_of_bounds : forall brk g r b,
  in_bounds brk g (r_start r) = Ok b -> (b = false \/ in_bounds brk g (r_end r) = Ok false) ->
  gb_read brk g r = Ok None.
Proof. exact read_oob. Qed.
Print Assumptions C05_read_out_of_bounds.

(** A session and the buffer it ends in, for the examples. *)
Lemma clean_witness s cs t :
  ascii_sessionb s cs = true -> Forall (fun ac => alloc_ok (fst ac)) cs ->
  snd (spec_calls uax29_15 (map snd cs) s) = t -> exists g, clean_buffer uax29_15 g t.
Proof.
  intros H Hal <-. pose proof (ascii_session s cs H Hal) as Hc.
  destruct (session_refines_text uax29_15 tight s cs Hc) as (g & E & Et).
  exists g, tight, s, cs, (fst (spec_calls uax29_15 (map snd cs) s)). now split.
Qed.

Example C05_example : exists g, coherent uax29_15 g (txt "ab" ++ nl ++ txt "c")
  /\ in_bounds uax29_15 g (Pos 1 2) = Ok false /\ in_bounds uax29_15 g (Pos 1 1) = Ok true.
Proof.
  destruct (clean_witness (txt "ab") [(tight, GInsert (nl ++ txt "c") (Pos 0 2))]
              (txt "ab" ++ nl ++ txt "c")) as (g & H); [reflexivity| |vm_compute; reflexivity|].
  - repeat constructor. apply tight_ok.
  - exists g. split; [now apply clean_coherent|]. rewrite !(clean_in_bounds _ _ _ _ H).
    split; vm_compute; reflexivity.
Qed.

(** C48: for merging text an insert at a position that [in_bounds] rejects can
    change the content (it is looked up again after a reallocation). *)
Theorem C48_insert_out_of_bounds_refuted : exists g al data p t,
  reachable uax29_15 g /\ alloc_ok al /\ valid_text data /\
  in_bounds uax29_15 g p = Ok false /\ gb_to_string g = Ok t /\
  exists g' t', gb_insert uax29_15 al g data p = Ok g' /\ gb_to_string g' = Ok t' /\ t' <> t.
Proof.
  pose (run := gsession uax29_15 tight (nl ++ txt "b") [(tight, GInsert [CR] (Pos 0 0))]).
  destruct run as [[os g]|] eqn:E; [|vm_compute in E; discriminate].
  exists g, tight, (txt "X"), (Pos 0 2), (crlf ++ txt "b").
  assert (R : reachable uax29_15 g).
  { exists tight, (nl ++ txt "b"), [(tight, GInsert [CR] (Pos 0 0))], os.
    split; [now apply valid_textb_ok|]. split; [repeat constructor; apply tight_ok|].
    split; [repeat constructor|exact E]. }
  vm_compute in E. injection E as _ <-.
  split; [exact R|]. split; [apply tight_ok|]. split; [now apply valid_textb_ok|].
  split; [vm_compute; reflexivity|]. split; [vm_compute; reflexivity|].
  do 2 eexists. split; [vm_compute; reflexivity|]. split; [vm_compute; reflexivity|].
  vm_compute. discriminate.
Qed.
Print Assumptions C48_insert_out_of_bounds_refuted.

(** C06: a range end that does not exist is clamped to the start of the line
    after its own line, or to the end of the text. *)
Theorem C06_delete_clamps : forall brk g t p q a b,
  coherent brk g t -> before p q = true ->
  split_at brk t p = Some (a, b) -> exists_at brk t q = false ->
  exists g', gb_delete brk g (range_new p q) = Ok g'
    /\ gb_to_string g' =
       Ok (if line q + 1 <? List.length (lines_of t)
           then a ++ join (skipn (line q + 1) (lines_of t)) else a).
Proof. exact clamp. Qed.
Print Assumptions C06_delete_clamps.

Example C06_example : exists g, coherent uax29_15 g (txt "ab" ++ nl ++ txt "c")
  /\ before (Pos 0 1) (Pos 0 7) = true
  /\ split_at uax29_15 (txt "ab" ++ nl ++ txt "c") (Pos 0 1) = Some (txt "a", txt "b" ++ nl ++ txt "c")
  /\ exists_at uax29_15 (txt "ab" ++ nl ++ txt "c") (Pos 0 7) = false.
Proof.
  destruct (clean_witness (txt "ab" ++ nl ++ txt "c") [] (txt "ab" ++ nl ++ txt "c"))
    as (g & H); [reflexivity|constructor|reflexivity|].
  exists g. split; [now apply clean_coherent|]. repeat split; vm_compute; reflexivity.
Qed.

(** C07: for text whose clusters do not merge, answers depend on the text only. *)
Theorem C07_answers_depend_on_text_partial : forall brk g g' t p q,
  clean_buffer brk g t -> clean_buffer brk g' t ->
  in_bounds brk g p = in_bounds brk g' p /\
  gb_read brk g (range_new p q) = gb_read brk g' (range_new p q).
Proof. exact same_text_same_answers. Qed.
Print Assumptions C07_answers_depend_on_text_partial.

(** C07, full statement: false.  A carriage return inserted before a newline is
    answered for differently from the same text loaded at once. *)
Theorem C07_answers_depend_on_text_refuted : exists g g' t p,
  reachable uax29_15 g /\ reachable uax29_15 g' /\
  gb_to_string g = Ok t /\ gb_to_string g' = Ok t /\
  in_bounds uax29_15 g p = Ok true /\ in_bounds uax29_15 g' p = Ok false.
Proof.
  pose (run := gsession uax29_15 tight (nl ++ txt "b") [(tight, GInsert [CR] (Pos 0 0))]).
  destruct run as [[os g]|] eqn:E; [|vm_compute in E; discriminate].
  destruct (C02_new uax29_15 tight (crlf ++ txt "b")) as (g' & E' & R' & T');
    [now apply valid_textb_ok|].
  exists g, g', (crlf ++ txt "b"), (Pos 1 0).
  split.
  { exists tight, (nl ++ txt "b"), [(tight, GInsert [CR] (Pos 0 0))], os.
    split; [now apply valid_textb_ok|]. split; [repeat constructor; apply tight_ok|].
    split; [repeat constructor|exact E]. }
  split; [exact R'|]. vm_compute in E. injection E as _ <-. vm_compute in E'. injection E' as <-.
  repeat split; vm_compute; reflexivity.
Qed.
Print Assumptions C07_answers_depend_on_text_refuted.

(** C08: comparison is the lexicographic order, which is total. *)
Theorem C08_position_order : forall p q,
  (pos_cmp p q = Lt <-> lex_lt p q) /\ (pos_cmp p q = Eq <-> p = q) /\
  (pos_cmp p q = Gt <-> lex_lt q p).
Proof. exact position_order. Qed.
Print Assumptions C08_position_order.
Theorem C08_order_irreflexive : forall p, ~ lex_lt p p.
Proof. exact lex_lt_irrefl. Qed.
Print Assumptions C08_order_irreflexive.
Theorem C08_order_transitive : forall p q r, lex_lt p q -> lex_lt q r -> lex_lt p r.
Proof. exact lex_lt_trans. Qed.
Print Assumptions C08_order_transitive.

(** C08: [Range::new] orders its two positions. *)
Theorem C08_range_new : forall p q,
  lex_le (r_start (range_new p q)) (r_end (range_new p q)) /\
  ((r_start (range_new p q) = p /\ r_end (range_new p q) = q) \/
   (r_start (range_new p q) = q /\ r_end (range_new p q) = p)).
Proof. exact range_new_props. Qed.
Print Assumptions C08_range_new.

(** C08: [includes] is the half-open interval. *)
Theorem C08_range_includes : forall r p,
  range_includes r p = true <-> lex_le (r_start r) p /\ lex_lt p (r_end r).
Proof. exact range_includes_spec. Qed.
Print Assumptions C08_range_includes.

Example C08_example :
  range_includes (range_new (Pos 2 0) (Pos 1 5)) (Pos 1 9) = true /\
  range_includes (range_new (Pos 2 0) (Pos 1 5)) (Pos 1 4) = false.
Proof. split; vm_compute; reflexivity. Qed.

(** C09: line ranges are ordered; a line is included iff any, equivalently
    every, position on it is included in the character range. *)
Theorem C09_line_range_new : forall a b,
  lr_start (line_range_new a b) = Nat.min a b /\ lr_end (line_range_new a b) = Nat.max a b.
Proof. exact line_range_new_props. Qed.
Print Assumptions C09_line_range_new.
Theorem C09_line_range_is_char_range : forall a b l o,
  line_range_includes (line_range_new a b) l =
  range_includes (to_range (line_range_new a b)) (Pos l o).
Proof. exact line_range_char. Qed.
Print Assumptions C09_line_range_is_char_range.
Theorem C09_inclusive_range : forall a b l o,
  range_includes (to_inclusive_range (line_range_new a b)) (Pos l o) = true <->
  Nat.min a b <= l <= Nat.max a b.
Proof. exact line_range_inclusive. Qed.
Print Assumptions C09_inclusive_range.

(** C09: deleting the range removes exactly those lines. *)
Theorem C09_delete_lines : forall brk g t a b, coherent brk g t ->
  exists g', gb_delete brk g (to_range (line_range_new a b)) = Ok g'
    /\ gb_to_string g' = Ok (without_lines t (Nat.min a b) (Nat.max a b)).
Proof. exact delete_line_range. Qed.
Print Assumptions C09_delete_lines.
Theorem C09_delete_lines_inclusive : forall brk g t a b, coherent brk g t ->
  exists g', gb_delete brk g (to_inclusive_range (line_range_new a b)) = Ok g'
    /\ gb_to_string g' = Ok (without_lines t (Nat.min a b) (Nat.max a b + 1)).
Proof. exact delete_inclusive_range. Qed.
Print Assumptions C09_delete_lines_inclusive.

Example C09_example :
  without_lines (txt "a" ++ nl ++ txt "b" ++ nl ++ txt "c") 1 2 = txt "a" ++ nl ++ txt "c" /\
  without_lines (txt "a" ++ nl ++ txt "b" ++ nl ++ txt "c") 2 3 = txt "a" ++ nl ++ txt "b" ++ nl.
Proof. split; vm_compute; reflexivity. Qed.

(** C10, for ASCII data whose chars are clusters: reading from the insertion
    point to the point plus the distance returns the inserted data. *)
Theorem C10_distance_of_inserted_text_partial : forall brk al g t p d,
  coherent brk g t -> alloc_ok al -> valid_text d -> singles brk d ->
  Forall (fun c => (c < 128)%N) d -> in_bounds brk g p = Ok true ->
  clean_call brk (GInsert d p) t ->
  exists g', gb_insert brk al g d p = Ok g'
    /\ gb_read brk g' (range_new p (pos_add p (of_str d))) = Ok (Some d).
Proof. exact distance_reads_back. Qed.
Print Assumptions C10_distance_of_inserted_text_partial.

Example C10_example :
  singles uax29_15 (txt "x" ++ nl ++ txt "yz") /\
  pos_add (Pos 3 4) (of_str (txt "x" ++ nl ++ txt "yz")) = Pos 4 2.
Proof. split; vm_compute; reflexivity. Qed.

(** C10: what the distance of a text is, for any text: the lines it spans and the
    length in bytes of its last line. *)
Theorem C10_distance_of_text : forall d,
  of_str d = Dist (length (lines_of d) - 1) (length (enc (last (lines_of d) []))).
Proof. exact of_str_lines. Qed.
Print Assumptions C10_distance_of_text.

(** C10: adding the distances of two texts in turn is adding that of both, and
    [+=] is [+]. *)
Theorem C10_distances_add : forall p a b,
  pos_add (pos_add p (of_str a)) (of_str b) = pos_add p (of_str (a ++ b)).
Proof. exact distances_add. Qed.
Print Assumptions C10_distances_add.

Theorem C10_add_assign : forall p d, pos_add_assign p d = pos_add p d.
Proof. exact add_assign_is_add. Qed.
Print Assumptions C10_add_assign.

(** C10: whatever the text, from the insertion point it is read back up to its
    end (lines and columns) and up to no other later position... *)
Theorem C10_end_of_inserted_text : forall brk al g t p d q,
  coherent brk g t -> alloc_ok al -> in_bounds brk g p = Ok true -> clean_call brk (GInsert d p) t ->
  lex_le p q ->
  exists g', gb_insert brk al g d p = Ok g'
    /\ (gb_read brk g' (range_new p q) = Ok (Some d) <-> q = text_end brk p d).
Proof. exact read_back_iff. Qed.
Print Assumptions C10_end_of_inserted_text.

(** C10: ... so the distance leads there exactly when the last line of the text
    has as many bytes as columns. *)
Theorem C10_distance_exactly_when : forall brk al g t p d,
  coherent brk g t -> alloc_ok al -> in_bounds brk g p = Ok true -> clean_call brk (GInsert d p) t ->
  exists g', gb_insert brk al g d p = Ok g'
    /\ (gb_read brk g' (range_new p (pos_add p (of_str d))) = Ok (Some d) <->
        List.length (enc (last (lines_of d) [])) = List.length (graphemes brk (last (lines_of d) []))).
Proof. exact distance_reads_iff. Qed.
Print Assumptions C10_distance_exactly_when.

Example C10_end_example :
  text_end uax29_15 (Pos 3 4) (e_acute ++ nl ++ e_acute ++ e_acute) = Pos 4 2 /\
  pos_add (Pos 3 4) (of_str (e_acute ++ nl ++ e_acute ++ e_acute)) = Pos 4 4 /\
  text_end uax29_15 (Pos 3 4) (e_acute ++ nl ++ txt "ab") = pos_add (Pos 3 4) (of_str (e_acute ++ nl ++ txt "ab")).
Proof. repeat split; vm_compute; reflexivity. Qed.

Example C10_distances_example :
  pos_add (pos_add (Pos 3 4) (of_str (txt "x" ++ nl ++ e_acute))) (of_str (txt "yz")) = Pos 4 4.
Proof. vm_compute. reflexivity. Qed.

(** C10, full statement: false.  The distance counts bytes. *)
Theorem C10_distance_of_inserted_text_refuted : exists al g t p d,
  clean_buffer uax29_15 g t /\ alloc_ok al /\ valid_text d /\ singles uax29_15 d /\
  in_bounds uax29_15 g p = Ok true /\ clean_call uax29_15 (GInsert d p) t /\
  exists g', gb_insert uax29_15 al g d p = Ok g'
    /\ gb_read uax29_15 g' (range_new p (pos_add p (of_str d))) <> Ok (Some d).
Proof.
  exists tight. destruct (gb_new tight (txt "ab")) as [g|] eqn:E; [|vm_compute in E; discriminate].
  exists g, (txt "ab"), (Pos 0 1), e_acute.
  split.
  { exists tight, (txt "ab"), [], []. split; [apply ascii_session; [reflexivity|constructor]|].
    unfold gsession. rewrite E. split; [reflexivity|]. vm_compute in E. injection E as <-.
    vm_compute. reflexivity. }
  vm_compute in E. injection E as <-.
  split; [apply tight_ok|]. split; [now apply valid_textb_ok|].
  split; [vm_compute; reflexivity|]. split; [vm_compute; reflexivity|].
  split.
  { split; [now apply valid_textb_ok|]. split.
    - intros u Hu Hl. vm_compute in Hu. destruct Hu as [<-|[]]. vm_compute in Hl.
      destruct Hl as [H|[]]; discriminate.
    - vm_compute. reflexivity. }
  eexists. split; [vm_compute; reflexivity|]. vm_compute. discriminate.
Qed.
Print Assumptions C10_distance_of_inserted_text_refuted.
