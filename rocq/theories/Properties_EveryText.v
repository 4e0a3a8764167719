(** Property C68, and what C16, C21 and C31 become for every text.
    Specification: MarkEditor.v (over MarkSpec.v). *)
From Coq Require Import String Sorted.
From Verif Require Import Base Utf8 Grapheme UnicodeTable Position GapBuffer Cursor PathModel Buffer
  Spec CursorSpec CursorCalls Calls BufferCalls BufferFacts MarkSpec Editor MarkEditor
  MarkEditorProofs EveryTextProofs Witness Disks.

(** C68: a buffer is a marked editor.  Whatever the texts, the positions, the
    calls, the disk and the memory that is allocated, no call panics, each
    returns what the editor returns, and afterwards everything that can be seen
    of the buffer and of the disk is as the editor says. *)
Theorem C68_marked_editor : forall cls b e cs,
  cls LF = GC_LF -> me_start b e ->
  Forall (fun ac => alloc_ok (fst ac) /\ call_ok (snd ac)) cs ->
  exists b', brun (uax29 cls) cs b (me_disk e) =
      Ok (fst (me_calls (uax29 cls) cs e), b', me_disk (snd (me_calls (uax29 cls) cs e)))
    /\ shows (uax29 cls) b' (snd (me_calls (uax29 cls) cs e)).
Proof. exact marked_editor. Qed.
Print Assumptions C68_marked_editor.

(** Every fresh buffer has its editor. *)
Theorem C68_every_buffer : forall f b, fresh_buffer f b -> exists e, me_start b e /\ me_disk e = f.
Proof. exact fresh_start. Qed.
Print Assumptions C68_every_buffer.

(** A file with "\r\n" and a combining mark: a range is deleted that leaves the
    mark alone at the start of a line, the deletion is undone and redone, and the
    file is saved. *)
Definition marks : text := (txt "ab" ++ crlf ++ txt "e" ++ [769%N] ++ txt "f")%list.
Example C68_example : exists b e, me_start b e /\
  let cs := map (pair tight) [BSetCallback true; BMove MEnd; BDeleteRange (Pos 0 1) (Pos 0 3);
                              BUndo; BRedo; BInsert (txt "!"); BSave WriteSucceeds] in
  Forall (fun ac => alloc_ok (fst ac) /\ call_ok (snd ac)) cs /\
  let e' := snd (me_calls uax29_15 cs e) in
  whole (me_text e') = (txt "ae" ++ [769%N] ++ txt "!f")%list /\ at_pos (me_cursor e') = Pos 0 2 /\
  me_modified e' = false /\ me_heard e' = [Pos 0 1; Pos 0 1; Pos 0 1; Pos 0 2] /\
  me_past e' = [[Put (txt "!") (Pos 0 2)]; [Cut (Pos 0 1) (Pos 0 3) (Some (txt "b" ++ crlf)%list)]].
Proof.
  destruct (from_file tight (one_file marks) the_path) as [[b|]|] eqn:E; [|vm_compute in E; discriminate..].
  exists b, (me_open tight (one_file marks) the_path marks). split.
  - right. exists tight, (one_file marks), the_path, the_path, marks. split; [exact E|]. repeat split; vm_compute; reflexivity.
  - split; [now apply tight_calls|]. vm_compute. repeat split.
Qed.

(** C16, for every text: [move_to_first_line] brings the cursor back into the
    text, wherever it was left: to the wished column of the first line or to the
    line's end. *)
Theorem C16_first_line_recovers_partial : forall cls b f t al,
  cls LF = GC_LF -> reachable_buffer (uax29 cls) b f -> buf_data b = Ok t ->
  exists b', bexec (uax29 cls) al (BMove MFirst) b f = Ok (BUnit, b', f) /\ buf_data b' = Ok t /\
    in_bounds (uax29 cls) (b_data b') (c_pos (b_cursor b')) = Ok true /\
    view (b_cursor b') = go (Pos 0 (Nat.min (c_sticky (b_cursor b)) (width_or_zero (uax29 cls) t 0))).
Proof. exact first_line_recovers. Qed.
Print Assumptions C16_first_line_recovers_partial.

Example C16_first_line_example : exists b f, reachable_buffer uax29_15 b f /\
  buf_data b = Ok (crlf ++ txt "b")%list /\ c_pos (b_cursor b) = Pos 0 5 /\
  in_bounds uax29_15 (b_data b) (c_pos (b_cursor b)) = Ok false /\
  width_or_zero uax29_15 (crlf ++ txt "b")%list 0 = 0.
Proof.
  destruct (from_new [BInsert (txt "aaaa" ++ crlf ++ txt "b"); BCursor (Pos 0 5); BDeleteRange (Pos 0 0) (Pos 0 4)] no_files)
    as [[[os b] f]|] eqn:E; [|vm_compute in E; discriminate].
  exists b, f. split; [now eapply from_new_reachable; [exact E|]|]. vm_compute in E. injection E as _ <- _.
  vm_compute. repeat split.
Qed.

(** C21, for every text: when positions are those of the text as a whole, as they
    are in a buffer just loaded, undo puts back any range both ends of which
    exist.  (The rest of C21 is false.) *)
Theorem C21_delete_range_partial : forall cls b f t p q al al',
  cls LF = GC_LF -> reachable_buffer (uax29 cls) b f ->
  b_group b = None -> buf_data b = Ok t -> undivided (uax29 cls) b t ->
  in_bounds (uax29 cls) (b_data b) p = Ok true -> in_bounds (uax29 cls) (b_data b) q = Ok true ->
  alloc_ok al -> alloc_ok al' ->
  exists s a c b1 b2, buf_read (uax29 cls) b (range_new p q) = Ok (Some s) /\ t = a ++ s ++ c /\
    buf_delete_range (uax29 cls) al b (range_new p q) = Ok b1 /\ buf_data b1 = Ok (a ++ c) /\
    buf_undo (uax29 cls) al' b1 = Ok b2 /\ buf_data b2 = Ok t /\ undivided (uax29 cls) b2 t.
Proof. exact undo_delete_every. Qed.
Print Assumptions C21_delete_range_partial.

(** And it removes an insertion at the cursor that merges with neither neighbour
    and has only plain newlines; the text around it may be any. *)
Theorem C21_insert_partial : forall cls b f t d a c al al',
  cls LF = GC_LF -> reachable_buffer (uax29 cls) b f ->
  b_group b = None -> buf_data b = Ok t -> undivided (uax29 cls) b t ->
  valid_text d -> plain_newlines (uax29 cls) d ->
  buf_read (uax29 cls) b (range_new (Pos 0 0) (c_pos (b_cursor b))) = Ok (Some a) -> t = a ++ c ->
  graphemes (uax29 cls) (a ++ d) = graphemes (uax29 cls) a ++ graphemes (uax29 cls) d ->
  graphemes (uax29 cls) (d ++ c) = graphemes (uax29 cls) d ++ graphemes (uax29 cls) c ->
  alloc_ok al -> alloc_ok al' ->
  exists b1 b2, buf_insert (uax29 cls) al b d = Ok b1 /\ buf_data b1 = Ok (a ++ d ++ c) /\
    buf_undo (uax29 cls) al' b1 = Ok b2 /\ buf_data b2 = Ok t /\ undivided (uax29 cls) b2 t.
Proof. exact undo_insert_every. Qed.
Print Assumptions C21_insert_partial.

(** A buffer just loaded or replaced is in one piece. *)
Theorem C21_fresh_is_undivided : forall brk f b, fresh_buffer f b ->
  exists t, buf_data b = Ok t /\ undivided brk b t.
Proof. exact fresh_undivided. Qed.
Print Assumptions C21_fresh_is_undivided.
Theorem C21_replaced_is_undivided : forall cls b f al s t,
  cls LF = GC_LF -> reachable_buffer (uax29 cls) b f -> alloc_ok al -> valid_text s ->
  buf_data b = Ok t -> s <> t ->
  exists b', buf_replace (uax29 cls) al b s = Ok b' /\ buf_data b' = Ok s /\ undivided (uax29 cls) b' s.
Proof. exact replaced_undivided. Qed.
Print Assumptions C21_replaced_is_undivided.

Example C21_every_text_example : exists b f, reachable_buffer uax29_15 b f /\ b_group b = None /\
  buf_data b = Ok marks /\ undivided uax29_15 b marks /\
  in_bounds uax29_15 (b_data b) (Pos 0 1) = Ok true /\ in_bounds uax29_15 (b_data b) (Pos 0 4) = Ok true /\
  buf_read uax29_15 b (range_new (Pos 0 1) (Pos 0 4)) = Ok (Some (txt "b" ++ crlf ++ txt "e" ++ [769%N])%list) /\
  (* inserting at the cursor *)
  buf_read uax29_15 b (range_new (Pos 0 0) (c_pos (b_cursor b))) = Ok (Some (txt "ab")) /\
  valid_text (txt "x" ++ nl)%list /\
  graphemes uax29_15 (txt "ab" ++ txt "x" ++ nl)%list = (graphemes uax29_15 (txt "ab") ++ graphemes uax29_15 (txt "x" ++ nl))%list /\
  let c := (crlf ++ txt "e" ++ [769%N] ++ txt "f")%list in
  graphemes uax29_15 ((txt "x" ++ nl) ++ c)%list = (graphemes uax29_15 (txt "x" ++ nl) ++ graphemes uax29_15 c)%list.
Proof.
  destruct (from_disk [BMove MEnd] (one_file marks)) as [[[os b] f]|] eqn:E; [|vm_compute in E; discriminate].
  exists b, f. split; [now eapply from_disk_reachable; [exact E|]|].
  destruct (from_file tight (one_file marks) the_path) as [[b0|]|] eqn:E0; [|vm_compute in E0; discriminate..].
  assert (U : undivided uax29_15 b marks).
  { destruct (fresh_undivided uax29_15 (one_file marks) b0) as (t & Et & U); [right; now exists tight, the_path|].
    vm_compute in E0, E. injection E0 as <-. injection E as _ <- _. vm_compute in Et. injection Et as <-. exact U. }
  vm_compute in E. injection E as _ <- _. repeat split; try exact U; try (now apply valid_textb_ok); vm_compute; reflexivity.
Qed.

(** C31, for every text and every needle: the hits, in order, are the byte offsets
    of the occurrences on the lines as [seen] gives them: without the carriage
    return before a newline, and without an empty last line. *)
Theorem C31_search_every_text_partial : forall brk b f t needle,
  reachable_buffer brk b f -> buf_data b = Ok t -> valid_text needle ->
  exists ps, buf_search b needle = Ok ps /\ StronglySorted lex_lt ps /\
    forall p, In p ps <-> exists l a r, nth_error (seen (lines_of t)) (line p) = Some l /\
      l = a ++ needle ++ r /\ needle ++ r <> [] /\ offset p = List.length (enc a).
Proof. exact search_every. Qed.
Print Assumptions C31_search_every_text_partial.
(** A needle with a newline is never found. *)
Theorem C31_newline_never_found_partial : forall brk b f needle,
  reachable_buffer brk b f -> valid_text needle -> In LF needle -> buf_search b needle = Ok [].
Proof. exact search_newline. Qed.
Print Assumptions C31_newline_never_found_partial.

Example C31_every_text_example : exists b f, reachable_buffer uax29_15 b f /\ buf_data b = Ok marks /\
  buf_search b (txt "f") = Ok [Pos 1 3] /\ buf_search b [] = Ok [Pos 0 0; Pos 0 1; Pos 1 0; Pos 1 1; Pos 1 3] /\
  buf_search b crlf = Ok [].
Proof.
  destruct (from_disk [] (one_file marks)) as [[[os b] f]|] eqn:E; [|vm_compute in E; discriminate].
  exists b, f. split; [now eapply from_disk_reachable; [exact E|]|].
  vm_compute in E. injection E as _ <- _. vm_compute. repeat split.
Qed.

(** C08: [Position::new] is the least position, and every buffer has it. *)
Theorem C08_origin : (forall p, lex_le pos_new p) /\
  (forall cls b f, cls LF = GC_LF -> reachable_buffer (uax29 cls) b f ->
     in_bounds (uax29 cls) (b_data b) pos_new = Ok true).
Proof. exact origin_everywhere. Qed.
Print Assumptions C08_origin.
