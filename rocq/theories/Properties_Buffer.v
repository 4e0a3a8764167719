(** Properties C16-C30 and C49: buffers, their history and their files.
    Statements only; the specification is Spec.v, BufferCalls.v and Timeline.v,
    proofs are in the files named *Proofs.v and *Props.v. *)
From Coq Require Import String.
From Verif Require Import Base Utf8 Grapheme GraphemeProofs UnicodeTable Position GapBuffer
  Cursor PathModel Buffer Spec CursorSpec Calls CursorCalls TextProofs UaxProofs GapProps
  BufferCalls Timeline TimelineProofs AnyTextProofs BufferProps BufferIoProps BufferSimple
  BufferFacts Witness.

(** Tactics for concrete buffers. *)
Tactic Notation "play_new" constr(cs) constr(f) "as" ident(b) ident(f') ident(tl) ident(S) ident(W) :=
  let E := fresh "E" in
  destruct (play_new_tight cs f) as [[[b f'] tl]|] eqn:E; [|vm_compute in E; discriminate E];
  pose proof (played_new _ _ _ _ _ E) as [S W]; vm_compute in E; injection E as ? ? ?.

(** C49: no sequence of calls on a buffer panics, for any text at all, under
    the UAX #29 rules over any class table in which newline has class LF. *)
Theorem C49_no_panic : forall cls f b0 cs, cls LF = GC_LF -> fresh_buffer f b0 ->
  Forall (fun ac => alloc_ok (fst ac) /\ call_ok (snd ac)) cs ->
  exists os b f', brun (uax29 cls) cs b0 f = Ok (os, b, f').
Proof. exact buffer_no_panic. Qed.
Print Assumptions C49_no_panic.

(** C49: the text of a buffer is always valid. *)
Theorem C49_text_is_valid : forall brk b f, reachable_buffer brk b f ->
  exists t, buf_data b = Ok t /\ valid_text t.
Proof. exact buffer_text_valid. Qed.
Print Assumptions C49_text_is_valid.

Example C49_example : exists b0, fresh_buffer (one_file (crlf ++ txt "e")) b0 /\
  Forall (fun ac => alloc_ok (fst ac) /\ call_ok (snd ac))
    [(tight, BInsert acute); (roomy 4 9%N, BUndo); (tight, BDeleteRange (Pos 5 5) (Pos 0 0))].
Proof.
  destruct (from_file tight (one_file (crlf ++ txt "e")) the_path) as [[b0|]|] eqn:E;
    try (vm_compute in E; discriminate).
  exists b0. split; [right; exists tight, the_path; exact E|].
  repeat constructor; cbn [fst snd call_ok]; solve [apply tight_ok|apply roomy_ok|now apply valid_textb_ok].
Qed.

(** C16, partial: from a cursor in the text, the cursor stays in the text over
    any calls but [delete_range], undo, redo and assignment to the position.
    Missing: those calls, for which it is false. *)
Theorem C16_cursor_in_text_partial : forall brk cs b f tl b' f' tl',
  steps brk cs b f tl b' f' tl' -> session brk b f tl ->
  forallb keeps_cursor cs = true -> exists_at brk (tl_text tl) (c_pos (b_cursor b)) = true ->
  exists_at brk (tl_text tl') (c_pos (b_cursor b')) = true.
Proof. exact cursor_run. Qed.
Print Assumptions C16_cursor_in_text_partial.

(** C16, full statement: false, for [delete_range] and for undo. *)
Theorem C16_cursor_in_text_refuted :
  (exists b f, reachable_buffer uax29_15 b f /\
     (exists os, from_new [BInsert (txt "abc"); BMove MEnd; BDeleteRange (Pos 0 0) (Pos 0 3)]
                          no_files = Ok (os, b, f)) /\
     in_bounds uax29_15 (b_data b) (c_pos (b_cursor b)) = Ok false) /\
  (exists b f, reachable_buffer uax29_15 b f /\
     (exists os, from_new [BInsert (txt "abc"); BMove MEnd; BUndo] no_files = Ok (os, b, f)) /\
     in_bounds uax29_15 (b_data b) (c_pos (b_cursor b)) = Ok false).
Proof.
  split.
  - destruct (from_new [BInsert (txt "abc"); BMove MEnd; BDeleteRange (Pos 0 0) (Pos 0 3)] no_files)
      as [[[os b] f]|] eqn:E; [|vm_compute in E; discriminate].
    exists b, f. split; [now eapply from_new_reachable; [exact E|]|]. split; [now exists os|].
    vm_compute in E. injection E as <- <- <-. vm_compute. reflexivity.
  - destruct (from_new [BInsert (txt "abc"); BMove MEnd; BUndo] no_files)
      as [[[os b] f]|] eqn:E; [|vm_compute in E; discriminate].
    exists b, f. split; [now eapply from_new_reachable; [exact E|]|]. split; [now exists os|].
    vm_compute in E. injection E as <- <- <-. vm_compute. reflexivity.
Qed.
Print Assumptions C16_cursor_in_text_refuted.

(** C17: an edit, undone, gives the text before it; redone, the text after it.
    Whatever happened to the buffer before. *)
Theorem C17_undo_redo : forall brk b f tl c al al1 al2,
  session brk b f tl -> group tl = None -> real_edit c (tl_text tl) ->
  legal brk c (c_pos (b_cursor b)) (file_of b f) tl ->
  alloc_ok al -> alloc_ok al1 -> alloc_ok al2 ->
  let t' := edited brk c (c_pos (b_cursor b)) (tl_text tl) in
  exists o b1 f1 b2 b3,
    bexec brk al c b f = Ok (o, b1, f1) /\ buf_data b1 = Ok t' /\
    buf_undo brk al1 b1 = Ok b2 /\ buf_data b2 = Ok (tl_text tl) /\
    buf_redo brk al2 b2 = Ok b3 /\ buf_data b3 = Ok t'.
Proof. exact undo_redo_one. Qed.
Print Assumptions C17_undo_redo.

(** C17, many edits: as many undos and redos (cursor calls in between do not
    count) give the text and the modified flag before and after them. *)
Theorem C17_undo_redo_many : forall brk cs b f tl b' f' tl' als als',
  session brk b f tl -> group tl = None -> steps brk cs b f tl b' f' tl' ->
  forallb (fun c => inserts_or_cuts c || neutral c) cs = true ->
  List.length als = List.length (filter inserts_or_cuts cs) -> Forall alloc_ok als ->
  List.length als' = List.length (filter inserts_or_cuts cs) -> Forall alloc_ok als' ->
  exists b1 b2, undos brk als b' = Ok b1 /\ buf_data b1 = buf_data b
    /\ buf_modified b1 = buf_modified b
    /\ redos brk als' b1 = Ok b2 /\ buf_data b2 = buf_data b' /\ buf_modified b2 = buf_modified b'.
Proof. exact many_undone. Qed.
Print Assumptions C17_undo_redo_many.

Example C17_example : exists b f tl,
  session uax29_15 b f tl /\ group tl = None /\ tl_text tl = txt "ab" ++ nl ++ txt "cd" /\
  List.length (past tl) = 2 /\ real_edit (BDeleteRange (Pos 1 1) (Pos 0 1)) (tl_text tl) /\
  legal uax29_15 (BDeleteRange (Pos 1 1) (Pos 0 1)) (c_pos (b_cursor b)) (file_of b f) tl /\
  edited uax29_15 (BDeleteRange (Pos 1 1) (Pos 0 1)) (c_pos (b_cursor b)) (tl_text tl) = txt "ad".
Proof.
  play_new [BInsert (txt "cd"); BInsert (txt "ab" ++ nl); BDelete; BUndo] no_files as b f tl S W.
  exists b, f, tl. split; [exact S|].
  assert (L : legal uax29_15 (BDeleteRange (Pos 1 1) (Pos 0 1)) (c_pos (b_cursor b)) (file_of b f) tl).
  { apply simple_legal; [apply gcb15_LF|exact W|exact I|]. subst tl. left. vm_compute. reflexivity. }
  subst tl. split; [reflexivity|]. split; [reflexivity|]. split; [reflexivity|]. split; [exact I|].
  split; [exact L|]. vm_compute. reflexivity.
Qed.

(** C18: at any time the text of a buffer is the present of its timeline. *)
Theorem C18_text_is_timeline : forall brk b f tl, session brk b f tl -> buf_data b = Ok (tl_text tl).
Proof. exact session_text. Qed.
Print Assumptions C18_text_is_timeline.

(** C18: legal calls never panic, and take sessions to sessions. *)
Theorem C18_legal_calls_return : forall brk al c b f tl, session brk b f tl -> alloc_ok al ->
  legal brk c (c_pos (b_cursor b)) (file_of b f) tl ->
  exists o b' f', bexec brk al c b f = Ok (o, b', f')
    /\ session brk b' f' (tl_step brk c (c_pos (b_cursor b)) (file_of b f) o tl).
Proof. exact session_progress. Qed.
Print Assumptions C18_legal_calls_return.

(** C18, for the UAX #29 rules over any class table: while all texts are made
    of single chars, marked letters and flags, calls are legal when the
    circumstances allow them, and the texts stay so. *)
Theorem C18_unicode_calls_are_legal : forall cls c cur file tl, cls LF = GC_LF ->
  tl_all (words (simple_cluster cls)) tl -> brings (words (simple_cluster cls)) c file ->
  allowed (uax29 cls) c tl -> legal (uax29 cls) c cur file tl.
Proof. exact simple_legal. Qed.
Print Assumptions C18_unicode_calls_are_legal.
Theorem C18_unicode_texts_stay_simple : forall cls c cur file o tl, cls LF = GC_LF ->
  tl_all (words (simple_cluster cls)) tl -> brings (words (simple_cluster cls)) c file ->
  tl_all (words (simple_cluster cls)) (tl_step (uax29 cls) c cur file o tl).
Proof. exact simple_step. Qed.
Print Assumptions C18_unicode_texts_stay_simple.

Example C18_example : exists b f tl, session uax29_15 b f tl /\
  past tl = [(txt "b", false); ([], false)] /\ tl_text tl = txt "abxx" /\ future tl = [].
Proof.
  play_new [BInsert (txt "b"); BInsert (txt "a"); BUndo; BRedo; BUndo; BStartGroup;
               BInsert (txt "a"); BMove MEnd; BInsert (txt "x"); BInsert (txt "x"); BEndGroup;
               BUndo; BRedo] no_files as b f tl S W.
  exists b, f, tl. split; [exact S|]. subst tl. repeat split.
Qed.

(** C19: the edits of a group are undone and redone together, and so are those
    of a group still open when undo is called (which closes it). *)
Theorem C19_group_is_atomic : forall brk b f tl cs b' f' tl' al1 al2,
  session brk b f tl -> group tl = None ->
  steps brk cs (start_group b) f (tl_start tl) b' f' tl' ->
  forallb (fun c => edits c || neutral c) cs = true ->
  existsb inserts_or_cuts cs = true \/ buf_data b' <> buf_data b ->
  alloc_ok al1 -> alloc_ok al2 ->
  (exists b1 b2, buf_data (end_group b') = buf_data b' /\
     buf_undo brk al1 (end_group b') = Ok b1 /\ buf_data b1 = buf_data b /\
     buf_modified b1 = buf_modified b /\
     buf_redo brk al2 b1 = Ok b2 /\ buf_data b2 = buf_data b') /\
  (exists b1, buf_undo brk al1 b' = Ok b1 /\ buf_data b1 = buf_data b /\
     b_group b1 = None /\ buf_modified b1 = buf_modified b).
Proof. exact group_atomic. Qed.
Print Assumptions C19_group_is_atomic.

(** C19: a group without edits leaves no trace. *)
Theorem C19_empty_group : forall brk cs b f os b' f',
  b_group b = None -> forallb (fun ac => neutral (snd ac)) cs = true ->
  brun brk cs (start_group b) f = Ok (os, b', f') ->
  b_data (end_group b') = b_data b /\ b_history (end_group b') = b_history b /\
  b_group (end_group b') = b_group b.
Proof. exact empty_group. Qed.
Print Assumptions C19_empty_group.

Example C19_example : exists b f tl b' f' tl',
  session uax29_15 b f tl /\ group tl = None /\
  steps uax29_15 [BInsert (txt "x"); BMove MEnd; BDelete; BReplace (txt "new")]
    (start_group b) f (tl_start tl) b' f' tl' /\
  buf_data b = Ok (txt "ab") /\ buf_data b' = Ok (txt "new").
Proof.
  play_new [BInsert (txt "ab")] no_files as b f tl S W.
  destruct (play (map (pair tight) [BInsert (txt "x"); BMove MEnd; BDelete; BReplace (txt "new")])
              (start_group b) f (tl_start tl)) as [[[b' f'] tl']|] eqn:P;
    [|subst b f tl; vm_compute in P; discriminate].
  exists b, f, tl, b', f', tl'. split; [exact S|]. split; [now subst tl|]. split.
  - apply play_steps in P as [P _]; [exact P|apply tight_all|].
    destruct W as (W1 & W2 & W3 & W4). subst tl. repeat split; assumption.
  - subst b f tl. vm_compute in P. injection P as <- <- <-. split; vm_compute; reflexivity.
Qed.

(** C20: after an edit outside a group, redo changes nothing at all. *)
Theorem C20_edit_discards_future : forall brk b f al c t o b' f' al',
  reachable_buffer brk b f -> alloc_ok al -> call_ok c ->
  b_group b = None -> buf_data b = Ok t -> real_edit c t -> bexec brk al c b f = Ok (o, b', f') ->
  buf_redo brk al' b' = Ok b'.
Proof. exact edit_discards_future. Qed.
Print Assumptions C20_edit_discards_future.

Example C20_example : exists b f t o b' f', reachable_buffer uax29_15 b f /\ b_group b = None /\
  buf_data b = Ok t /\ t = txt "a" /\ h_next (b_history b) <> [] /\ real_edit (BInsert (txt "z")) t /\
  bexec uax29_15 tight (BInsert (txt "z")) b f = Ok (o, b', f').
Proof.
  destruct (from_new [BInsert (txt "a"); BInsert (txt "b"); BUndo] no_files)
    as [[[os b] f]|] eqn:E; [|vm_compute in E; discriminate].
  pose proof (from_new_reachable _ _ _ _ _ E eq_refl) as R. vm_compute in E. injection E as _ Eb _.
  destruct (bexec uax29_15 tight (BInsert (txt "z")) b f) as [[[o b'] f']|] eqn:X;
    [|subst b; vm_compute in X; discriminate].
  exists b, f, (txt "a"), o, b', f'. split; [exact R|]. subst b.
  split; [reflexivity|]. split; [vm_compute; reflexivity|]. split; [reflexivity|].
  split; [discriminate|]. split; [exact I|exact X].
Qed.

(** C21, partial: a [delete_range] whose end exists, or that deletes nothing, and
    every insert that does not merge clusters, is undone exactly: this is
    C17_undo_redo.  A range whose end does not exist is never given back: *)
Theorem C21_missing_end_is_lost_partial : forall brk b f p q al al' b1,
  reachable_buffer brk b f -> b_group b = None ->
  in_bounds brk (b_data b) (second_of p q) = Ok false ->
  buf_delete_range brk al b (range_new p q) = Ok b1 ->
  exists b2, buf_undo brk al' b1 = Ok b2 /\ buf_data b2 = buf_data b1.
Proof. exact missing_end_lost. Qed.
Print Assumptions C21_missing_end_is_lost_partial.

(** C21, full statement: false, both for a range end that does not exist and for
    the insertion of a combining mark after a letter. *)
Theorem C21_undo_restores_refuted :
  (exists b f p q b1 b2 t, reachable_buffer uax29_15 b f /\ b_group b = None /\ buf_data b = Ok t /\
     buf_delete_range uax29_15 tight b (range_new p q) = Ok b1 /\
     buf_undo uax29_15 tight b1 = Ok b2 /\ buf_data b2 <> Ok t) /\
  (exists b f d b1 b2 t, reachable_buffer uax29_15 b f /\ b_group b = None /\ buf_data b = Ok t /\
     valid_text d /\ buf_insert uax29_15 tight b d = Ok b1 /\
     buf_undo uax29_15 tight b1 = Ok b2 /\ buf_data b2 <> Ok t).
Proof.
  split.
  - destruct (from_new [BInsert (txt "abc")] no_files) as [[[os b] f]|] eqn:E; [|vm_compute in E; discriminate].
    pose proof (from_new_reachable _ _ _ _ _ E eq_refl) as R. vm_compute in E. injection E as _ Eb _.
    exists b, f, (Pos 0 1), (Pos 0 9). subst b. do 3 eexists. split; [exact R|]. split; [reflexivity|].
    split; [vm_compute; reflexivity|]. split; [vm_compute; reflexivity|]. split; [vm_compute; reflexivity|].
    vm_compute. discriminate.
  - destruct (from_new [BInsert (txt "ab"); BMove MRight] no_files) as [[[os b] f]|] eqn:E; [|vm_compute in E; discriminate].
    pose proof (from_new_reachable _ _ _ _ _ E eq_refl) as R. vm_compute in E. injection E as _ Eb _.
    exists b, f, acute. subst b. do 3 eexists. split; [exact R|]. split; [reflexivity|].
    split; [vm_compute; reflexivity|]. split; [now apply valid_textb_ok|].
    split; [vm_compute; reflexivity|]. split; [vm_compute; reflexivity|].
    vm_compute. discriminate.
Qed.
Print Assumptions C21_undo_restores_refuted.

(** C22, partial: redo in an open group that has no edits yet is a redo. *)
Theorem C22_redo_in_empty_group_partial : forall brk al b f tl,
  session brk b f tl -> alloc_ok al -> group tl = Some None ->
  exists b', buf_redo brk al b = Ok b' /\ session brk b' f (tl_redo tl).
Proof. exact redo_in_empty_group. Qed.
Print Assumptions C22_redo_in_empty_group_partial.

(** C22, full statement: false.  After a redo in an open group with edits, no
    number of undos gives the text before the group, nor the empty text the
    buffer started with. *)
Theorem C22_redo_in_group_refuted : exists b f b1 b2,
  reachable_buffer uax29_15 b f /\ b_group b = None /\ buf_data b = Ok (txt "ab") /\
  (exists os, brun uax29_15 (map (pair tight) [BStartGroup; BMove MEnd; BInsert (txt "x")]) b f
              = Ok (os, b1, f)) /\
  buf_redo uax29_15 tight b1 = Ok b2 /\
  forall n, exists b3 t, undos uax29_15 (repeat tight n) (end_group b2) = Ok b3 /\
    buf_data b3 = Ok t /\ t <> txt "ab" /\ t <> [].
Proof.
  destruct (from_new [BInsert (txt "ab"); BDeleteRange (Pos 0 0) (Pos 0 1); BUndo] no_files)
    as [[[os b] f]|] eqn:E; [|vm_compute in E; discriminate].
  pose proof (from_new_reachable _ _ _ _ _ E eq_refl) as R. vm_compute in E. injection E as _ Eb _.
  destruct (brun uax29_15 (map (pair tight) [BStartGroup; BMove MEnd; BInsert (txt "x")]) b f)
    as [[[os1 b1] f1]|] eqn:E1; [|subst b; vm_compute in E1; discriminate].
  assert (f1 = f) by (subst b; vm_compute in E1; now injection E1). subst f1.
  destruct (buf_redo uax29_15 tight b1) as [b2|] eqn:E2;
    [|subst b; vm_compute in E1; injection E1 as _ <-; vm_compute in E2; discriminate].
  exists b, f, b1, b2. split; [exact R|]. split; [now subst b|]. split; [subst b; vm_compute; reflexivity|].
  split; [now exists os1|]. split; [exact E2|].
  subst b. vm_compute in E1. injection E1 as _ <-. vm_compute in E2. injection E2 as <-.
  intros n. destruct n as [|[|[|n]]].
  1-3: do 2 eexists; split; [vm_compute; reflexivity|]; split; [vm_compute; reflexivity|]; split; vm_compute; discriminate.
  match goal with |- context [undos _ _ ?b2] =>
    destruct (undos uax29_15 (repeat tight 3) b2) as [b5|] eqn:E5; [|vm_compute in E5; discriminate];
    exists b5, (txt "x"); split end.
  - rewrite (undos_app _ (repeat tight 3) (repeat tight n)), E5. cbn [bind].
    apply undos_stuck. vm_compute in E5. injection E5 as <-. vm_compute. reflexivity.
  - vm_compute in E5. injection E5 as <-. split; [vm_compute; reflexivity|]. split; vm_compute; discriminate.
Qed.
Print Assumptions C22_redo_in_group_refuted.

(** C23: with no unfinished group of edits, an unmodified buffer holds the text
    last loaded, saved or reloaded. *)
Theorem C23_unmodified_is_synced : forall brk b f tl, session brk b f tl -> no_edits_open tl ->
  buf_modified b = false -> exists t, synced tl = Some t /\ buf_data b = Ok t.
Proof. exact unmodified_is_synced. Qed.
Print Assumptions C23_unmodified_is_synced.

(** C23: exactly, [modified()] is false at the state of the timeline that was
    last loaded, saved or reloaded, however it is reached. *)
Theorem C23_modified_is_exact : forall brk b f tl, session brk b f tl -> no_edits_open tl ->
  buf_modified b = negb (snd (now tl)).
Proof. exact modified_flag. Qed.
Print Assumptions C23_modified_is_exact.

(** C23: undoing back to the save point makes the buffer unmodified again. *)
Theorem C23_undo_to_save_point : forall brk cs b f tl b' f' tl' als,
  session brk b f tl -> group tl = None -> buf_modified b = false -> steps brk cs b f tl b' f' tl' ->
  forallb (fun c => inserts_or_cuts c || neutral c) cs = true ->
  List.length als = List.length (filter inserts_or_cuts cs) -> Forall alloc_ok als ->
  exists b1, undos brk als b' = Ok b1 /\ buf_modified b1 = false /\ buf_data b1 = buf_data b.
Proof. exact undo_to_save_point. Qed.
Print Assumptions C23_undo_to_save_point.

(** C23: any edit outside a group makes any buffer modified. *)
Theorem C23_edit_modifies : forall brk b f al c t o b' f',
  reachable_buffer brk b f -> alloc_ok al -> call_ok c ->
  b_group b = None -> buf_data b = Ok t -> real_edit c t -> bexec brk al c b f = Ok (o, b', f') ->
  buf_modified b' = true.
Proof. exact edit_modifies. Qed.
Print Assumptions C23_edit_modifies.

(** Edited after loading, saved, edited and undone: in sync with the saved text;
    undone once more: not. *)
Example C23_example : exists b f tl b' f' tl',
  session uax29_15 b f tl /\ no_edits_open tl /\ group tl = None /\ buf_modified b = false /\
  buf_data b = Ok (txt "xab") /\ synced tl = Some (txt "xab") /\
  steps uax29_15 [BUndo] b f tl b' f' tl' /\ buf_data b' = Ok (txt "ab") /\ buf_modified b' = true.
Proof.
  destruct (play_disk_tight (txt "ab") [BInsert (txt "x"); BSave WriteSucceeds; BDelete; BUndo])
    as [[[b f] tl]|] eqn:E; [|vm_compute in E; discriminate].
  pose proof (played_disk _ _ _ _ _ E eq_refl eq_refl) as [S W].
  destruct (play (map (pair tight) [BUndo]) b f tl) as [[[b' f'] tl']|] eqn:E';
    [|vm_compute in E; injection E as <- <- <-; vm_compute in E'; discriminate].
  exists b, f, tl, b', f', tl'. split; [exact S|].
  pose proof (play_steps _ _ _ _ _ _ _ (tight_all [BUndo]) W E') as [X _].
  assert (L : group tl = None) by (vm_compute in E; now injection E as _ _ <-).
  split; [intros s; rewrite L; discriminate|]. split; [exact L|].
  vm_compute in E. injection E as Eb Ef Et. rewrite <- Eb at 1. split; [vm_compute; reflexivity|].
  split; [rewrite <- Eb; vm_compute; reflexivity|]. split; [now rewrite <- Et|]. split; [exact X|].
  subst b f tl. vm_compute in E'. injection E' as <- _ _. split; vm_compute; reflexivity.
Qed.

(** C24, partial: while a group with edits is open, [modified()] answers for the
    state before the group (and C23 without such a group).  Missing: an answer
    for the present text. *)
Theorem C24_modified_in_group_partial : forall brk b f tl s,
  session brk b f tl -> group tl = Some (Some s) -> buf_modified b = negb (snd s).
Proof. exact modified_in_group. Qed.
Print Assumptions C24_modified_in_group_partial.

(** C24, full statement: false.  With edits in an open group the buffer calls
    itself unmodified though its text is not the one on disk; and after saving in
    a group, ending it and undoing, too (with no group open any more). *)
Theorem C24_modified_refuted :
  (exists b f, reachable_buffer uax29_15 b f /\ b_path b = Some the_path /\
     buf_modified b = false /\ buf_data b = Ok (txt "xab") /\
     read_to_string f the_path = Some (txt "ab")) /\
  (exists b f, reachable_buffer uax29_15 b f /\ b_path b = Some the_path /\ b_group b = None /\
     buf_modified b = false /\ buf_data b = Ok (txt "ab") /\
     read_to_string f the_path = Some (txt "xab")).
Proof.
  split.
  - destruct (from_disk [BStartGroup; BInsert (txt "x")] (one_file (txt "ab"))) as [[[os b] f]|] eqn:E;
      [|vm_compute in E; discriminate].
    pose proof (from_disk_reachable _ _ _ _ _ E eq_refl) as R. exists b, f. split; [exact R|].
    vm_compute in E. injection E as <- <- <-. repeat split; vm_compute; reflexivity.
  - destruct (from_disk [BStartGroup; BInsert (txt "x"); BSave WriteSucceeds; BEndGroup; BUndo]
                (one_file (txt "ab"))) as [[[os b] f]|] eqn:E; [|vm_compute in E; discriminate].
    pose proof (from_disk_reachable _ _ _ _ _ E eq_refl) as R. exists b, f. split; [exact R|].
    vm_compute in E. injection E as <- <- <-. repeat split; vm_compute; reflexivity.
Qed.
Print Assumptions C24_modified_refuted.

(** C25: a new buffer never given a path is always modified. *)
Theorem C25_pathless_is_modified : forall brk al b0 f cs os b f',
  buffer_new al = Ok b0 ->
  Forall (fun ac => alloc_ok (fst ac) /\ call_ok (snd ac)) cs ->
  Forall (fun ac => no_path (snd ac)) cs -> brun brk cs b0 f = Ok (os, b, f') ->
  buf_modified b = true.
Proof. exact pathless_modified. Qed.
Print Assumptions C25_pathless_is_modified.

Example C25_example : exists b0 os b f', buffer_new tight = Ok b0 /\
  brun uax29_15 (map (pair tight) [BInsert (txt "a"); BSave WriteSucceeds; BReload; BUndo; BSetPath None])
    b0 no_files = Ok (os, b, f') /\ buf_data b = Ok [] /\
  os = [BUnit; BResult (RErr IoError); BResult (RErr MissingPath); BUnit; BUnit].
Proof. do 4 eexists. split; [vm_compute; reflexivity|]. repeat split; vm_compute; reflexivity. Qed.

(** C26: a successful save leaves exactly the UTF-8 bytes of the text at the
    path and all other names of the same file, no other file changed, and of the
    buffer only the modified flag. *)
Theorem C26_save : forall brk b f w b' f', reachable_buffer brk b f ->
  buf_save f w b = Ok (ROk tt, b', f') ->
  exists p t, b_path b = Some p /\ buf_data b = Ok t /\ buf_data b' = Ok t /\
    (forall p', same_file f p' p -> fs_read f' p' = Some (enc t)) /\
    (forall p', ~ same_file f p' p -> fs_read f' p' = fs_read f p' /\ fs_canon f' p' = fs_canon f p') /\
    fs_target f' = fs_target f /\ buf_modified b' = false /\ only_mark_changed b b'.
Proof. exact save_ok. Qed.
Print Assumptions C26_save.

(** C26: loading it again, under any of its names, gives a buffer with the same text. *)
Theorem C26_save_then_load : forall brk b f w b' f' al, reachable_buffer brk b f ->
  buf_save f w b = Ok (ROk tt, b', f') ->
  exists p cp, b_path b = Some p /\ fs_target f p = Some cp /\ forall p', same_file f p' p ->
  exists b2, from_file al f' p' = Ok (ROk b2) /\ buf_data b2 = buf_data b /\
    c_pos (b_cursor b2) = Pos 0 0 /\ buf_modified b2 = false /\ b_path b2 = Some cp.
Proof. exact save_load. Qed.
Print Assumptions C26_save_then_load.

(** C26: a save succeeds exactly when there is a path, a file can be there and the
    writes succeed. *)
Theorem C26_save_outcome : forall brk b f w, reachable_buffer brk b f ->
  exists r b' f', buf_save f w b = Ok (r, b', f') /\
    (r = ROk tt <-> exists p, b_path b = Some p /\ fs_creatable f p = true /\ w = WriteSucceeds).
Proof. exact save_outcome. Qed.
Print Assumptions C26_save_outcome.

(** C26: loading a file that can be read as UTF-8. *)
Theorem C26_load : forall f p t al, read_to_string f p = Some t ->
  exists b cp, from_file al f p = Ok (ROk b) /\ buf_data b = Ok t /\ c_pos (b_cursor b) = Pos 0 0 /\
    buf_modified b = false /\ fs_target f p = Some cp /\ b_path b = Some cp.
Proof. exact load_ok. Qed.
Print Assumptions C26_load.

(** C26: loading succeeds exactly when the file holds the UTF-8 bytes of some
    text; it gives that text.  Anything else, such as bytes that are not UTF-8, is
    reported as an error. *)
Theorem C26_load_outcome : forall f p al, exists r, from_file al f p = Ok r /\
  match r with
  | ROk b => exists t, valid_text t /\ fs_read f p = Some (enc t) /\ buf_data b = Ok t
  | RErr e => e = IoError /\ forall t, valid_text t -> fs_read f p <> Some (enc t)
  end.
Proof. exact load_outcome. Qed.
Print Assumptions C26_load_outcome.

(** C26: the text a file is read as, by loading and reloading. *)
Theorem C26_readable : forall f p t,
  read_to_string f p = Some t <-> valid_text t /\ fs_read f p = Some (enc t).
Proof. exact readable. Qed.
Print Assumptions C26_readable.

Example C26_example : exists b f b' f', reachable_buffer uax29_15 b f /\
  buf_data b = Ok (e_acute ++ nl ++ txt "x") /\ buf_save f WriteSucceeds b = Ok (ROk tt, b', f') /\
  fs_read f' the_path = Some [195; 169; 10; 120]%N.
Proof.
  destruct (from_new [BInsert (e_acute ++ nl ++ txt "x"); BSetPath (Some the_path)] no_files)
    as [[[os b] f]|] eqn:E; [|vm_compute in E; discriminate].
  pose proof (from_new_reachable _ _ _ _ _ E eq_refl) as R.
  destruct (buf_save f WriteSucceeds b) as [[[r b'] f']|] eqn:X;
    [|vm_compute in E; injection E as _ <- <-; vm_compute in X; discriminate].
  exists b, f, b', f'. split; [exact R|]. vm_compute in E. injection E as _ <- <-.
  split; [vm_compute; reflexivity|]. vm_compute in X. injection X as <- <- <-.
  split; [reflexivity|vm_compute; reflexivity].
Qed.

(** C27, partial: a failing save leaves the buffer as it is, and the disk as it
    is or with a beginning of the new text in the file.  Missing: that the file
    is never left incomplete. *)
Theorem C27_failing_save_keeps_buffer_partial : forall f w b e b' f',
  buf_save f w b = Ok (RErr e, b', f') -> b' = b.
Proof. exact save_fails. Qed.
Print Assumptions C27_failing_save_keeps_buffer_partial.
Theorem C27_failing_save_disk_partial : forall brk b f w e b' f', reachable_buffer brk b f ->
  buf_save f w b = Ok (RErr e, b', f') ->
  f' = f \/ exists p t k, b_path b = Some p /\ buf_data b = Ok t /\ k <= List.length (enc t) /\
    (forall p', same_file f p' p -> fs_read f' p' = Some (firstn k (enc t))) /\
    (forall p', ~ same_file f p' p -> fs_read f' p' = fs_read f p' /\ fs_canon f' p' = fs_canon f p') /\
    fs_target f' = fs_target f.
Proof. exact save_fails_disk. Qed.
Print Assumptions C27_failing_save_disk_partial.

(** C27, full statement: false.  A failing write leaves a file that is neither
    the old nor the new one. *)
Theorem C27_failing_save_refuted : exists b f w e b' f' t,
  reachable_buffer uax29_15 b f /\ b_path b = Some the_path /\ buf_data b = Ok t /\
  buf_save f w b = Ok (RErr e, b', f') /\
  fs_read f' the_path <> fs_read f the_path /\ fs_read f' the_path <> Some (enc t).
Proof.
  destruct (from_disk [BInsert (txt "x")] (one_file (txt "ab"))) as [[[os b] f]|] eqn:E;
    [|vm_compute in E; discriminate].
  pose proof (from_disk_reachable _ _ _ _ _ E eq_refl) as R.
  exists b, f, (WriteFails 1), IoError. do 3 eexists. split; [exact R|].
  vm_compute in E. injection E as <- <- <-. split; [reflexivity|]. split; [vm_compute; reflexivity|].
  split; [vm_compute; reflexivity|]. split; vm_compute; discriminate.
Qed.
Print Assumptions C27_failing_save_refuted.

(** C28: a successful reload takes the text of the file, is unmodified, keeps
    id, syntax definition and path, and the previous text comes back with undo. *)
Theorem C28_reload : forall brk b f al al' b', reachable_buffer brk b f -> alloc_ok al -> alloc_ok al' ->
  buf_reload brk al f b = Ok (ROk tt, b') ->
  exists p s t, b_path b = Some p /\ read_to_string f p = Some s /\ buf_data b = Ok t /\
    buf_data b' = Ok s /\ buf_modified b' = false /\
    b_id b' = b_id b /\ b_syntax b' = b_syntax b /\ b_path b' = b_path b /\
    (b_group b = None -> s <> t -> exists b2, buf_undo brk al' b' = Ok b2 /\ buf_data b2 = Ok t).
Proof. exact reload_ok. Qed.
Print Assumptions C28_reload.

(** C28: it succeeds exactly when there is a path and a readable file, and
    otherwise changes nothing. *)
Theorem C28_reload_outcome : forall brk b f al, reachable_buffer brk b f -> alloc_ok al ->
  match b_path b with
  | None => buf_reload brk al f b = Ok (RErr MissingPath, b)
  | Some p => match read_to_string f p with
              | None => buf_reload brk al f b = Ok (RErr IoError, b)
              | Some _ => exists b', buf_reload brk al f b = Ok (ROk tt, b')
              end
  end.
Proof. exact reload_fails. Qed.
Print Assumptions C28_reload_outcome.

Example C28_example : exists b f b', reachable_buffer uax29_15 b f /\ b_group b = None /\
  buf_data b = Ok (txt "mine" ++ nl) /\ buf_reload uax29_15 tight f b = Ok (ROk tt, b') /\
  buf_data b' = Ok (crlf ++ acute).
Proof.
  destruct (from_disk [BInsert (txt "mine" ++ nl); BDisk (one_file (crlf ++ acute))] (one_file []))
    as [[[os b] f]|] eqn:E; [|vm_compute in E; discriminate].
  pose proof (from_disk_reachable _ _ _ _ _ E eq_refl) as R.
  exists b, f. eexists. split; [exact R|]. vm_compute in E. injection E as _ <- <-.
  split; [reflexivity|]. split; [vm_compute; reflexivity|]. split; [vm_compute; reflexivity|].
  vm_compute. reflexivity.
Qed.

(** C29: replace keeps the cursor where it was if that position exists in the
    new buffer, else at the start of its line, else at the origin; the cursor is
    in bounds.  Any text. *)
Theorem C29_replace_cursor : forall brk b f al s t b',
  reachable_buffer brk b f -> alloc_ok al -> valid_text s ->
  buf_data b = Ok t -> s <> t -> buf_replace brk al b s = Ok b' ->
  exists ok, (forall p, in_bounds brk (b_data b') p = Ok (ok p)) /\
    c_pos (b_cursor b') = kept_cursor ok (c_pos (b_cursor b)) /\ ok (c_pos (b_cursor b')) = true.
Proof. exact replace_cursor. Qed.
Print Assumptions C29_replace_cursor.

(** C29: for text with plain newlines, in terms of the positions of the text. *)
Theorem C29_replace_cursor_plain : forall brk b f al s t b',
  reachable_buffer brk b f -> alloc_ok al -> valid_text s ->
  plain_newlines brk s -> buf_data b = Ok t -> s <> t -> buf_replace brk al b s = Ok b' ->
  c_pos (b_cursor b') = kept_cursor (exists_at brk s) (c_pos (b_cursor b))
  /\ exists_at brk s (c_pos (b_cursor b')) = true.
Proof. exact replace_cursor_plain. Qed.
Print Assumptions C29_replace_cursor_plain.

(** C29: the new text is the given one; id, syntax definition, path and callback
    are kept. *)
Theorem C29_replace_text : forall brk al b f s t,
  reachable_buffer brk b f -> alloc_ok al -> valid_text s -> buf_data b = Ok t ->
  exists b', buf_replace brk al b s = Ok b' /\ buf_data b' = Ok s /\
    b_id b' = b_id b /\ b_syntax b' = b_syntax b /\ b_path b' = b_path b /\
    b_callback b' = b_callback b.
Proof. exact replace_keeps. Qed.
Print Assumptions C29_replace_text.

(** C29: replacing a text by itself does nothing at all. *)
Theorem C29_replace_same : forall brk b f al t, reachable_buffer brk b f -> buf_data b = Ok t ->
  buf_replace brk al b t = Ok b.
Proof. exact replace_same. Qed.
Print Assumptions C29_replace_same.

Example C29_example :
  kept_cursor (exists_at uax29_15 (txt "ab" ++ nl ++ txt "c")) (Pos 1 1) = Pos 1 1 /\
  kept_cursor (exists_at uax29_15 (txt "ab" ++ nl ++ txt "c")) (Pos 1 5) = Pos 1 0 /\
  kept_cursor (exists_at uax29_15 (txt "ab" ++ nl ++ txt "c")) (Pos 4 1) = Pos 0 0 /\
  exists b f, reachable_buffer uax29_15 b f /\ buf_data b = Ok (txt "abc") /\
    c_pos (b_cursor b) = Pos 0 3.
Proof.
  do 3 (split; [vm_compute; reflexivity|]).
  destruct (from_new [BInsert (txt "abc"); BMove MEnd] no_files) as [[[os b] f]|] eqn:E;
    [|vm_compute in E; discriminate].
  pose proof (from_new_reachable _ _ _ _ _ E eq_refl) as R. exists b, f. split; [exact R|].
  vm_compute in E. injection E as _ <- _. split; vm_compute; reflexivity.
Qed.

(** C30: with a callback installed, the positions it is given bound the change:
    lines before all of them are as before.  Any text. *)
Theorem C30_announced_lines : forall brk b f al c o b' f' t t',
  reachable_buffer brk b f -> alloc_ok al -> call_ok c -> b_callback b = true ->
  bexec brk al c b f = Ok (o, b', f') -> buf_data b = Ok t -> buf_data b' = Ok t' ->
  exists ps, b_log b' = b_log b ++ ps
    /\ forall n, Forall (fun p => n <= line p) ps -> same_lines n t t'.
Proof. exact call_announces. Qed.
Print Assumptions C30_announced_lines.

(** C30: any call that changes the text invokes it. *)
Theorem C30_change_is_announced : forall brk b f al c o b' f',
  reachable_buffer brk b f -> alloc_ok al -> call_ok c -> b_callback b = true ->
  bexec brk al c b f = Ok (o, b', f') -> buf_data b' <> buf_data b ->
  exists p ps, b_log b' = b_log b ++ p :: ps.
Proof. exact change_is_announced. Qed.
Print Assumptions C30_change_is_announced.

Example C30_example : exists b f o b' f', reachable_buffer uax29_15 b f /\ b_callback b = true /\
  buf_data b = Ok (txt "a" ++ nl ++ txt "b" ++ nl ++ txt "c") /\
  bexec uax29_15 tight (BDeleteRange (Pos 1 0) (Pos 2 0)) b f = Ok (o, b', f') /\
  b_log b' = b_log b ++ [Pos 1 0] /\ buf_data b' = Ok (txt "a" ++ nl ++ txt "c").
Proof.
  destruct (from_new [BInsert (txt "a" ++ nl ++ txt "b" ++ nl ++ txt "c"); BSetCallback true] no_files)
    as [[[os b] f]|] eqn:E; [|vm_compute in E; discriminate].
  pose proof (from_new_reachable _ _ _ _ _ E eq_refl) as R.
  exists b, f. do 3 eexists. split; [exact R|]. vm_compute in E. injection E as _ <- _.
  split; [reflexivity|]. split; [vm_compute; reflexivity|]. split; [vm_compute; reflexivity|].
  split; vm_compute; reflexivity.
Qed.
