(** Properties C54-C56: the cursor, the announcements, and the whole of a
    buffer.  Statements only; the specification is Spec.v, CursorSpec.v,
    BufferCalls.v, Timeline.v and Editor.v. *)
From Coq Require Import String.
From Verif Require Import Base Utf8 Grapheme GraphemeProofs UnicodeTable Position GapBuffer
  Cursor PathModel Buffer ClusterSpec Spec CursorSpec Calls CursorCalls TextProofs UaxProofs GapProps TextFacts
  BufferCalls Timeline BufferSimple Witness Disks BufferFacts Editor EditorProofs EditorProps.

(** C54: editing at the cursor or elsewhere, grouping, saving and assigning
    fields leave the cursor exactly where it is, for any text, segmentation,
    history and buffer state. *)
Theorem C54_cursor_stays : forall brk al c b f o b' f', cursor_stays c = true ->
  bexec brk al c b f = Ok (o, b', f') -> b_cursor b' = b_cursor b.
Proof. exact cursor_untouched. Qed.
Print Assumptions C54_cursor_stays.

Example C54_example : exists b0 b1 f',
  brun uax29_15 (map (pair tight) [BInsert (txt "ab"); BMove MEnd]) b0 no_files = Ok ([BUnit; BUnit], b1, f') /\
  fresh_buffer no_files b0 /\ view (b_cursor b1) = SC (Pos 0 2) 2 /\
  exists b2, bexec uax29_15 tight (BDeleteRange (Pos 0 0) (Pos 0 2)) b1 f' = Ok (BUnit, b2, f') /\
    view (b_cursor b2) = SC (Pos 0 2) 2 /\ buf_data b2 = Ok [].
Proof.
  destruct (buffer_new tight) as [b0|] eqn:E0; [|vm_compute in E0; discriminate]. exists b0.
  destruct (brun uax29_15 (map (pair tight) [BInsert (txt "ab"); BMove MEnd]) b0 no_files) as [[[os b1] f']|] eqn:E1;
    vm_compute in E0; injection E0 as <-; [|vm_compute in E1; discriminate].
  exists b1, f'. assert (os = [BUnit; BUnit]) as -> by (vm_compute in E1; injection E1 as <- _ _; reflexivity).
  split; [reflexivity|]. split; [left; exists tight; reflexivity|].
  vm_compute in E1. injection E1 as <- <-. split; [reflexivity|]. eexists. split; [vm_compute; reflexivity|].
  split; reflexivity.
Qed.

(** C55: every call but [undo] and [redo] announces exactly the positions of
    [announced], for any text, segmentation, history and buffer state. *)
Theorem C55_announced_exactly : forall brk al c b f o b' f' t ps, buf_data b = Ok t ->
  announced c (c_pos (b_cursor b)) t (file_of b f) = Some ps ->
  bexec brk al c b f = Ok (o, b', f') ->
  b_log b' = if b_callback b then b_log b ++ ps else b_log b.
Proof. exact announced_exactly. Qed.
Print Assumptions C55_announced_exactly.

Example C55_example :
  announced (BInsert (txt "x")) (Pos 3 1) (txt "a") None = Some [Pos 3 1] /\
  announced (BDeleteRange (Pos 4 0) (Pos 2 7)) (Pos 3 1) (txt "a") None = Some [Pos 2 7] /\
  announced (BReplace (txt "b")) (Pos 3 1) (txt "a") None = Some [Pos 0 0] /\
  announced (BReplace (txt "a")) (Pos 3 1) (txt "a") None = Some [] /\
  exists b f', from_new [BSetCallback true; BInsert (txt "ab"); BMove MRight; BInsert (txt "c");
                         BDeleteRange (Pos 0 2) (Pos 0 1)] no_files = Ok ([BUnit; BUnit; BUnit; BUnit; BUnit], b, f') /\
    b_log b = [Pos 0 0; Pos 0 1; Pos 0 1].
Proof. repeat split. do 2 eexists. split; vm_compute; reflexivity. Qed.

(** C56: a buffer is the editor of Editor.v.  From a new buffer or one loaded
    from a file, under the UAX #29 rules over any class table, any sequence of
    legal calls returns what the editor returns, and leaves a buffer that looks
    (text, reads, bounds, line count, modified flag, cursor, path, id, syntax,
    callback, announcements) like the editor, and its disk. *)
Theorem C56_buffer_is_an_editor : forall cls cs b e, cls CR = GC_CR -> cls LF = GC_LF ->
  ed_start (uax29 cls) b e -> Forall (fun ac => alloc_ok (fst ac)) cs ->
  ed_legals (uax29 cls) (map snd cs) e ->
  exists b' f', brun (uax29 cls) cs b (ed_disk e) = Ok (fst (ed_run (uax29 cls) (map snd cs) e), b', f')
    /\ looks (uax29 cls) b' (snd (ed_run (uax29 cls) (map snd cs) e))
    /\ f' = ed_disk (snd (ed_run (uax29 cls) (map snd cs) e)).
Proof. exact buffer_is_editor. Qed.
Print Assumptions C56_buffer_is_an_editor.

(** C56: for texts made of simple clusters (letters with marks, ASCII, ...)
    nothing needs to be checked but the circumstances [allowed]. *)
Theorem C56_simple_texts : forall cls cs b e, cls CR = GC_CR -> cls LF = GC_LF ->
  ed_start (uax29 cls) b e -> words (simple_cluster cls) (ed_text e) ->
  Forall (fun ac => alloc_ok (fst ac)) cs ->
  ed_simples (words (simple_cluster cls)) (uax29 cls) (map snd cs) e ->
  exists b' f', brun (uax29 cls) cs b (ed_disk e) = Ok (fst (ed_run (uax29 cls) (map snd cs) e), b', f')
    /\ looks (uax29 cls) b' (snd (ed_run (uax29 cls) (map snd cs) e))
    /\ f' = ed_disk (snd (ed_run (uax29 cls) (map snd cs) e)).
Proof. exact simple_editor. Qed.
Print Assumptions C56_simple_texts.

Definition demo : list bcall :=
  [BSetCallback true; BMove MDown; BInsert (txt "xy"); BMove MEnd; BStartGroup; BReplace (txt "q" ++ nl ++ txt "r");
   BDeleteRange (Pos 1 0) (Pos 0 1); BEndGroup; BSave WriteSucceeds; BUndo; BUndo; BMove MEnd; BRedo; BRedo].
Example C56_example : exists b e, ed_start uax29_15 b e /\
  ed_text e = txt "abc" ++ nl ++ txt "de" /\
  ed_simples (words (simple_cluster gcb15)) uax29_15 demo e /\
  let e' := snd (ed_run uax29_15 demo e) in
  ed_text e' = txt "qr" /\ ed_modified e' = false /\ ed_cursor e' = SC (Pos 1 0) 0 /\
  ed_heard e' = [Pos 1 0; Pos 0 0; Pos 0 1; Pos 0 1; Pos 0 0; Pos 1 0; Pos 1 0; Pos 0 0; Pos 0 1].
Proof.
  destruct (from_file tight (one_file (txt "abc" ++ nl ++ txt "de")) the_path) as [[b|]|] eqn:E;
    try (vm_compute in E; discriminate).
  exists b, (ed_open_file (one_file (txt "abc" ++ nl ++ txt "de")) the_path (txt "abc" ++ nl ++ txt "de")).
  split; [|split; [reflexivity|split; [apply ed_simplesb_ok; vm_compute; reflexivity|vm_compute; auto]]].
  right. exists tight, the_path, the_path, (txt "abc" ++ nl ++ txt "de"). cbn [ed_disk ed_open_file].
  split; [exact E|]. split; [|repeat split; vm_compute; reflexivity].
  eapply words_plain; [apply (simple_indep gcb15)|apply simple_newline_family, gcb15_LF|].
  now apply ascii_words, ascii_no_crb_ok.
Qed.
