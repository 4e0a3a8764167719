(** Property C90: change callbacks that panic, in programs that catch the panic.
    Statements only; the calls are in Throwing.v and what is said about them in
    ThrowSpec.v. *)
From Coq Require Import String.
From Verif Require Import Base Utf8 Grapheme UnicodeTable Position GapBuffer Cursor PathModel Buffer
  Spec CursorSpec BufferCalls BufferSimple Timeline Witness Disks BufferFacts Throwing ThrowSpec ThrowProofs ThrowGroupProofs.

(** C90: a call whose callback does not panic is an ordinary call. *)
Theorem C90_went : forall brk al n c b f o b' f',
  bexec_t brk al n c b f = Ok (Some o, b', f') -> bexec brk al c b f = Ok (o, b', f').
Proof. exact went. Qed.
Print Assumptions C90_went.

(** So is a session in which every panic was avoided: what was returned, the buffer
    and the disk are those of the ordinary calls. *)
Theorem C90_session_went : forall brk cs b f os b' f', brun_t brk cs b f = Ok (map Some os, b', f') ->
  brun brk (map (fun x => (fst (fst x), snd x)) cs) b f = Ok (os, b', f').
Proof. exact session_went. Qed.
Print Assumptions C90_session_went.

(** The call is ended by the panic exactly if the ordinary call would have called the
    callback more often than it returns; that call is its last. *)
Theorem C90_when : forall brk al n c b f o b1 f1, bexec brk al c b f = Ok (o, b1, f1) ->
  if List.length (b_log b1) <=? List.length (b_log b) + n
  then bexec_t brk al n c b f = Ok (Some o, b1, f1)
  else exists b', bexec_t brk al n c b f = Ok (None, b', f) /\
    List.length (b_log b') = List.length (b_log b) + n + 1.
Proof. exact when_thrown. Qed.
Print Assumptions C90_when.

Theorem C90_only_edits : forall brk al n c b f b' f',
  bexec_t brk al n c b f = Ok (None, b', f') -> editing c = true \/ history_call c = true.
Proof. exact only_edits. Qed.
Print Assumptions C90_only_edits.

(** Whatever panics were caught before, no call panics by itself, and the text is
    valid. *)
Theorem C90_no_panic : forall cls f b cs, cls LF = GC_LF -> fresh_buffer f b -> usable cs ->
  exists os b' f' t, brun_t (uax29 cls) cs b f = Ok (os, b', f') /\ buf_data b' = Ok t /\ valid_text t.
Proof. exact no_panic. Qed.
Print Assumptions C90_no_panic.

(** The lines above those announced before the panic stay as they are. *)
Theorem C90_announced : forall brk b f al n c o b' f' t t', usable_buffer brk b f -> alloc_ok al -> call_ok c ->
  bexec_t brk al n c b f = Ok (o, b', f') -> b_callback b = true -> buf_data b = Ok t -> buf_data b' = Ok t' ->
  exists ps, b_log b' = b_log b ++ ps /\ forall k, Forall (fun p => k <= line p) ps -> same_lines k t t'.
Proof. exact kept_above. Qed.
Print Assumptions C90_announced.

(** C90, partial: [insert], [delete], [delete_range], [replace] and [reload] leave the
    text, the cursor and the announcements of the complete call, and the history, the
    group and so [modified] of before.  Missing: that the edit can be undone and that
    the buffer is modified, which is false. *)
Theorem C90_edits_partial : forall brk al n c b f b' f', editing c = true ->
  bexec_t brk al n c b f = Ok (None, b', f') ->
  f' = f /\ exists o b1, bexec brk al c b f = Ok (o, b1, f) /\ b' = forgetting b b1.
Proof. exact edit_thrown. Qed.
Print Assumptions C90_edits_partial.

(** C90, partial: [undo] has reversed the last edits of its operation, at least one.
    Missing: that it has reversed all or none, which is false of groups. *)
Theorem C90_undo_partial : forall brk al n b f b' f', bexec_t brk al n BUndo b f = Ok (None, b', f') ->
  f' = f /\ exists op b0 ops1 ops2,
    to_undo b = Some op /\ parts op = ops1 ++ ops2 /\ ops2 <> [] /\
    b_data b0 = b_data b /\ b_cursor b0 = b_cursor b /\ b_log b0 = b_log b /\
    op_reverse brk al (OpGroup ops2) b0 = Ok b' /\
    op_reverse brk al (OpGroup (ops1 ++ ops2)) b0 = buf_undo brk al b.
Proof. exact undo_thrown. Qed.
Print Assumptions C90_undo_partial.

(** C90, partial: [redo] has made the first edits of its operation, at least one.
    Missing: that it has made all or none, which is false of groups. *)
Theorem C90_redo_partial : forall brk al n b f b' f', bexec_t brk al n BRedo b f = Ok (None, b', f') ->
  f' = f /\ exists op b0 ops1 ops2,
    to_redo b = Some op /\ parts op = ops1 ++ ops2 /\ ops1 <> [] /\
    b_data b0 = b_data b /\ b_cursor b0 = b_cursor b /\ b_log b0 = b_log b /\
    (let* (_, b2) := op_run brk al (OpGroup ops1) b0 in Ok b2) = Ok b' /\
    (let* (_, b2) := op_run brk al (OpGroup (ops1 ++ ops2)) b0 in Ok b2) = buf_redo brk al b.
Proof. exact redo_thrown. Qed.
Print Assumptions C90_redo_partial.

(** The history, the group and so [modified] are those of the complete undo or redo. *)
Theorem C90_history : forall brk al n c b f b' f' o b1 f1, history_call c = true ->
  bexec_t brk al n c b f = Ok (None, b', f') -> bexec brk al c b f = Ok (o, b1, f1) -> same_records b1 b'.
Proof. exact history_records. Qed.
Print Assumptions C90_history.

(** With an operation of one edit, [undo] and [redo] are complete. *)
Theorem C90_single_undo : forall brk al n b f b' f' op, bexec_t brk al n BUndo b f = Ok (None, b', f') ->
  to_undo b = Some op -> List.length (parts op) = 1 -> buf_undo brk al b = Ok b'.
Proof. exact single_undo. Qed.
Print Assumptions C90_single_undo.
Theorem C90_single_redo : forall brk al n b f b' f' op, bexec_t brk al n BRedo b f = Ok (None, b', f') ->
  to_redo b = Some op -> List.length (parts op) = 1 -> buf_redo brk al b = Ok b'.
Proof. exact single_redo. Qed.
Print Assumptions C90_single_redo.

(** A group whose [undo] is ended by the callback leaves a text that the buffer had
    while the group was made, before its last call. *)
Theorem C90_group_undo : forall brk b f tl cs b1 f1 tl1 al n b2 f2, session brk b f tl -> group tl = None ->
  forallb (fun c => neutral c || edits c) cs = true -> existsb inserts_or_cuts cs = true ->
  steps brk (BStartGroup :: cs) b f tl b1 f1 tl1 \/ steps brk (BStartGroup :: cs ++ [BEndGroup]) b f tl b1 f1 tl1 ->
  alloc_ok al -> bexec_t brk al n BUndo b1 f1 = Ok (None, b2, f2) ->
  exists cs1 cs2 bm fm tlm, cs = (cs1 ++ cs2)%list /\ cs2 <> [] /\ steps brk (BStartGroup :: cs1) b f tl bm fm tlm /\
    buf_data b2 = Ok (tl_text tlm).
Proof. exact half_undone. Qed.
Print Assumptions C90_group_undo.

(** One whose [redo] is ended leaves a text that the buffer had while the group was
    made, after its first call. *)
Theorem C90_group_redo : forall brk b f tl cs b1 f1 tl1 al n b2 f2, session brk b f tl -> group tl = None ->
  forallb (fun c => neutral c || edits c) cs = true -> existsb inserts_or_cuts cs = true ->
  steps brk (BStartGroup :: cs ++ [BEndGroup; BUndo]) b f tl b1 f1 tl1 ->
  alloc_ok al -> bexec_t brk al n BRedo b1 f1 = Ok (None, b2, f2) ->
  exists cs1 cs2 bm fm tlm, cs = (cs1 ++ cs2)%list /\ cs1 <> [] /\ steps brk (BStartGroup :: cs1) b f tl bm fm tlm /\
    buf_data b2 = Ok (tl_text tlm).
Proof. exact half_redone. Qed.
Print Assumptions C90_group_redo.

(** With the text "z", "a" and "b" are inserted as a group, and the text is
    replaced by "new".  The callback panics in the second edit of [undo], and of [redo]: "az" and "baz". *)
Example C90_group_example : exists b f tl b1 f1 tl1 b2 b3 f3 tl3 b4,
  let cs := [BInsert (txt "a"); BMove MRight; BMove MLeft; BInsert (txt "b"); BReplace (txt "new")] in
  session uax29_15 b f tl /\ group tl = None /\
  steps uax29_15 (BStartGroup :: cs ++ [BEndGroup]) b f tl b1 f1 tl1 /\
  bexec_t uax29_15 tight 1 BUndo b1 f1 = Ok (None, b2, f1) /\ buf_data b2 = Ok (txt "az") /\
  steps uax29_15 (BStartGroup :: cs ++ [BEndGroup; BUndo]) b f tl b3 f3 tl3 /\
  bexec_t uax29_15 tight 1 BRedo b3 f3 = Ok (None, b4, f3) /\ buf_data b4 = Ok (txt "baz").
Proof.
  destruct (play_new_tight [BInsert (txt "z"); BSetCallback true] no_files) as [[[b f] tl]|] eqn:E; [|vm_compute in E; discriminate E].
  pose proof (played_new _ _ _ _ _ E) as [S W]. vm_compute in E. injection E as ? ? ?.
  pose (cs := [BStartGroup; BInsert (txt "a"); BMove MRight; BMove MLeft; BInsert (txt "b"); BReplace (txt "new"); BEndGroup]).
  assert (P1 : exists b1 f1 tl1, play (map (pair tight) cs) b f tl = Some (b1, f1, tl1)).
  { destruct (play (map (pair tight) cs) b f tl) as [[[b1 f1] tl1]|] eqn:P; [now exists b1, f1, tl1|subst b f tl; vm_compute in P; discriminate]. }
  assert (P3 : exists b3 f3 tl3, play (map (pair tight) (cs ++ [BUndo])) b f tl = Some (b3, f3, tl3)).
  { clear P1. destruct (play (map (pair tight) (cs ++ [BUndo])) b f tl) as [[[b3 f3] tl3]|] eqn:P;
      [now exists b3, f3, tl3|subst b f tl; vm_compute in P; discriminate]. }
  destruct P1 as (b1 & f1 & tl1 & P1), P3 as (b3 & f3 & tl3 & P3). unfold cs in P1, P3. clear cs.
  pose proof (play_steps _ _ _ _ _ _ _ (tight_all _) W P1) as [S1 _].
  pose proof (play_steps _ _ _ _ _ _ _ (tight_all _) W P3) as [S3 _].
  destruct (bexec_t uax29_15 tight 1 BUndo b1 f1) as [[[[|] b2] f2]|] eqn:U;
    [clear P3; subst b f tl; vm_compute in P1; injection P1 as <- <- <-; vm_compute in U; discriminate| |
     clear P3; subst b f tl; vm_compute in P1; injection P1 as <- <- <-; vm_compute in U; discriminate].
  destruct (bexec_t uax29_15 tight 1 BRedo b3 f3) as [[[[|] b4] f4]|] eqn:R;
    [clear P1; subst b f tl; vm_compute in P3; injection P3 as <- <- <-; vm_compute in R; discriminate| |
     clear P1; subst b f tl; vm_compute in P3; injection P3 as <- <- <-; vm_compute in R; discriminate].
  assert (f2 = f1) by (now apply undo_thrown in U). assert (f4 = f3) by (now apply redo_thrown in R). subst f2 f4.
  exists b, f, tl, b1, f1, tl1, b2, b3, f3, tl3, b4. split; [exact S|]. split; [now subst tl|]. split; [exact S1|]. split; [exact U|].
  split; [clear P3; subst b f tl; vm_compute in P1; injection P1 as <- <- <-; vm_compute in U; injection U as <-; vm_compute; reflexivity|].
  split; [exact S3|]. split; [exact R|].
  clear P1; subst b f tl; vm_compute in P3; injection P3 as <- <- <-; vm_compute in R; injection R as <-; vm_compute; reflexivity.
Qed.

(** Whatever panics were caught before, a [reload] that succeeds leaves the text of the
    file, unmodified. *)
Theorem C90_reload : forall brk b f al n b' f', usable_buffer brk b f -> alloc_ok al ->
  bexec_t brk al n BReload b f = Ok (Some (BResult (ROk tt)), b', f') ->
  exists p t, b_path b = Some p /\ read_to_string f p = Some t /\ buf_data b' = Ok t /\ buf_modified b' = false.
Proof. exact reload_again. Qed.
Print Assumptions C90_reload.

(** A file "x" is loaded.  The callback panics during [insert "a"]; "b" and "c" are
    inserted as a group; it panics when [undo] has taken back "c", and during [delete];
    [redo] is ended after its first edit; then the file is loaded again. *)
Example C90_example : exists b0, fresh_buffer (one_file (txt "x")) b0 /\
  let cs := [(tight, 0, BSetCallback true); (tight, 0, BInsert (txt "a")); (tight, 0, BStartGroup);
             (tight, 1, BInsert (txt "b")); (tight, 1, BInsert (txt "c")); (tight, 0, BEndGroup);
             (tight, 0, BUndo); (tight, 0, BDelete); (tight, 0, BRedo); (tight, 1, BReload)] in
  usable cs /\
  seen (brun_t uax29_15 cs b0 (one_file (txt "x")))
    = Some ([Some BUnit; None; Some BUnit; Some BUnit; Some BUnit; Some BUnit; None; None; None; Some (BResult (ROk tt))],
            txt "x", false) /\
  seen (brun_t uax29_15 (firstn 9 cs) b0 (one_file (txt "x")))
    = Some ([Some BUnit; None; Some BUnit; Some BUnit; Some BUnit; Some BUnit; None; None; None], txt "bax", true).
Proof.
  destruct (from_file tight (one_file (txt "x")) the_path) as [[b0|]|] eqn:E; try (vm_compute in E; discriminate).
  exists b0. split; [right; exists tight, the_path; exact E|]. vm_compute in E. injection E as <-.
  split; [repeat constructor; cbn [fst snd call_ok]; solve [apply tight_ok|now apply valid_textb_ok]|].
  split; vm_compute; reflexivity.
Qed.

(** The callback returns as often as it is called, and the file is saved. *)
Example C90_session_example : exists b0 os b' f', fresh_buffer (one_file (txt "x")) b0 /\
  brun_t uax29_15 [(tight, 0, BSetCallback true); (tight, 1, BInsert (txt "a")); (tight, 0, BSave WriteSucceeds)] b0 (one_file (txt "x"))
    = Ok (map Some os, b', f') /\
  os = [BUnit; BUnit; BResult (ROk tt)] /\ read_to_string f' the_path = Some (txt "ax").
Proof.
  destruct (from_file tight (one_file (txt "x")) the_path) as [[b0|]|] eqn:E; try (vm_compute in E; discriminate).
  exists b0, [BUnit; BUnit; BResult (ROk tt)]. assert (Hf : fresh_buffer (one_file (txt "x")) b0) by (right; exists tight, the_path; exact E).
  vm_compute in E. injection E as <-. eexists _, _. split; [exact Hf|]. split; [cbn; reflexivity|]. split; [reflexivity|vm_compute; reflexivity].
Qed.

(** The callback panics when the only edit, "a", is undone, and when it is redone. *)
Example C90_single_example : exists b0 b1 b2 b3, buffer_new tight = Ok b0 /\
  buf_insert uax29_15 tight (set_callback b0 true) (txt "a") = Ok b1 /\
  buf_undo_t uax29_15 tight 0 b1 = Ok (None, b2) /\ option_map (fun op => List.length (parts op)) (to_undo b1) = Some 1 /\
  buf_redo_t uax29_15 tight 0 b2 = Ok (None, b3) /\ option_map (fun op => List.length (parts op)) (to_redo b2) = Some 1.
Proof.
  destruct (buffer_new tight) as [b0|] eqn:E0; [|vm_compute in E0; discriminate].
  destruct (buf_insert uax29_15 tight (set_callback b0 true) (txt "a")) as [b1|] eqn:E1;
    [|vm_compute in E0; injection E0 as <-; vm_compute in E1; discriminate].
  exists b0, b1. vm_compute in E0. injection E0 as <-. vm_compute in E1. injection E1 as <-.
  match goal with |- context [buf_undo_t ?x ?y ?z ?b] => destruct (buf_undo_t x y z b) as [[[u|] b2]|] eqn:E2 end;
    try (vm_compute in E2; discriminate).
  exists b2. vm_compute in E2. injection E2 as <-.
  match goal with |- context [buf_redo_t ?x ?y ?z ?b] => destruct (buf_redo_t x y z b) as [[[u|] b3]|] eqn:E3 end;
    try (vm_compute in E3; discriminate).
  exists b3. vm_compute in E3. injection E3 as <-. repeat split; vm_compute; reflexivity.
Qed.

(** C90, full statement: false.  A file "x" is loaded, and the callback panics during
    [insert "a"]: the text is "ax", and the buffer is unmodified. *)
Theorem C90_modified_refuted : exists b0, fresh_buffer (one_file (txt "x")) b0 /\
  seen (brun_t uax29_15 [(tight, 0, BSetCallback true); (tight, 0, BInsert (txt "a"))] b0 (one_file (txt "x")))
    = Some ([Some BUnit; None], txt "ax", false).
Proof.
  destruct (from_file tight (one_file (txt "x")) the_path) as [[b0|]|] eqn:E; try (vm_compute in E; discriminate).
  exists b0. split; [right; exists tight, the_path; exact E|]. vm_compute in E. injection E as <-. vm_compute. reflexivity.
Qed.
Print Assumptions C90_modified_refuted.

(** "a" is inserted; the callback panics when "bc" is inserted before it; [undo]
    leaves "ca", a text the buffer never had. *)
Theorem C90_undo_refuted : exists b0, fresh_buffer no_files b0 /\
  let cs := [(tight, 0, BInsert (txt "a")); (tight, 0, BSetCallback true); (tight, 0, BInsert (txt "bc"))] in
  seen (brun_t uax29_15 cs b0 no_files) = Some ([Some BUnit; Some BUnit; None], txt "bca", true) /\
  seen (brun_t uax29_15 (cs ++ [(tight, 1, BUndo)]) b0 no_files)
    = Some ([Some BUnit; Some BUnit; None; Some BUnit], txt "ca", true).
Proof.
  destruct (buffer_new tight) as [b0|] eqn:E; [|vm_compute in E; discriminate].
  exists b0. split; [left; exists tight; exact E|]. vm_compute in E. injection E as <-. split; vm_compute; reflexivity.
Qed.
Print Assumptions C90_undo_refuted.

(** "a" and then "b" are inserted at the beginning, as a group; the callback panics
    when [undo] has taken back "b": the text is "a", neither that before nor that
    after the group.  [redo] then gives "baa". *)
Theorem C90_group_refuted : exists b0, fresh_buffer no_files b0 /\
  let cs := [(tight, 0, BStartGroup); (tight, 0, BInsert (txt "a")); (tight, 0, BInsert (txt "b"));
             (tight, 0, BEndGroup); (tight, 0, BSetCallback true); (tight, 0, BUndo)] in
  seen (brun_t uax29_15 cs b0 no_files)
    = Some ([Some BUnit; Some BUnit; Some BUnit; Some BUnit; Some BUnit; None], txt "a", true) /\
  seen (brun_t uax29_15 (cs ++ [(tight, 2, BRedo)]) b0 no_files)
    = Some ([Some BUnit; Some BUnit; Some BUnit; Some BUnit; Some BUnit; None; Some BUnit], txt "baa", true).
Proof.
  destruct (buffer_new tight) as [b0|] eqn:E; [|vm_compute in E; discriminate].
  exists b0. split; [left; exists tight; exact E|]. vm_compute in E. injection E as <-. split; vm_compute; reflexivity.
Qed.
Print Assumptions C90_group_refuted.
