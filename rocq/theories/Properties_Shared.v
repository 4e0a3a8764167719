(** Properties C57-C61: the storage a buffer shares with its cursor, with clones
    of the cursor and with the change callback.  Statements only; the
    specification is SharedSpec.v, with BufferCalls.v for the calls. *)
From Coq Require Import String.
From Verif Require Import Base Utf8 Grapheme GraphemeProofs UnicodeTable Position GapBuffer
  Cursor PathModel Buffer ClusterSpec Spec CursorSpec Calls CursorCalls HalvesProofs BufferCalls Witness Disks
  Shared SharedSpec SharedProofs SharedUseProofs SharedWitness.

(** C57: no program panics, on a borrow or otherwise.  Whatever calls of the
    buffer, of clones of its cursor and of the shared storage a program has made,
    in any order, with a callback that itself borrows the storage, the next call
    succeeds and leaves no borrow out. *)
Theorem C57_no_borrow_conflict : forall cls p al c, cls LF = GC_LF ->
  reaches (uax29 cls) (fun _ => True) p -> alloc_ok al -> pcall_ok c ->
  exists o p', pexec (uax29 cls) al c p = Ok (o, p') /\ at_rest (pr_heap p').
Proof. exact (fun cls p al c H => no_conflict (uax29 cls) _ p al c (uax29_order_safe cls H)). Qed.
Print Assumptions C57_no_borrow_conflict.

Example C57_example : exists os p,
  run_new [PBuffer (BSetCallback true); PClone; PBuffer (BInsert (txt "ab")); PBuffer BDelete;
           PBuffer (BReplace (txt "xyz")); PBuffer BUndo; PMove 0 MEnd; PAssign 0; PStorage 0 (GInsert (txt "q") (Pos 0 0));
           PBuffer (BMove MRight)] = Ok (os, p) /\
  reaches uax29_15 (fun _ => True) p /\ List.length (pr_heap p) = 3 /\ at_rest (pr_heap p) /\
  ptext p = Ok (txt "b").
Proof.
  destruct (run_new _) as [[os p]|] eqn:E; [|vm_compute in E; discriminate]. exists os, p. split; [reflexivity|].
  split; [eapply runs_new; [exact E|]|].
  - repeat (constructor; [split; [|exact I]; cbn; solve [exact I|now apply valid_textb_ok]|]). constructor.
  - vm_compute in E. injection E as _ <-. split; [reflexivity|]. split; [|reflexivity]. repeat constructor.
Qed.

(** C58: the sharing is unobservable to programs that neither assign
    [buffer.cursor] nor write the storage through a handle: the buffer then gives
    the results, the disk and the state that Buffer.v computes with the text as a
    plain value. *)
Theorem C58_value_model : forall brk f p cs, starts f p ->
  Forall (fun ac => alloc_ok (fst ac) /\ pcall_ok (snd ac) /\ ordinary (snd ac)) cs ->
  exists v, buffer_of p = Some v /\ fresh_buffer f v /\
    match brun brk (buffer_calls cs) v f with
    | Ok (os, v', f') => exists os' p', prun brk cs p = Ok (os', p') /\ buffer_outs os' = os /\
        pr_disk p' = f' /\ buffer_of p' = Some v'
    | Panic => prun brk cs p = Panic
    end.
Proof. exact value_model. Qed.
Print Assumptions C58_value_model.

Theorem C58_reachable : forall brk p, reaches brk ordinary p ->
  exists v, buffer_of p = Some v /\ reachable_buffer brk v (pr_disk p).
Proof. exact (fun brk p R => proj2 (ordinary_run brk p R)). Qed.
Print Assumptions C58_reachable.

(** The buffer's own cursor then always refers to the buffer's own storage. *)
Theorem C58_cursor_shares : forall brk p, reaches brk ordinary p ->
  rc_data (rb_cursor (pr_buffer p)) = rb_data (pr_buffer p).
Proof. exact (fun brk p R => proj1 (ordinary_run brk p R)). Qed.
Print Assumptions C58_cursor_shares.

Example C58_example : exists os p v,
  run_new [PClone; PBuffer (BInsert (txt "ab")); PMove 0 MRight; PBuffer (BReplace (txt "xyz"));
           PStorage 0 GToString; PBuffer (BMove MEnd); PBuffer BUndo] = Ok (os, p) /\
  reaches uax29_15 ordinary p /\ nth_error os 4 = Some (PGout (OText (txt "ab"))) /\
  buffer_of p = Some v /\ buf_data v = Ok (txt "ab") /\ c_pos (b_cursor v) = Pos 0 0.
Proof.
  destruct (run_new _) as [[os p]|] eqn:E; [|vm_compute in E; discriminate]. exists os, p. eexists. split; [reflexivity|].
  split; [eapply runs_new; [exact E|]|].
  - repeat (constructor; [split; [|exact I]; cbn; solve [exact I|now apply valid_textb_ok]|]). constructor.
  - vm_compute in E. injection E as <- <-. split; [reflexivity|]. split; [reflexivity|]. split; reflexivity.
Qed.

(** C59: a clone of the buffer's cursor moves in the buffer's text.  Proved for
    ordinary programs that do not replace the whole text ([replace], [reload]):
    a clone moves exactly as the buffer's own cursor would from its position.
    Missing: programs that do; for those it is false. *)
Theorem C59_clones_follow_partial : forall brk p v i k m al,
  reaches brk (fun c => ordinary c /\ in_place c) p -> buffer_of p = Some v ->
  nth_error (pr_cursors p) i = Some k ->
  exists k' p', pexec brk al (PMove i m) p = Ok (PUnit, p') /\ nth_error (pr_cursors p') i = Some k' /\
    cexec brk (b_data v) m (rc_at k) = Ok (rc_at k') /\ buffer_of p' = Some v.
Proof. exact clone_moves. Qed.
Print Assumptions C59_clones_follow_partial.

(** After [replace] a clone still moves in the old text: to a place the buffer
    does not have. *)
Theorem C59_clones_follow_refuted : exists p v k p' k',
  reaches uax29_15 ordinary p /\ buffer_of p = Some v /\ buf_data v = Ok (txt "x") /\
  nth_error (pr_cursors p) 0 = Some k /\ c_pos (rc_at k) = Pos 0 0 /\
  pexec uax29_15 tight (PMove 0 MEnd) p = Ok (PUnit, p') /\ nth_error (pr_cursors p') 0 = Some k' /\
  c_pos (rc_at k') = Pos 0 4 /\ in_bounds uax29_15 (b_data v) (Pos 0 4) = Ok false.
Proof.
  destruct (run_new [PBuffer (BInsert (txt "abcd")); PClone; PBuffer (BReplace (txt "x"))]) as [[os p]|] eqn:E;
    [|vm_compute in E; discriminate].
  exists p. do 4 eexists. split; [eapply runs_new; [exact E|]|].
  - repeat (constructor; [split; [|exact I]; cbn; solve [exact I|now apply valid_textb_ok]|]). constructor.
  - vm_compute in E. injection E as _ <-. repeat (split; [vm_compute; reflexivity|]). vm_compute. reflexivity.
Qed.
Print Assumptions C59_clones_follow_refuted.

Example C59_example : exists os p v k,
  run_new [PBuffer (BInsert (txt "abcd")); PClone; PBuffer (BDeleteRange (Pos 0 1) (Pos 0 3))] = Ok (os, p) /\
  reaches uax29_15 (fun c => ordinary c /\ in_place c) p /\ buffer_of p = Some v /\
  nth_error (pr_cursors p) 0 = Some k /\ buf_data v = Ok (txt "ad").
Proof.
  destruct (run_new _) as [[os p]|] eqn:E; [|vm_compute in E; discriminate]. exists os, p. do 2 eexists. split; [reflexivity|].
  split; [eapply runs_new; [exact E|]|].
  - repeat (constructor; [split; [|split; exact I]; cbn; solve [exact I|now apply valid_textb_ok]|]). constructor.
  - vm_compute in E. injection E as _ <-. repeat (split; [reflexivity|]). reflexivity.
Qed.

(** C60: a change callback that reads the text through a handle it captured
    ([buffer.cursor.data.clone()]) sees the changed text: if a call announces
    anything, the last thing the callback read is the text the call leaves; if it
    announces nothing the text is as before.  Proved for ordinary programs that do
    not replace the whole text.  Missing: programs that do; for those it is
    false. *)
Theorem C60_callback_sees_change_partial : forall brk p al c o p',
  reaches brk (fun c => ordinary c /\ in_place c) p -> rb_callback (pr_buffer p) <> None ->
  alloc_ok al -> call_ok c -> in_place (PBuffer c) -> keeps_callback c ->
  pexec brk al (PBuffer c) p = Ok (o, p') ->
  exists l, rb_log (pr_buffer p') = rb_log (pr_buffer p) ++ l /\
    match rev l with
    | [] => ptext p' = ptext p
    | (_, t) :: _ => ptext p' = Ok t
    end.
Proof. exact callback_sees. Qed.
Print Assumptions C60_callback_sees_change_partial.

(** A callback told of a [replace] reads the text from before it. *)
Theorem C60_callback_sees_change_refuted : exists p o p' q t,
  reaches uax29_15 ordinary p /\ rb_callback (pr_buffer p) <> None /\
  pexec uax29_15 tight (PBuffer (BReplace (txt "x"))) p = Ok (o, p') /\
  rb_log (pr_buffer p') = rb_log (pr_buffer p) ++ [(q, t)] /\
  t = txt "ab" /\ ptext p' = Ok (txt "x").
Proof.
  destruct (run_new [PBuffer (BInsert (txt "ab")); PBuffer (BSetCallback true)]) as [[os p]|] eqn:E;
    [|vm_compute in E; discriminate].
  exists p. do 4 eexists. split; [eapply runs_new; [exact E|]|].
  - repeat (constructor; [split; [|exact I]; cbn; solve [exact I|now apply valid_textb_ok]|]). constructor.
  - vm_compute in E. injection E as _ <-. split; [discriminate|].
    repeat (split; [vm_compute; reflexivity|]). vm_compute. reflexivity.
Qed.
Print Assumptions C60_callback_sees_change_refuted.

Example C60_example : exists os p,
  run_new [PBuffer (BSetCallback true); PBuffer BStartGroup; PBuffer (BInsert (txt "ab")); PBuffer BDelete;
           PBuffer BEndGroup; PBuffer BUndo] = Ok (os, p) /\
  reaches uax29_15 (fun c => ordinary c /\ in_place c) p /\ rb_callback (pr_buffer p) <> None /\
  rb_log (pr_buffer p) = [(Pos 0 0, txt "ab"); (Pos 0 0, txt "b"); (Pos 0 0, txt "ab"); (Pos 0 0, [])] /\
  ptext p = Ok [].
Proof.
  destruct (run_new _) as [[os p]|] eqn:E; [|vm_compute in E; discriminate]. exists os, p. split; [reflexivity|].
  split; [eapply runs_new; [exact E|]|].
  - repeat (constructor; [split; [|split; exact I]; cbn; solve [exact I|now apply valid_textb_ok]|]). constructor.
  - vm_compute in E. injection E as _ <-. split; [discriminate|]. split; reflexivity.
Qed.

(** Whatever was replaced before: a callback installed since then hears the new
    text for every call after it that neither replaces the whole text nor goes
    through the history (where a replacement may be waiting). *)
Theorem C60_since_installed_partial : forall brk p0 al0 o0 p1 cs os p al c o p',
  reaches brk ordinary p0 -> alloc_ok al0 ->
  pexec brk al0 (PBuffer (BSetCallback true)) p0 = Ok (o0, p1) ->
  Forall (fun ac => alloc_ok (fst ac) /\ pcall_ok (snd ac) /\ ordinary (snd ac) /\ editing (snd ac)) cs ->
  prun brk cs p1 = Ok (os, p) -> rb_callback (pr_buffer p) <> None ->
  alloc_ok al -> call_ok c -> editing (PBuffer c) -> keeps_callback c ->
  pexec brk al (PBuffer c) p = Ok (o, p') ->
  exists l, rb_log (pr_buffer p') = rb_log (pr_buffer p) ++ l /\
    match rev l with
    | [] => ptext p' = ptext p
    | (_, t) :: _ => ptext p' = Ok t
    end.
Proof. exact callback_since. Qed.
Print Assumptions C60_since_installed_partial.

Example C60_since_example : exists os0 p0 o0 p1 os p,
  run_new [PBuffer (BInsert (txt "ab")); PBuffer (BReplace (txt "x"))] = Ok (os0, p0) /\
  reaches uax29_15 ordinary p0 /\
  pexec uax29_15 tight (PBuffer (BSetCallback true)) p0 = Ok (o0, p1) /\
  prun uax29_15 [(tight, PClone); (tight, PBuffer (BInsert (txt "y")))] p1 = Ok (os, p) /\
  rb_callback (pr_buffer p) <> None /\ rb_log (pr_buffer p) = [(Pos 0 0, txt "yx")] /\
  List.length (pr_heap p) = 2.
Proof.
  destruct (run_new _) as [[os0 p0]|] eqn:E; [|vm_compute in E; discriminate]. exists os0, p0. do 4 eexists.
  split; [reflexivity|]. split; [eapply runs_new; [exact E|]|].
  - repeat (constructor; [split; [|exact I]; cbn; solve [exact I|now apply valid_textb_ok]|]). constructor.
  - vm_compute in E. injection E as _ <-. do 2 (split; [vm_compute; reflexivity|]). split; [vm_compute; discriminate|].
    split; reflexivity.
Qed.

(** C61: only calls on the buffer change the buffer.  Proved for ordinary calls:
    cloning a cursor, moving a clone and reading the storage through a handle
    leave the buffer (text, cursor, history, flags) and the disk alone.  Missing:
    writing the storage through a handle; for that it is false. *)
Theorem C61_only_buffer_calls_partial : forall brk p al c o p', reaches brk ordinary p ->
  alloc_ok al -> pcall_ok c -> ordinary c -> aside c -> pexec brk al c p = Ok (o, p') ->
  buffer_of p' = buffer_of p /\ pr_disk p' = pr_disk p.
Proof. exact aside_calls. Qed.
Print Assumptions C61_only_buffer_calls_partial.

(** A write through the public [cursor.data] changes the text of a buffer that
    goes on saying it is unmodified, and announces nothing. *)
Theorem C61_only_buffer_calls_refuted : exists p v o p' v',
  reaches uax29_15 ordinary p /\ buffer_of p = Some v /\ b_callback v = true /\
  pexec uax29_15 tight (PStorage 0 (GInsert (txt "x") (Pos 0 0))) p = Ok (o, p') /\
  buffer_of p' = Some v' /\ buf_data v = Ok (txt "ab") /\ buf_data v' = Ok (txt "xab") /\
  buf_modified v' = false /\ b_history v' = b_history v /\ b_log v' = b_log v.
Proof.
  destruct (run_new [PBuffer (BSetPath (Some the_path)); PBuffer (BInsert (txt "ab")); PBuffer (BSave WriteSucceeds);
                     PBuffer (BSetCallback true); PClone]) as [[os p]|] eqn:E;
    [|vm_compute in E; discriminate].
  exists p. do 4 eexists. split; [eapply runs_new; [exact E|]|].
  - repeat (constructor; [split; [|exact I]; cbn; solve [exact I|now apply valid_textb_ok]|]). constructor.
  - vm_compute in E. injection E as _ <-. repeat (split; [vm_compute; reflexivity|]). vm_compute. reflexivity.
Qed.
Print Assumptions C61_only_buffer_calls_refuted.

Example C61_example : exists os p,
  run_new [PBuffer (BInsert (txt "ab")); PClone; PMove 0 MEnd] = Ok (os, p) /\ reaches uax29_15 ordinary p /\
  exists p', pexec uax29_15 tight (PStorage 0 (GRead (Pos 0 1) (Pos 0 2))) p = Ok (PGout (ORead (Some (txt "b"))), p') /\
    buffer_of p' = buffer_of p.
Proof.
  destruct (run_new _) as [[os p]|] eqn:E; [|vm_compute in E; discriminate]. exists os, p. split; [reflexivity|].
  split; [eapply runs_new; [exact E|]|].
  - repeat (constructor; [split; [|exact I]; cbn; solve [exact I|now apply valid_textb_ok]|]). constructor.
  - vm_compute in E. injection E as _ <-. eexists. split; [vm_compute; reflexivity|]. reflexivity.
Qed.

(** What a call through the public [cursor.data] of a clone does, for every
    program: it is the gap buffer call on the storage the clone refers to.  Every
    other storage, the buffer's own fields, the clones and the disk stay. *)
Theorem C61_storage_calls_partial : forall brk ok p i k al c,
  reaches brk ok p -> nth_error (pr_cursors p) i = Some k ->
  exists g, nth_error (pr_heap p) (rc_data k) = Some (Cell g Free) /\
    match gexec brk al c g with
    | Ok (o, g') => exists p', pexec brk al (PStorage i c) p = Ok (PGout o, p') /\
        pr_buffer p' = pr_buffer p /\ pr_cursors p' = pr_cursors p /\ pr_disk p' = pr_disk p /\
        List.length (pr_heap p') = List.length (pr_heap p) /\
        forall r, nth_error (pr_heap p') r = if r =? rc_data k then Some (Cell g' Free) else nth_error (pr_heap p) r
    | Panic => pexec brk al (PStorage i c) p = Panic
    end.
Proof. exact storage_call. Qed.
Print Assumptions C61_storage_calls_partial.

(** If nothing has replaced the whole text this is the buffer's own text: a write
    changes that and nothing else of the buffer. *)
Theorem C61_storage_is_the_text_partial : forall brk p i k al c v,
  reaches brk (fun c => ordinary c /\ in_place c) p ->
  nth_error (pr_cursors p) i = Some k -> buffer_of p = Some v ->
  match gexec brk al c (b_data v) with
  | Ok (o, g') => exists p', pexec brk al (PStorage i c) p = Ok (PGout o, p') /\
      buffer_of p' = Some (set_data v g') /\ pr_cursors p' = pr_cursors p /\ pr_disk p' = pr_disk p
  | Panic => pexec brk al (PStorage i c) p = Panic
  end.
Proof. exact storage_of_buffer. Qed.
Print Assumptions C61_storage_is_the_text_partial.

Example C61_storage_example : exists os p v k,
  run_new [PBuffer (BInsert (txt "abc")); PClone] = Ok (os, p) /\
  reaches uax29_15 (fun c => ordinary c /\ in_place c) p /\
  nth_error (pr_cursors p) 0 = Some k /\ buffer_of p = Some v /\
  match gexec uax29_15 tight (GDelete (Pos 0 1) (Pos 0 2)) (b_data v) with
  | Ok (_, g') => gb_to_string g' = Ok (txt "ac") | Panic => False end.
Proof.
  destruct (run_new _) as [[os p]|] eqn:E; [|vm_compute in E; discriminate]. exists os, p. do 2 eexists. split; [reflexivity|].
  split; [eapply runs_new; [exact E|]|].
  - repeat (constructor; [split; [|split; exact I]; cbn; solve [exact I|now apply valid_textb_ok]|]). constructor.
  - vm_compute in E. injection E as _ <-. repeat (split; [reflexivity|]). vm_compute. reflexivity.
Qed.
