(** Properties C59 and C60 again: exactly which clones of a cursor and which
    callbacks follow the buffer's text, and what becomes of the others.
    Statements only; the specification is AttachSpec.v with SharedSpec.v. *)
From Coq Require Import String.
From Verif Require Import Base Utf8 Grapheme GraphemeProofs UnicodeTable Position GapBuffer
  Cursor PathModel Buffer ClusterSpec Spec CursorSpec Calls CursorCalls HalvesProofs BufferCalls Witness Disks
  Shared SharedSpec SharedProofs SharedWitness AttachSpec AttachProofs.

(** C59, for every ordinary program, [replace] and [reload] included.  A clone on
    the buffer's storage moves exactly as the buffer's own cursor would from its
    position. *)
Theorem C59_attached_partial : forall brk p v i k m al,
  reaches brk ordinary p -> buffer_of p = Some v ->
  nth_error (pr_cursors p) i = Some k -> attached p (rc_data k) ->
  exists k' p', pexec brk al (PMove i m) p = Ok (PUnit, p') /\ nth_error (pr_cursors p') i = Some k' /\
    cexec brk (b_data v) m (rc_at k) = Ok (rc_at k') /\ buffer_of p' = Some v.
Proof. exact attached_moves. Qed.
Print Assumptions C59_attached_partial.

(** A new clone is on the buffer's storage. *)
Theorem C59_new_clone : forall brk p al, reaches brk ordinary p ->
  exists k p', pexec brk al PClone p = Ok (PUnit, p') /\
    nth_error (pr_cursors p') (List.length (pr_cursors p)) = Some k /\
    attached p' (rc_data k) /\ rc_at k = rc_at (rb_cursor (pr_buffer p)).
Proof. exact new_clone. Qed.
Print Assumptions C59_new_clone.

(** It stays there for exactly as long as no call replaces the whole text: by
    [replace] or [reload] with another text, or by undoing or redoing one. *)
Theorem C59_follows_exactly_until : forall brk al c p v o p' i k,
  reaches brk ordinary p -> buffer_of p = Some v -> alloc_ok al -> pcall_ok c -> ordinary c ->
  pexec brk al c p = Ok (o, p') -> nth_error (pr_cursors p) i = Some k ->
  exists k', nth_error (pr_cursors p') i = Some k' /\
    (attached p' (rc_data k') <-> attached p (rc_data k) /\ ~ replaces c v (pr_disk p)).
Proof. exact follows_exactly. Qed.
Print Assumptions C59_follows_exactly_until.

(** [replace] and [reload] leave it in the text from before the call... *)
Theorem C59_left_behind : forall brk al c p v o p' r,
  reaches brk ordinary p -> buffer_of p = Some v -> alloc_ok al -> call_ok c ->
  match c with BReplace _ | BReload => True | _ => False end ->
  replaces (PBuffer c) v (pr_disk p) -> pexec brk al (PBuffer c) p = Ok (o, p') -> attached p r ->
  text_at (pr_heap p') r = ptext p /\ ~ attached p' r.
Proof. exact left_behind. Qed.
Print Assumptions C59_left_behind.

(** ...and there it stays, moving in a text that no ordinary call changes. *)
Theorem C59_detached_forever : forall brk p i k cs os p',
  reaches brk ordinary p -> nth_error (pr_cursors p) i = Some k -> ~ attached p (rc_data k) ->
  Forall (fun ac => alloc_ok (fst ac) /\ pcall_ok (snd ac) /\ ordinary (snd ac)) cs ->
  prun brk cs p = Ok (os, p') ->
  exists g k', nth_error (pr_heap p) (rc_data k) = Some (Cell g Free) /\
    nth_error (pr_cursors p') i = Some k' /\ ~ attached p' (rc_data k') /\
    forall m al, exists k2 p2, pexec brk al (PMove i m) p' = Ok (PUnit, p2) /\
      nth_error (pr_cursors p2) i = Some k2 /\ cexec brk g m (rc_at k') = Ok (rc_at k2) /\
      buffer_of p2 = buffer_of p'.
Proof. exact detached_moves. Qed.
Print Assumptions C59_detached_forever.

(** Two clones: the first is left behind in "abcd" by the [replace]; the second
    is left behind in "x" by its undo; a third follows the buffer. *)
Example C59_attach_example : exists os p v k0 k1 k2,
  run_new [PBuffer (BInsert (txt "abcd")); PClone; PBuffer (BReplace (txt "x")); PClone;
           PBuffer (BReplace (txt "x")); PBuffer BUndo; PClone; PBuffer (BInsert (txt "!"))] = Ok (os, p) /\
  reaches uax29_15 ordinary p /\ buffer_of p = Some v /\ buf_data v = Ok (txt "!abcd") /\
  pr_cursors p = [k0; k1; k2] /\
  ~ attached p (rc_data k0) /\ text_at (pr_heap p) (rc_data k0) = Ok (txt "abcd") /\
  ~ attached p (rc_data k1) /\ text_at (pr_heap p) (rc_data k1) = Ok (txt "x") /\
  attached p (rc_data k2) /\ replaces (PBuffer (BReplace (txt "y"))) v (pr_disk p) /\
  ~ replaces (PBuffer BUndo) v (pr_disk p).
Proof.
  destruct (run_new _) as [[os p]|] eqn:E; [|vm_compute in E; discriminate]. exists os, p. do 4 eexists.
  split; [reflexivity|]. split; [eapply runs_new; [exact E|]|].
  - repeat (constructor; [split; [|exact I]; cbn; solve [exact I|now apply valid_textb_ok]|]). constructor.
  - vm_compute in E. injection E as _ <-. split; [reflexivity|]. split; [reflexivity|]. split; [reflexivity|].
    split; [intros H; vm_compute in H; discriminate|]. split; [reflexivity|].
    split; [intros H; vm_compute in H; discriminate|]. split; [reflexivity|].
    split; [reflexivity|]. split; [intros H; vm_compute in H; discriminate|].
    intros (op & H1 & H2). vm_compute in H1. injection H1 as <-. discriminate.
Qed.

(** C60, for every ordinary program.  A callback with a handle on the buffer's
    storage sees every change by a call that does not replace the whole text. *)
Theorem C60_attached_partial : forall brk p v al c o p' r,
  reaches brk ordinary p -> buffer_of p = Some v ->
  rb_callback (pr_buffer p) = Some r -> attached p r -> alloc_ok al -> call_ok c -> keeps_callback c ->
  ~ replaces (PBuffer c) v (pr_disk p) -> pexec brk al (PBuffer c) p = Ok (o, p') ->
  exists l, rb_log (pr_buffer p') = rb_log (pr_buffer p) ++ l /\
    match rev l with
    | [] => ptext p' = ptext p
    | (_, t) :: _ => ptext p' = Ok t
    end.
Proof. exact attached_sees. Qed.
Print Assumptions C60_attached_partial.

(** Told of a [replace] or a [reload], any callback reads what its handle had
    before the call: the old text, if it was on the buffer's storage. *)
Theorem C60_reads_old_text : forall brk p v al c o p' r,
  reaches brk ordinary p -> buffer_of p = Some v -> rb_callback (pr_buffer p) = Some r ->
  alloc_ok al -> call_ok c -> match c with BReplace _ | BReload => True | _ => False end ->
  replaces (PBuffer c) v (pr_disk p) -> pexec brk al (PBuffer c) p = Ok (o, p') ->
  exists t, rb_log (pr_buffer p') = rb_log (pr_buffer p) ++ [(Pos 0 0, t)] /\
    text_at (pr_heap p) r = Ok t /\ (attached p r -> ptext p = Ok t) /\ ~ attached p' r.
Proof. exact reads_old. Qed.
Print Assumptions C60_reads_old_text.

(** Once its handle is off the buffer's storage, a callback reads the same text
    at every change, whatever the buffer's text has become. *)
Theorem C60_detached_reads_same : forall brk p v al c o p' r,
  reaches brk ordinary p -> buffer_of p = Some v ->
  rb_callback (pr_buffer p) = Some r -> ~ attached p r -> alloc_ok al -> call_ok c -> keeps_callback c ->
  pexec brk al (PBuffer c) p = Ok (o, p') ->
  text_at (pr_heap p') r = text_at (pr_heap p) r /\ ~ attached p' r /\
  exists l, rb_log (pr_buffer p') = rb_log (pr_buffer p) ++ l /\
    Forall (fun e => text_at (pr_heap p) r = Ok (snd e)) l.
Proof. exact detached_sees. Qed.
Print Assumptions C60_detached_reads_same.

Example C60_attach_example : exists os p v r,
  run_new [PBuffer (BSetCallback true); PBuffer (BInsert (txt "ab")); PBuffer (BReplace (txt "x"));
           PBuffer (BInsert (txt "!"))] = Ok (os, p) /\
  reaches uax29_15 ordinary p /\ buffer_of p = Some v /\ buf_data v = Ok (txt "!x") /\
  rb_callback (pr_buffer p) = Some r /\ ~ attached p r /\
  rb_log (pr_buffer p) = [(Pos 0 0, txt "ab"); (Pos 0 0, txt "ab"); (Pos 0 0, txt "ab")].
Proof.
  destruct (run_new _) as [[os p]|] eqn:E; [|vm_compute in E; discriminate]. exists os, p. do 2 eexists.
  split; [reflexivity|]. split; [eapply runs_new; [exact E|]|].
  - repeat (constructor; [split; [|exact I]; cbn; solve [exact I|now apply valid_textb_ok]|]). constructor.
  - vm_compute in E. injection E as _ <-. split; [reflexivity|]. split; [reflexivity|]. split; [reflexivity|].
    split; [intros H; vm_compute in H; discriminate|]. reflexivity.
Qed.
