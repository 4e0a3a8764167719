(** Property C73: a whole workspace, for every text.  Statements only; the
    specification is OfficeSpec.v (with MarkEditor.v and MarkSpec.v), proofs are in
    OfficeProofs.v. *)
From Coq Require Import String.
From Verif Require Import Base Utf8 Utf8Proofs Grapheme UnicodeTable Position GapBuffer Cursor PathModel Buffer
  Spec CursorSpec CursorCalls BufferCalls BufferFacts Witness Disks MarkSpec MarkEditor Token Workspace
  OfficeSpec OfficeProofs.
From Verif Require WorkspaceSpec WorkspaceWitness.
Import WorkspaceSpec(wrun, wcall_ok).

(** C73: any sequence of calls on a new workspace and its current buffer, with
    any texts, returns what it returns on a list of editors over marked texts,
    leaves the same disk, and shows the same texts, cursors, paths, ids,
    syntaxes and selection. *)
Theorem C73_workspace_is_an_office : forall cls f0 p ss w0 cs ocs, cls LF = GC_LF -> ws_new f0 p (Some ss) = ROk w0 ->
  same_calls (uax29 cls) cs ocs ->
  exists cp, fs_canon f0 p = Some cp /\
  let '(rs, o) := o_calls (uax29 cls) ocs (Office cp [] None 0 ss f0) in
  exists w, wrun (uax29 cls) cs w0 f0 = Ok (rs, w, o_disk o) /\ shows_office (uax29 cls) w o.
Proof. exact workspace_is_office. Qed.
Print Assumptions C73_workspace_is_an_office.

(** C73: every sequence of calls is covered, buffers being added as API calls
    leave them. *)
Theorem C73_every_session : forall brk cs,
  Forall (fun ac => alloc_ok (fst ac) /\ wcall_ok brk (snd ac)) cs -> exists ocs, same_calls brk cs ocs.
Proof. exact every_session. Qed.
Print Assumptions C73_every_session.

(** A buffer made by hand is added, a file with a "b" and a newline is opened,
    an accent is put after the "b", the file is saved, the first buffer is
    selected and an accent is put where nothing can be seen of it, and the file
    is opened again: it is selected, and its cursor has not moved. *)
Example C73_example : exists b e w0 cs ocs rs o,
  ws_new WorkspaceWitness.disk WorkspaceWitness.dir (Some WorkspaceWitness.syntaxes) = ROk w0 /\
  made uax29_15 b e /\
  cs = map (pair tight)
    [WorkspaceSpec.WAdd b; WorkspaceSpec.WOpen WorkspaceWitness.b_txt; WorkspaceSpec.WEdit (BMove MRight);
     WorkspaceSpec.WEdit (BInsert [769%N]); WorkspaceSpec.WEdit (BMove MRight);
     WorkspaceSpec.WEdit (BSave WriteSucceeds); WorkspaceSpec.WPrevious;
     WorkspaceSpec.WEdit (BInsert [769%N]); WorkspaceSpec.WOpen WorkspaceWitness.b_txt] /\
  same_calls uax29_15 cs ocs /\
  o_calls uax29_15 ocs (Office WorkspaceWitness.dir [] None 0 WorkspaceWitness.syntaxes WorkspaceWitness.disk) = (rs, o) /\
  o_selected o = Some 1 /\
  map (fun e => whole (me_text e)) (o_editors o) = [[769%N] ++ txt "new"; txt "b" ++ [769%N] ++ nl]%list /\
  map me_cursor (o_editors o) = [SC (Pos 0 0) 0; SC (Pos 0 1) 1] /\
  map me_modified (o_editors o) = [true; false] /\
  map me_id (o_editors o) = [Some 0; Some 1] /\
  read_to_string (o_disk o) WorkspaceWitness.b_txt = Some (txt "b" ++ [769%N] ++ nl)%list.
Proof.
  destruct (buffer_new tight) as [b0|] eqn:Eb; [|vm_compute in Eb; discriminate].
  pose (cs0 := [(tight, BInsert (txt "new"))]).
  destruct (brun uax29_15 cs0 b0 no_files) as [[[os b] f]|] eqn:E; [|vm_compute in Eb; injection Eb as <-; vm_compute in E; discriminate].
  pose (e := snd (me_calls uax29_15 cs0 (me_new tight no_files))).
  assert (M : made uax29_15 b e).
  { exists b0, (me_new tight no_files), cs0, os, f. split; [left; now exists tight, no_files|]. split; [|now split].
    constructor; [split; [exact tight_ok|now apply valid_textb_ok]|constructor]. }
  exists b, e. eexists. eexists.
  exists (map (pair tight)
    [OAdd e; OOpen WorkspaceWitness.b_txt; OEdit (BMove MRight); OEdit (BInsert [769%N]); OEdit (BMove MRight);
     OEdit (BSave WriteSucceeds); OPrevious; OEdit (BInsert [769%N]); OOpen WorkspaceWitness.b_txt]).
  eexists. eexists. split; [reflexivity|]. split; [exact M|]. split; [reflexivity|]. split.
  { cbn [map]. repeat (constructor; [split; [reflexivity|split; [exact tight_ok|]]|]); cbn [fst snd]; try constructor;
      try exact M; try exact I; try (now apply valid_textb_ok). }
  split; [vm_compute; reflexivity|]. vm_compute. repeat split.
Qed.
