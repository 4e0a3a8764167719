(** Property C84: calls that fail.  Statements only; the reasons are in
    FailSpec.v, proofs in FailProofs.v. *)
From Coq Require Import String.
From Verif Require Import Base Utf8 Utf8Proofs Grapheme UnicodeTable Position GapBuffer PathModel Buffer
  BufferCalls Witness Token Workspace WorkspaceSpec WorkspaceWitness FailSpec FailProofs.

(** C84: whatever calls were made before, a call returns an error exactly when it
    has a reason to, and that error. *)
Theorem C84_fails_exactly : forall brk al c w f o w' f', reachable_workspace brk any w f ->
  wexec brk al c w f = Ok (o, w', f') -> forall e, error_of o = Some e <-> reason w f c e.
Proof. exact fails_exactly. Qed.
Print Assumptions C84_fails_exactly.

(** C84: a call that fails leaves the workspace with all its buffers as it was, and
    the disk too, but for the file that a save writes to. *)
Theorem C84_changes_nothing : forall brk al c w f o e w' f',
  wexec brk al c w f = Ok (o, w', f') -> error_of o = Some e ->
  w' = w /\ (is_save c = false -> f' = f) /\
  (forall p, writes_to w c p -> forall p', ~ same_file f p' p -> fs_read f' p' = fs_read f p').
Proof. exact failed_call. Qed.
Print Assumptions C84_changes_nothing.

(** C84: a session goes on as if the call had not been made. *)
Theorem C84_goes_on : forall brk cs1 al c cs2 w f os1 w1 f1 o w2 f2 e, is_save c = false ->
  wrun brk cs1 w f = Ok (os1, w1, f1) -> wexec brk al c w1 f1 = Ok (o, w2, f2) -> error_of o = Some e ->
  forall os2 w' f', wrun brk cs2 w1 f1 = Ok (os2, w', f') ->
  wrun brk (cs1 ++ cs2) w f = Ok (os1 ++ os2, w', f')%list /\
  wrun brk (cs1 ++ (al, c) :: cs2) w f = Ok (os1 ++ o :: os2, w', f')%list.
Proof. exact goes_on. Qed.
Print Assumptions C84_goes_on.

(** A session with all kinds of failures: nothing is open; a missing file; a
    directory; a buffer without a path; a file that vanished; a full disk. *)
Definition without_a_rs : fsys :=
  FS (fs_target disk) (fun p => if path_eqb p a_rs then None else fs_node disk p).
Example C84_example : exists os w f,
  wplay [WSyntax; WOpen other; WOpen [name "none"]; WOpen dir; WEdit (BSetPath None); WEdit BReload; WEdit (BSave WriteSucceeds);
         WOpen a_rs; WEdit (BInsert (txt "x")); WEdit (BSave (WriteFails 1)); WDisk without_a_rs; WEdit BReload; WEdit (BSave WriteSucceeds)]
  = Ok (os, w, f) /\ reachable_workspace uax29_15 any w f /\
  map error_of os = [Some EmptyWorkspace; None; Some IoError; Some IoError; None; Some MissingPath; Some IoError;
                     None; None; Some IoError; None; Some IoError; None] /\
  List.length (open_buffers w) = 2 /\ fs_read f a_rs = Some (enc (txt "xfn")).
Proof.
  destruct (wplay _) as [[[os w] f]|] eqn:E; [|vm_compute in E; discriminate]. exists os, w, f. split; [reflexivity|].
  assert (R : reachable_workspace uax29_15 any w f).
  { eapply wplay_reachable; [exact E|]. repeat (constructor; [split; [first [exact I|now apply valid_textb_ok]|exact I]|]). constructor. }
  split; [exact R|]. vm_compute in E. injection E as <- <- <-. split; [reflexivity|]. split; [reflexivity|]. vm_compute. reflexivity.
Qed.
