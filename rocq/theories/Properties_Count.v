(** What [modified()] answers for every text and history (C24).  Specification:
    CountSpec.v. *)
From Coq Require Import String.
From Verif Require Import Base Utf8 Grapheme UnicodeTable Position GapBuffer Cursor PathModel Buffer Spec ClusterSpec CursorSpec
  CursorCalls BufferCalls Witness Disks CountSpec CountProofs.

(** C24, for every text, with groups open or not: the answer depends on the numbers
    of steps only.  Missing: that it is true when the text differs from the
    saved one, which is false. *)
Theorem C24_modified_every_text_partial : forall cls f0 b0 cs os b f, cls LF = GC_LF -> fresh_buffer f0 b0 ->
  Forall (fun ac => alloc_ok (fst ac) /\ call_ok (snd ac)) cs ->
  brun (uax29 cls) cs b0 f0 = Ok (os, b, f) ->
  buf_modified b = k_modified (counted (uax29 cls) cs b0 f0 (k_start b0)).
Proof. exact modified_counts. Qed.
Print Assumptions C24_modified_every_text_partial.

(** A file with "\r\n": an edit, a save in an open group that has an edit, the end of
    the group, a redo that has nothing to redo, and an undo, after which the
    buffer calls itself unmodified though the file has one char more. *)
Example C24_every_text_example : exists b0 os b f,
  let cs := map (pair tight) [BInsert (txt "e"); BStartGroup; BInsert [769%N]; BSave WriteSucceeds; BEndGroup; BRedo; BUndo] in
  from_file tight (one_file crlf) the_path = Ok (ROk b0) /\
  Forall (fun ac => alloc_ok (fst ac) /\ call_ok (snd ac)) cs /\
  brun uax29_15 cs b0 (one_file crlf) = Ok (os, b, f) /\
  counted uax29_15 cs b0 (one_file crlf) (k_start b0) = Counts 1 1 (Some 1) None /\
  buf_modified b = false /\ buf_data b <> Ok ([769%N] ++ txt "e" ++ crlf)%list /\
  read_to_string f the_path = Some ([769%N] ++ txt "e" ++ crlf)%list.
Proof.
  destruct (from_file tight (one_file crlf) the_path) as [[b0|]|] eqn:Eb; [|vm_compute in Eb; discriminate..].
  destruct (brun uax29_15 (map (pair tight) [BInsert (txt "e"); BStartGroup; BInsert [769%N]; BSave WriteSucceeds; BEndGroup; BRedo; BUndo]) b0 (one_file crlf))
    as [[[os b] f]|] eqn:E; [|vm_compute in Eb; injection Eb as <-; vm_compute in E; discriminate].
  exists b0, os, b, f. vm_compute in Eb. injection Eb as <-.
  split; [reflexivity|]. split; [repeat constructor; cbn [fst snd call_ok]; solve [apply tight_ok|now apply valid_textb_ok]|].
  split; [exact E|]. split; [vm_compute; reflexivity|].
  vm_compute in E. injection E as <- <- <-. split; [vm_compute; reflexivity|]. split; [vm_compute; congruence|vm_compute; reflexivity].
Qed.
