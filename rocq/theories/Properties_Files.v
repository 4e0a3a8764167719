(** Properties C26 (continued) and C64: buffers and the files they lead to.
    Statements only; the specification is BufferCalls.v and WorkspaceSpec.v,
    proofs are in FileProofs.v. *)
From Coq Require Import String.
From Verif Require Import Base Utf8 Grapheme UnicodeTable Position GapBuffer Cursor PathModel Buffer
  Spec CursorSpec Calls CursorCalls BufferCalls BufferFacts Witness Token Workspace WorkspaceSpec
  WorkspaceProps FileProofs WorkspaceWitness.

(** C26: a buffer loaded under any name of a file is saved to that file, after any
    calls in between that leave its path and the disk to it; no other file changes. *)
Theorem C26_saved_where_loaded : forall brk al f p b0 cs os b f1 w b' f2,
  links_settle f -> from_file al f p = Ok (ROk b0) ->
  Forall (fun ac => alloc_ok (fst ac) /\ call_ok (snd ac) /\ stays_put (snd ac)) cs ->
  brun brk cs b0 f = Ok (os, b, f1) -> buf_save f1 w b = Ok (ROk tt, b', f2) ->
  exists t, buf_data b = Ok t /\ (forall p', same_file f p' p -> fs_read f2 p' = Some (enc t)) /\
    (forall p', ~ same_file f p' p -> fs_read f2 p' = fs_read f p').
Proof. exact saved_where_loaded. Qed.
Print Assumptions C26_saved_where_loaded.

(** Loaded through a link, edited and saved. *)
Example C26_link_example : exists b0 os b f1 b' f2,
  links_settle disk /\ from_file tight disk link = Ok (ROk b0) /\
  brun uax29_15 (map (pair tight) [BInsert (txt "x"); BSave (WriteFails 1); BDelete; BUndo]) b0 disk = Ok (os, b, f1) /\
  buf_save f1 WriteSucceeds b = Ok (ROk tt, b', f2) /\
  same_file disk a_rs link /\ fs_read f2 a_rs = Some (enc (txt "xfn")) /\ fs_read f2 link = Some (enc (txt "xfn")).
Proof.
  do 6 eexists. split; [exact disk_settles|]. repeat (split; [vm_compute; reflexivity|]). vm_compute. reflexivity.
Qed.

(** C64, partial: in a workspace filled through open_buffer, no two open buffers
    lead to the same file, whatever links there are, as long as nobody changes the
    links.  Missing: buffers with paths assigned by hand. *)
Theorem C64_one_buffer_per_file_partial : forall brk f0 p ss w0 cs os w f,
  links_settle f0 -> ws_new f0 p (Some ss) = ROk w0 ->
  Forall (fun ac => alloc_ok (fst ac) /\ wcall_ok brk (snd ac) /\ only_opens (snd ac) /\
                    keeps_links (fs_target f0) (snd ac)) cs ->
  wrun brk cs w0 f0 = Ok (os, w, f) ->
  forall i j bi bj pi pj, nth_error (open_buffers w) i = Some bi -> nth_error (open_buffers w) j = Some bj ->
    b_path bi = Some pi -> b_path bj = Some pj -> same_file f pi pj -> i = j.
Proof. exact files_apart. Qed.
Print Assumptions C64_one_buffer_per_file_partial.

(** C64, partial: so saving the current buffer leaves the files of all other open
    buffers alone. *)
Theorem C64_saves_stay_apart_partial : forall brk f0 p ss w0 cs os w f wr al o w' f',
  links_settle f0 -> ws_new f0 p (Some ss) = ROk w0 ->
  Forall (fun ac => alloc_ok (fst ac) /\ wcall_ok brk (snd ac) /\ only_opens (snd ac) /\
                    keeps_links (fs_target f0) (snd ac)) cs ->
  wrun brk cs w0 f0 = Ok (os, w, f) -> wexec brk al (WEdit (BSave wr)) w f = Ok (o, w', f') ->
  forall i b q, nth_error (open_buffers w) i = Some b -> current_buffer_index w <> Some i ->
    b_path b = Some q -> fs_read f' q = fs_read f q.
Proof. exact saves_apart. Qed.
Print Assumptions C64_saves_stay_apart_partial.

(** The same file under three names, and another one: two buffers. *)
Example C64_example : exists w0 os w f b, ws_new disk dir (Some syntaxes) = ROk w0 /\
  wrun uax29_15 (map (pair tight) [WOpen link; WOpen b_txt; WOpen [name "a.rs"]; WEdit (BInsert (txt "x")); WOpen a_rs;
                                   WEdit (BSave WriteSucceeds)]) w0 disk = Ok (os, w, f) /\
  map b_path (open_buffers w) = [Some a_rs; Some b_txt] /\ w_current w = Some b /\
  buf_data b = Ok (txt "xfn") /\ fs_read f link = Some (enc (txt "xfn")).
Proof. do 5 eexists. repeat (split; [vm_compute; reflexivity|]). vm_compute. reflexivity. Qed.

(** C64, full statement: false.  A buffer whose path was assigned by hand can lead
    to a file that is open already; saving it overwrites the other's file. *)
Theorem C64_one_buffer_per_file_refuted : exists w f b1 b2 p1 p2 o w' f',
  reachable_workspace uax29_15 any w f /\ open_buffers w = [b1; b2] /\
  b_path b1 = Some p1 /\ b_path b2 = Some p2 /\ p1 <> p2 /\ same_file f p1 p2 /\
  current_buffer_index w = Some 1 /\
  wexec uax29_15 tight (WEdit (BSave WriteSucceeds)) w f = Ok (o, w', f') /\
  fs_read f' p1 <> fs_read f p1.
Proof.
  destruct linked as [b|] eqn:Eb; [|vm_compute in Eb; discriminate].
  destruct (wplay [WOpen a_rs; WAdd b]) as [[[os w] f]|] eqn:E;
    [|vm_compute in Eb; injection Eb as <-; vm_compute in E; discriminate].
  assert (R : reachable_workspace uax29_15 any w f).
  { eapply wplay_reachable; [exact E|]. constructor; [split; exact I|]. constructor; [|constructor].
    split; [exact (linked_reachable b Eb)|exact I]. }
  exists w, f. vm_compute in Eb. injection Eb as <-. vm_compute in E. injection E as _ <- <-.
  do 7 eexists. split; [exact R|]. split; [vm_compute; reflexivity|]. split; [vm_compute; reflexivity|].
  split; [vm_compute; reflexivity|]. split; [discriminate|]. split; [vm_compute; reflexivity|].
  split; [vm_compute; reflexivity|]. split; [vm_compute; reflexivity|]. vm_compute. discriminate.
Qed.
Print Assumptions C64_one_buffer_per_file_refuted.
