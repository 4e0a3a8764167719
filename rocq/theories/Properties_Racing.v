(** Property C70: opening files while other programs change the disk.
    Model and specification: Racing.v. *)
From Coq Require Import String.
From Verif Require Import Base Utf8 Grapheme UnicodeTable Position GapBuffer Cursor PathModel Buffer
  BufferCalls BufferFacts Witness Token Workspace WorkspaceSpec WorkspaceWitness Racing RacingProofs.

(** C70: whatever happens to the disk during the call, it does not panic. *)
Theorem C70_no_panic_partial : forall brk w f al f0 f1 f2 p,
  racing_workspace brk (fun _ _ => True) w f ->
  exists r w', open_buffer_racing al f0 f1 f2 w p = Ok (r, w').
Proof. exact racing_no_panic. Qed.
Print Assumptions C70_no_panic_partial.

(** C70: the workspace is one that calls could have made on a disk that changes
    between the calls only.  So all that is proved for any reachable workspace (C39
    to C41, C43 to C46, C51, C52) holds. *)
Theorem C70_ordinary_partial : forall brk w f,
  racing_workspace brk (fun _ _ => True) w f -> reachable_workspace brk any w f.
Proof. exact racing_ordinary. Qed.
Print Assumptions C70_ordinary_partial.

(** C70: the buffer has the text of the first moment and the path of the last. *)
Theorem C70_what_is_loaded_partial : forall al f1 f2 p,
  match from_file_racing al f1 f2 p with
  | Ok (ROk b) => exists t cp, read_to_string f1 p = Some t /\ fs_canon f2 p = Some cp /\
      buf_data b = Ok t /\ b_path b = Some cp /\ buf_modified b = false /\ c_pos (b_cursor b) = Pos 0 0
  | Ok (RErr e) => e = IoError /\ (read_to_string f1 p = None \/ fs_canon f2 p = None)
  | Panic => False
  end.
Proof. exact racing_loads. Qed.
Print Assumptions C70_what_is_loaded_partial.

(** C70: a file that was open when it was looked for is selected, whatever happens
    then; any other is added with the text of the second moment and the path of the
    third, or nothing changes. *)
Theorem C70_open_selects_partial : forall brk w f al f0 f1 f2 p cp b,
  racing_workspace brk (fun _ _ => True) w f ->
  fs_canon f0 p = Some cp -> In b (open_buffers w) -> b_path b = Some cp ->
  exists w' b', open_buffer_racing al f0 f1 f2 w p = Ok (ROk tt, w') /\
    open_buffers w' = open_buffers w /\ w_current w' = Some b' /\ b_path b' = Some cp.
Proof. exact racing_selects. Qed.
Print Assumptions C70_open_selects_partial.
Theorem C70_open_loads_partial : forall brk w f al f0 f1 f2 p,
  racing_workspace brk (fun _ _ => True) w f ->
  (forall b cp, In b (open_buffers w) -> fs_canon f0 p = Some cp -> b_path b <> Some cp) ->
  match read_to_string f1 p, fs_canon f2 p with
  | Some t, Some cp => exists w' pre b post, open_buffer_racing al f0 f1 f2 w p = Ok (ROk tt, w') /\
      open_buffers w = (pre ++ post)%list /\ open_buffers w' = (pre ++ b :: post)%list /\
      w_current w' = Some b /\ b_path b = Some cp /\ buf_data b = Ok t /\ buf_modified b = false
  | _, _ => open_buffer_racing al f0 f1 f2 w p = Ok (RErr IoError, w)
  end.
Proof. exact racing_opens_new. Qed.
Print Assumptions C70_open_loads_partial.

(** C70: while the path leads to one place, a file is loaded as it was at one of
    the moments. *)
Theorem C70_load_atomic_partial : forall al f1 f2 p, fs_target f1 p = fs_target f2 p ->
  from_file_racing al f1 f2 p = from_file al f1 p \/ from_file_racing al f1 f2 p = from_file al f2 p.
Proof. exact racing_load_atomic. Qed.
Print Assumptions C70_load_atomic_partial.

(** C70: and opened as it was at one of them, unless it was missing at first
    although a buffer is open for it. *)
Theorem C70_open_atomic_partial : forall brk w f al f0 f1 f2 p,
  racing_workspace brk (fun _ _ => True) w f -> steady w (ROpen f0 f1 f2 p) ->
  exists g, (g = f0 \/ g = f1 \/ g = f2) /\ open_buffer_racing al f0 f1 f2 w p = open_buffer al g w p.
Proof. exact open_atomic. Qed.
Print Assumptions C70_open_atomic_partial.

(** C70: sessions of such opens are sessions of opens at one moment, with the
    disk changing in between (C64 applies), and no path is open twice. *)
Theorem C70_steady_sessions_partial : forall brk (P : wcall -> Prop) w f,
  racing_workspace brk (fun w c => steady w c /\ moments P c) w f -> reachable_workspace brk P w f.
Proof. exact racing_steady. Qed.
Print Assumptions C70_steady_sessions_partial.
Theorem C70_no_duplicates_partial : forall brk w f,
  racing_workspace brk (fun w c => steady w c /\ moments only_opens c) w f ->
  NoDup (map b_path (open_buffers w)).
Proof. exact racing_no_duplicates. Qed.
Print Assumptions C70_no_duplicates_partial.

(** The disk of the examples with other contents of one file, without that file,
    or with the link leading elsewhere. *)
Definition with_node (q : path) (x : option node) (f : fsys) : fsys :=
  FS (fs_target f) (fun y => if path_eqb y q then x else fs_node f y).
Definition relinked : fsys :=
  FS (fun p => if path_eqb p link then Some b_txt else fs_target disk p) (fs_node disk).


(** A file is opened while its contents change, then another, then the first one
    again. *)
Definition changing : list rcall :=
  [ROpen disk (with_node a_rs (Some (Regular (enc (txt "x")))) disk) disk a_rs;
   ROpen disk disk disk b_txt;
   ROpen disk (with_node a_rs None disk) disk a_rs].
Example C70_example : exists w0 w f,
  ws_new disk dir (Some syntaxes) = ROk w0 /\ rrun uax29_15 tight changing w0 disk = Ok (w, f) /\
  racing_workspace uax29_15 (fun w c => steady w c /\ moments only_opens c) w f /\
  map b_path (open_buffers w) = [Some a_rs; Some b_txt] /\ current_buffer_index w = Some 0.
Proof.
  destruct (ws_new disk dir (Some syntaxes)) as [w0|] eqn:E0; [|vm_compute in E0; discriminate].
  destruct (rrun uax29_15 tight changing w0 disk) as [[w f]|] eqn:E.
  - exists w0, w, f. split; [exact eq_refl|]. split; [exact E|]. split; [|split].
    + eapply rrun_racing; [apply tight_ok|eapply racing_new; exact E0| |exact E].
      vm_compute in E0. injection E0 as <-. vm_compute. repeat split; intros; discriminate.
    + vm_compute in E0. injection E0 as <-. vm_compute in E. now injection E as <- <-.
    + vm_compute in E0. injection E0 as <-. vm_compute in E. now injection E as <- <-.
  - exfalso. vm_compute in E0. injection E0 as <-. vm_compute in E. discriminate.
Qed.

(** A link is changed while it is opened; then a file that is not open is opened
    while its text changes. *)
Example C70_open_example : exists w0 w f w' b,
  ws_new disk dir (Some syntaxes) = ROk w0 /\
  rrun uax29_15 tight [ROpen disk disk disk other; ROpen disk disk relinked link] w0 disk = Ok (w, f) /\
  racing_workspace uax29_15 (fun _ _ => True) w f /\ map b_path (open_buffers w) = [Some other; Some b_txt] /\
  (forall b cp, In b (open_buffers w) -> fs_canon disk a_rs = Some cp -> b_path b <> Some cp) /\
  open_buffer_racing tight disk (with_node a_rs (Some (Regular (enc (txt "x")))) disk) disk w a_rs = Ok (ROk tt, w') /\
  w_current w' = Some b /\ b_path b = Some a_rs /\ buf_data b = Ok (txt "x").
Proof.
  destruct (ws_new disk dir (Some syntaxes)) as [w0|] eqn:E0; [|vm_compute in E0; discriminate].
  destruct (rrun uax29_15 tight [ROpen disk disk disk other; ROpen disk disk relinked link] w0 disk) as [[w f]|] eqn:E.
  - assert (R : racing_workspace uax29_15 (fun _ _ => True) w f).
    { eapply rrun_racing; [apply tight_ok|eapply racing_new; exact E0| |exact E].
      vm_compute in E0. injection E0 as <-. vm_compute. repeat split. }
    vm_compute in E0. injection E0 as <-. vm_compute in E. injection E as <- <-.
    do 5 eexists. split; [reflexivity|]. split; [vm_compute; reflexivity|]. split; [exact R|]. split; [reflexivity|]. split.
    + intros b cp H Ec. vm_compute in Ec. injection Ec as <-. cbn in H. repeat destruct H as [<-|H]; try discriminate. destruct H.
    + split; [vm_compute; reflexivity|]. split; [vm_compute; reflexivity|]. split; vm_compute; reflexivity.
  - exfalso. vm_compute in E0. injection E0 as <-. vm_compute in E. discriminate.
Qed.

(** C70, the full claim is false: when a link is changed between the two moments
    of a load, the buffer has the text of one file and the path of another and says
    it is not modified.  Saving it overwrites the other file. *)
Theorem C70_load_refuted : exists b b' f',
  from_file_racing tight disk relinked link = Ok (ROk b) /\
  read_to_string disk a_rs = Some (txt "fn") /\ read_to_string relinked a_rs = Some (txt "fn") /\
  read_to_string disk b_txt = Some (txt "b" ++ nl) /\ read_to_string relinked b_txt = Some (txt "b" ++ nl) /\
  buf_data b = Ok (txt "fn") /\ b_path b = Some b_txt /\ buf_modified b = false /\
  buf_save relinked WriteSucceeds b = Ok (ROk tt, b', f') /\ read_to_string f' b_txt = Some (txt "fn").
Proof. do 3 eexists. repeat split. Qed.
Print Assumptions C70_load_refuted.

(** C70, the full claim is false: no path ever leads elsewhere, but a file is
    missing for a moment, as when it is replaced, and is then open twice. *)
Theorem C70_duplicates_refuted : exists w0 w f,
  let gone := with_node a_rs None disk in
  (forall p, fs_target gone p = fs_target disk p) /\
  ws_new disk dir (Some syntaxes) = ROk w0 /\
  rrun uax29_15 tight [ROpen disk disk disk a_rs; ROpen gone disk disk a_rs] w0 disk = Ok (w, f) /\
  racing_workspace uax29_15 (fun _ => moments only_opens) w f /\
  map b_path (open_buffers w) = [Some a_rs; Some a_rs].
Proof.
  destruct (ws_new disk dir (Some syntaxes)) as [w0|] eqn:E0; [|vm_compute in E0; discriminate].
  destruct (rrun uax29_15 tight [ROpen disk disk disk a_rs; ROpen (with_node a_rs None disk) disk disk a_rs] w0 disk)
    as [[w f]|] eqn:E.
  - exists w0, w, f. split; [reflexivity|]. split; [exact eq_refl|]. split; [exact E|]. split.
    + eapply rrun_racing; [apply tight_ok|eapply racing_new; exact E0| |exact E].
      vm_compute in E0. injection E0 as <-. vm_compute. repeat split.
    + vm_compute in E0. injection E0 as <-. vm_compute in E. now injection E as <- <-.
  - exfalso. vm_compute in E0. injection E0 as <-. vm_compute in E. discriminate.
Qed.
Print Assumptions C70_duplicates_refuted.
