(** Property C69: the public field [current_buffer] of a workspace.
    Specification: Bench.v (over WorkspaceSpec.v). *)
From Coq Require Import String.
From Verif Require Import Base Utf8 Grapheme UnicodeTable Position GapBuffer Cursor PathModel Buffer
  BufferCalls BufferFacts Witness Token Workspace WorkspaceSpec WorkspaceWitness Bench BenchProofs.

(** C69, what is true: any sequence of calls and assignments to the field returns
    and shows what the list with its field does (Bench.v), up to the first call
    that opens or adds a buffer while the field holds one that was put there with
    no buffer selected. *)
Theorem C69_field_sessions_partial : forall cls f0 p ss w0 cs,
  cls LF = GC_LF -> ws_new f0 p (Some ss) = ROk w0 ->
  Forall (fun ac => alloc_ok (fst ac) /\ fcall_ok (uax29 cls) (snd ac)) cs ->
  exists cp, fs_canon f0 p = Some cp /\
  match frun (uax29 cls) cs w0 f0 with
  | Ok (os, w, f) =>
    exists t, bench_run (uax29 cls) cs (Bench (Shelf cp [] None 0 ss) Kept) f0 os t f /\ bench_shows w t
  | Panic =>
    exists cs1 al c cs2 os w f, cs = (cs1 ++ (al, c) :: cs2)%list /\
      frun (uax29 cls) cs1 w0 f0 = Ok (os, w, f) /\ strays al w f c
  end.
Proof. exact field_sessions. Qed.
Print Assumptions C69_field_sessions_partial.

(** C69: exactly those calls panic. *)
Theorem C69_panics_exactly_when_partial : forall cls f0 p ss w0 cs os w f al c,
  cls LF = GC_LF -> ws_new f0 p (Some ss) = ROk w0 ->
  Forall (fun ac => alloc_ok (fst ac) /\ fcall_ok (uax29 cls) (snd ac)) cs ->
  frun (uax29 cls) cs w0 f0 = Ok (os, w, f) -> alloc_ok al -> fcall_ok (uax29 cls) c ->
  fexec (uax29 cls) al c w f = Panic <-> strays al w f c.
Proof. exact strays_panic. Qed.
Print Assumptions C69_panics_exactly_when_partial.

(** C69: if buffers are assigned only while one is selected, nothing panics;
    emptying the field is always safe. *)
Theorem C69_in_place_partial : forall cls f0 p ss w0,
  cls LF = GC_LF -> ws_new f0 p (Some ss) = ROk w0 ->
  forall cs, Forall (fun ac => alloc_ok (fst ac) /\ fcall_ok (uax29 cls) (snd ac)) cs ->
  (forall cs1 al c cs2 os w f, cs = (cs1 ++ (al, c) :: cs2)%list ->
     frun (uax29 cls) cs1 w0 f0 = Ok (os, w, f) -> assigns_in_place w c) ->
  exists os w f, frun (uax29 cls) cs w0 f0 = Ok (os, w, f).
Proof. exact in_place_safe. Qed.
Print Assumptions C69_in_place_partial.

Definition fplay (cs : list fcall) : res (list wout * workspace * fsys) :=
  match ws_new disk dir (Some syntaxes) with
  | ROk w0 => frun uax29_15 (map (pair tight) cs) w0 disk
  | RErr _ => Panic
  end.

(** Two files are open; the current buffer is taken, a third file is opened, the
    field is overwritten, and the selection goes round. *)
Example C69_example : exists b os w f, scratch = Ok b /\ (exists f, reachable_buffer uax29_15 b f) /\
  fplay [FCall (WOpen a_rs); FCall (WOpen b_txt); FAssign None; FCall (WOpen other); FAssign (Some b);
         FCall WNext; FCall WNext] = Ok (os, w, f) /\
  buffer_paths w = [Some [name "a.rs"]; None; None] /\ current_buffer_index w = Some 1 /\
  (exists b', w_current w = Some b' /\ buf_data b' = Ok [] /\ b_id b' = None).
Proof.
  destruct scratch as [b|] eqn:Es; [|vm_compute in Es; discriminate].
  assert (R : exists f, reachable_buffer uax29_15 b f) by now apply scratch_reachable.
  vm_compute in Es. injection Es as <-. do 4 eexists. split; [reflexivity|]. split; [exact R|].
  split; [vm_compute; reflexivity|]. split; [vm_compute; reflexivity|]. split; [vm_compute; reflexivity|].
  eexists. split; [vm_compute; reflexivity|]. split; vm_compute; reflexivity.
Qed.

(** C69, full statement: false.  A buffer is put into the field of a new
    workspace; opening a file then panics. *)
Theorem C69_assigning_refuted : exists w0 b os w f, ws_new disk dir (Some syntaxes) = ROk w0 /\
  (exists g, reachable_buffer uax29_15 b g) /\
  frun uax29_15 [(tight, FAssign (Some b))] w0 disk = Ok (os, w, f) /\
  w_current w = Some b /\ fexec uax29_15 tight (FCall (WOpen a_rs)) w f = Panic.
Proof.
  destruct scratch as [b|] eqn:Es; [|vm_compute in Es; discriminate].
  assert (R : exists f, reachable_buffer uax29_15 b f) by now apply scratch_reachable.
  destruct (ws_new disk dir (Some syntaxes)) as [w0|] eqn:E; [|vm_compute in E; discriminate].
  exists w0, b. do 3 eexists. split; [reflexivity|]. split; [exact R|]. split; [cbn; reflexivity|].
  split; [reflexivity|]. vm_compute in E. injection E as <-. vm_compute in Es. injection Es as <-.
  vm_compute. reflexivity.
Qed.
Print Assumptions C69_assigning_refuted.

(** And the new buffer that stands in for a taken one has no syntax: it cannot be
    tokenized. *)
Theorem C69_stand_in_refuted : exists os w f, fplay [FCall (WOpen a_rs); FAssign None; FCall WNext] = Ok (os, w, f) /\
  w_current w <> None /\ current_buffer_tokens w = Ok (RErr MissingSyntax).
Proof. do 3 eexists. split; [vm_compute; reflexivity|]. split; [discriminate|vm_compute; reflexivity]. Qed.
Print Assumptions C69_stand_in_refuted.
