(** Properties C79 and C80: what calls do to texts and cursors in programs with
    many buffers, whatever the callbacks do.  Statements only; the programs are in
    World.v and what is said about them in StoreSpec.v. *)
From Coq Require Import String.
From Verif Require Import Base Utf8 Grapheme GraphemeProofs UnicodeTable Position GapBuffer
  Cursor PathModel Buffer ClusterSpec Spec CursorSpec Calls CursorCalls HalvesProofs BufferCalls Witness Disks
  Shared SharedSpec World WorldSpec WorldProofs WorldWitness StoreSpec StoreProofs.

(** C79: whatever the callback does, to its own buffer's storage or to another's, a
    call changes the storages only by the edits it stands for, in their order; right
    after each edit the callback runs once, is told where the edit was, and finds
    and leaves the storages as plain values; what it notes is kept in order. *)
Theorem C79_callbacks : forall brk code al i c w o w' b g, nexec brk code al (NBuffer i c) w = Ok (o, w') ->
  nth_error (wo_buffers w) i = Some b -> nth_error (contents w) (rb_data b) = Some g ->
  exists b', nth_error (wo_buffers w') i = Some b' /\
    happen brk code al (rb_callback b) (events brk g (wo_disk w) c b) (rb_data b) (rb_log b) (contents w)
    = Ok (rb_data b', rb_log b', contents w').
Proof. exact told_exactly. Qed.
Print Assumptions C79_callbacks.

(** A callback that puts "!" at the start of storage 1, which is the buffer's own:
    undoing an insert is one cut, and one call that sees and changes its result. *)
Definition own_writer : list ncall := [NNew; NNew; NCallback 1 1; NBuffer 1 (BInsert (txt "cd"))].
Example C79_example : exists os w b g w' st, run_world demo no_files own_writer = Ok (os, w) /\ reached uax29_15 demo w /\
  nth_error (wo_buffers w) 1 = Some b /\ nth_error (contents w) (rb_data b) = Some g /\ gb_to_string g = Ok (txt "!cd") /\
  nexec uax29_15 demo tight (NBuffer 1 BUndo) w = Ok (UBuffer BUnit, w') /\
  events uax29_15 g no_files BUndo b = [Cut (range_new (Pos 0 0) (Pos 0 2))] /\
  contents w' = st /\ option_map gb_to_string (nth_error st 1) = Some (Ok (txt "!d")).
Proof.
  destruct (run_world demo no_files own_writer) as [[os w]|] eqn:E; [|vm_compute in E; discriminate].
  assert (R : reached uax29_15 demo w).
  { exists no_files, (map (pair tight) own_writer), os. eapply (runs_world demo (fun _ => 2)); [apply demo_uses|exact E|vm_compute; reflexivity|].
    apply Forall_forall. exact (fun _ _ => I). }
  vm_compute in E. injection E as _ <-. do 6 eexists. split; [reflexivity|]. split; [exact R|].
  split; [vm_compute; reflexivity|]. split; [vm_compute; reflexivity|]. split; [vm_compute; reflexivity|].
  split; [vm_compute; reflexivity|]. split; [vm_compute; reflexivity|]. split; [reflexivity|]. vm_compute. reflexivity.
Qed.

(** C80: in every program every storage is a gap buffer that calls on it alone can
    produce, so that all that is proved of such gap buffers holds of it. *)
Theorem C80_gap_buffers : forall cls code w r g, cls LF = GC_LF -> closures_ok code ->
  reached (uax29 cls) code w -> nth_error (contents w) r = Some g -> reachable (uax29 cls) g.
Proof. exact (fun cls code w r g H => all_gap_buffers (uax29 cls) code w r g (uax29_order_safe cls H)). Qed.
Print Assumptions C80_gap_buffers.

(** A cursor moves in the text its storage has at that moment, whoever wrote it, and
    nothing else changes. *)
Theorem C80_move : forall brk code al k m w o w' x g, nexec brk code al (NMove k m) w = Ok (o, w') ->
  nth_error (wo_cursors w) k = Some x -> nth_error (contents w) (rc_data x) = Some g ->
  exists c', cexec brk g m (rc_at x) = Ok c' /\ nth_error (wo_cursors w') k = Some (RCur (rc_data x) c') /\
    wo_buffers w' = wo_buffers w /\ contents w' = contents w /\ wo_guards w' = wo_guards w /\ wo_disk w' = wo_disk w.
Proof. exact moves_on_text. Qed.
Print Assumptions C80_move.

(** A call through a handle is that call on the storage. *)
Theorem C80_handle : forall brk code al k c w o w' x g, nexec brk code al (NGap k c) w = Ok (o, w') ->
  nth_error (wo_cursors w) k = Some x -> nth_error (contents w) (rc_data x) = Some g ->
  exists r g', gexec brk al c g = Ok (r, g') /\ o = UStorage r /\ contents w' = put_at (contents w) (rc_data x) g' /\
    wo_buffers w' = wo_buffers w /\ wo_cursors w' = wo_cursors w /\ wo_guards w' = wo_guards w /\ wo_disk w' = wo_disk w.
Proof. exact handles_on_text. Qed.
Print Assumptions C80_handle.

(** No other storage and no other cursor changes. *)
Theorem C80_storage_kept : forall cls code al c w o w' r g, cls LF = GC_LF -> closures_ok code -> reached (uax29 cls) code w ->
  nexec (uax29 cls) code al c w = Ok (o, w') -> nth_error (contents w) r = Some g -> ~ may_change code w c r ->
  nth_error (contents w') r = Some g.
Proof. exact (fun cls code al c w o w' r g H => storage_kept (uax29 cls) code al c w o w' r g (uax29_order_safe cls H)). Qed.
Print Assumptions C80_storage_kept.
Theorem C80_cursor_kept : forall brk code al c w o w' k x, nexec brk code al c w = Ok (o, w') ->
  nth_error (wo_cursors w) k = Some x -> ~ may_move c k -> nth_error (wo_cursors w') k = Some x.
Proof. exact nexec_cursors. Qed.
Print Assumptions C80_cursor_kept.

(** A cloned cursor shares its storage, and starts where the cursor is; an assigned
    cursor brings its storage along; assigning a position or a storage leaves the
    rest of the cursor as it was.  None of these changes a text. *)
Theorem C80_copies : forall brk code al i k j p w b x y,
  nth_error (wo_buffers w) i = Some b -> nth_error (wo_cursors w) k = Some x -> nth_error (wo_cursors w) j = Some y ->
  let same w' := wo_guards w' = wo_guards w /\ contents w' = contents w /\ wo_disk w' = wo_disk w in
  (exists w', nexec brk code al (NClone i) w = Ok (UUnit, w') /\ same w' /\
     wo_buffers w' = wo_buffers w /\ wo_cursors w' = wo_cursors w ++ [rb_cursor b])%list /\
  (exists w', nexec brk code al (NAssign i k) w = Ok (UUnit, w') /\ same w' /\
     wo_buffers w' = put_at (wo_buffers w) i (rset_cursor b x) /\ wo_cursors w' = wo_cursors w) /\
  (exists w', nexec brk code al (NPlace k p) w = Ok (UUnit, w') /\ same w' /\ wo_buffers w' = wo_buffers w /\
     wo_cursors w' = put_at (wo_cursors w) k (RCur (rc_data x) (Cur p (c_sticky (rc_at x))))) /\
  (exists w', nexec brk code al (NData k j) w = Ok (UUnit, w') /\ same w' /\ wo_buffers w' = wo_buffers w /\
     wo_cursors w' = put_at (wo_cursors w) k (RCur (rc_data y) (rc_at x))).
Proof. exact copies. Qed.
Print Assumptions C80_copies.

(** A new buffer is empty, and a new storage has the text it was made with; both are
    put in places nobody has a handle on. *)
Theorem C80_made : forall brk code al w,
  (exists w' b g, nexec brk code al NNew w = Ok (UUnit, w') /\ wo_buffers w' = wo_buffers w ++ [b] /\
     wo_cursors w' = wo_cursors w /\ wo_guards w' = wo_guards w /\ wo_disk w' = wo_disk w /\ contents w' = contents w ++ [g] /\
     gb_to_string g = Ok [] /\ rb_data b = List.length (contents w) /\ rb_cursor b = RCur (rb_data b) (cursor_new (Pos 0 0)) /\
     rb_callback b = None /\ rb_log b = [])%list /\
  forall t p, valid_text t -> (exists w' g, nexec brk code al (NStorage t p) w = Ok (UUnit, w') /\ wo_buffers w' = wo_buffers w /\
     wo_cursors w' = wo_cursors w ++ [RCur (List.length (contents w)) (cursor_new p)] /\
     wo_guards w' = wo_guards w /\ wo_disk w' = wo_disk w /\ contents w' = contents w ++ [g] /\ gb_to_string g = Ok t)%list.
Proof. exact made. Qed.
Print Assumptions C80_made.

(** Two buffers; buffer 0's callback writes into buffer 1's storage, where a clone
    of buffer 1's cursor then moves to the end of the text it finds. *)
Definition crossing : list ncall :=
  [NNew; NNew; NCallback 0 1; NClone 1; NBuffer 1 (BInsert (txt "cd")); NBuffer 0 (BInsert (txt "ab"))].
Example C80_example : exists os w x g w', run_world demo no_files crossing = Ok (os, w) /\ reached uax29_15 demo w /\
  nth_error (wo_cursors w) 0 = Some x /\ nth_error (contents w) (rc_data x) = Some g /\ gb_to_string g = Ok (txt "!cd") /\
  nexec uax29_15 demo tight (NMove 0 MEnd) w = Ok (UUnit, w') /\
  nth_error (wo_cursors w') 0 = Some (RCur (rc_data x) (Cur (Pos 0 3) 3)) /\
  ~ may_change demo w (NBuffer 1 BUndo) 0 /\ may_change demo w (NBuffer 0 BUndo) 1.
Proof.
  destruct (run_world demo no_files crossing) as [[os w]|] eqn:E; [|vm_compute in E; discriminate].
  assert (R : reached uax29_15 demo w).
  { exists no_files, (map (pair tight) crossing), os. eapply (runs_world demo (fun _ => 2)); [apply demo_uses|exact E|vm_compute; reflexivity|].
    apply Forall_forall. exact (fun _ _ => I). }
  vm_compute in E. injection E as _ <-. do 5 eexists. split; [reflexivity|]. split; [exact R|].
  split; [vm_compute; reflexivity|]. split; [vm_compute; reflexivity|]. split; [vm_compute; reflexivity|].
  split; [vm_compute; reflexivity|]. split; [vm_compute; reflexivity|]. split.
  - intros (b & B & X). vm_compute in B. injection B as <-. destruct X as [X|(n & X & _)]; vm_compute in X; discriminate.
  - eexists. split; [vm_compute; reflexivity|]. right. eexists. split; [reflexivity|]. exists (Pos 0 0), []. apply writes_now. exact I.
Qed.
