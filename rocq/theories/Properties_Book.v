(** Property C79, the rest: what a call does to everything of its buffer that is not
    text, whatever the callbacks do.  Statements only; the programs are in World.v
    and what is said about them in StoreSpec.v and BookSpec.v. *)
From Coq Require Import String.
From Verif Require Import Base Utf8 Grapheme GraphemeProofs UnicodeTable Position GapBuffer
  Cursor PathModel Buffer ClusterSpec Spec CursorSpec Calls CursorCalls HalvesProofs BufferCalls Witness Disks
  Shared SharedSpec World WorldSpec WorldProofs WorldWitness StoreSpec StoreProofs BookSpec BookProofs.

(** C79: whatever the callback does, the answer of a call, the disk after it and the
    buffer's id, path, cursor, history, open group and syntax, and whether it has a
    callback, are those of the same call on a buffer that nobody else touches. *)
Theorem C79_rest : forall cls code al i c w o w' v, cls LF = GC_LF -> closures_ok code -> reached (uax29 cls) code w ->
  alloc_ok al -> ncall_ok code w (NBuffer i c) -> (forall m, c <> BMove m) ->
  nexec (uax29 cls) code al (NBuffer i c) w = Ok (o, w') -> WorldSpec.view w i = Some v ->
  exists o' v1 v', o = UBuffer o' /\ bexec (uax29 cls) al c v (wo_disk w) = Ok (o', v1, wo_disk w') /\
    WorldSpec.view w' i = Some v' /\ but_text v' = but_text v1.
Proof. exact (fun cls code al i c w o w' v H K => rest_of_call (uax29 cls) code (uax29_order_safe cls H) K al i c w o w' v). Qed.
Print Assumptions C79_rest.

(** The callback stays the same one, and the cursor stays on the storage it is on
    unless the call put the buffer's text into a new storage: then it is there. *)
Theorem C79_seat : forall cls code al i c w o w' b g, cls LF = GC_LF -> closures_ok code -> reached (uax29 cls) code w ->
  alloc_ok al -> ncall_ok code w (NBuffer i c) -> (forall on, c <> BSetCallback on) ->
  nexec (uax29 cls) code al (NBuffer i c) w = Ok (o, w') ->
  nth_error (wo_buffers w) i = Some b -> nth_error (contents w) (rb_data b) = Some g ->
  exists b', nth_error (wo_buffers w') i = Some b' /\ rb_callback b' = rb_callback b /\
    rc_data (rb_cursor b') = if existsb renews (events (uax29 cls) g (wo_disk w) c b) then rb_data b' else rc_data (rb_cursor b).
Proof. exact (fun cls code al i c w o w' b g H K => seat_of_call (uax29 cls) code (uax29_order_safe cls H) K al i c w o w' b g). Qed.
Print Assumptions C79_seat.

(** The cursor of a buffer moves in the text of the storage it is on, which another
    buffer's call may have written, and nothing else changes. *)
Theorem C79_own_cursor : forall brk code al i m w o w' b g, nexec brk code al (NBuffer i (BMove m)) w = Ok (o, w') ->
  nth_error (wo_buffers w) i = Some b -> nth_error (contents w) (rc_data (rb_cursor b)) = Some g ->
  exists c', cexec brk g m (rc_at (rb_cursor b)) = Ok c' /\
    w' = World (put_at (wo_buffers w) i (rset_cursor b (RCur (rc_data (rb_cursor b)) c'))) (wo_cursors w) (wo_guards w) (wo_heap w) (wo_disk w).
Proof. exact move_of_call. Qed.
Print Assumptions C79_own_cursor.

(** A callback that puts "!" at the start of storage 1.  After an insert into the buffer
    that has its text there, the text is replaced: the callback writes to the storage the
    buffer had before, the buffer and its cursor are on the new one, the history has one
    edit more, and the callback is still there. *)
Definition writes_itself : list ncall := [NNew; NNew; NCallback 1 1; NBuffer 1 (BInsert (txt "cd"))].
Example C79_rest_example : exists os w v, run_world demo no_files writes_itself = Ok (os, w) /\ reached uax29_15 demo w /\
  WorldSpec.view w 1 = Some v /\ List.length (h_previous (b_history v)) = 1 /\ ncall_ok demo w (NBuffer 1 (BReplace (txt "z"))) /\
  match nexec uax29_15 demo tight (NBuffer 1 (BReplace (txt "z"))) w with
  | Ok (_, w') => match WorldSpec.view w' 1, nth_error (wo_buffers w') 1 with
      | Some v', Some b' => gb_to_string (b_data v') = Ok (txt "z") /\ List.length (h_previous (b_history v')) = 2 /\
          rc_data (rb_cursor b') = rb_data b' /\ rb_data b' = 2 /\ b_callback v' = true
      | _, _ => False
      end
  | Panic => False
  end.
Proof.
  destruct (run_world demo no_files writes_itself) as [[os w]|] eqn:E; [|vm_compute in E; discriminate].
  assert (R : reached uax29_15 demo w).
  { exists no_files, (map (pair tight) writes_itself), os. eapply (runs_world demo (fun _ => 2)); [apply demo_uses|exact E|vm_compute; reflexivity|].
    apply Forall_forall. exact (fun _ _ => I). }
  vm_compute in E. injection E as _ <-. do 3 eexists. split; [reflexivity|]. split; [exact R|].
  split; [vm_compute; reflexivity|]. split; [reflexivity|]. split.
  - cbn. unfold valid_text. repeat constructor.
  - vm_compute. repeat split; reflexivity.
Qed.
