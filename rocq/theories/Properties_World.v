(** Properties C76-C78: programs with any number of buffers, cursors and storages,
    whose callbacks do anything a handle allows.  Statements only; the programs
    are in World.v and what is said about them in WorldSpec.v. *)
From Coq Require Import String.
From Verif Require Import Base Utf8 Grapheme GraphemeProofs UnicodeTable Position GapBuffer
  Cursor PathModel Buffer ClusterSpec Spec CursorSpec Calls CursorCalls HalvesProofs BufferCalls Witness Disks
  Shared SharedSpec World WorldSpec WorldProofs WorldWitness.

(** C76: no program panics unless it keeps a borrow.  However many buffers there
    are, whatever their callbacks read and write, in its own buffer's storage or
    another's, and wherever cursors were assigned, the next call succeeds. *)
Theorem C76_no_panic : forall cls code w al c, cls LF = GC_LF -> closures_ok code ->
  reached (uax29 cls) code w -> alloc_ok al -> ncall_ok code w c -> wo_guards w = [] ->
  exists o w', nexec (uax29 cls) code al c w = Ok (o, w').
Proof. exact (fun cls code w al c H => never_stuck_free (uax29 cls) code w al c (uax29_order_safe cls H)). Qed.
Print Assumptions C76_no_panic.

(** A kept borrow concerns only the calls that may need the borrowed storage. *)
Theorem C76_kept_borrows : forall cls code w al c, cls LF = GC_LF -> closures_ok code ->
  reached (uax29 cls) code w -> alloc_ok al -> ncall_ok code w c ->
  (forall r, needs code w c r -> ~ guarded w r) ->
  exists o w', nexec (uax29 cls) code al c w = Ok (o, w').
Proof. exact (fun cls code w al c H => never_stuck (uax29 cls) code w al c (uax29_order_safe cls H)). Qed.
Print Assumptions C76_kept_borrows.

(** The calls that borrow one storage panic exactly if what is kept forbids it. *)
Theorem C76_panics_exactly : forall cls code w al c r m, cls LF = GC_LF -> closures_ok code ->
  reached (uax29 cls) code w -> alloc_ok al -> ncall_ok code w c -> borrows w c r m ->
  (nexec (uax29 cls) code al c w = Panic <-> conflict w r m).
Proof. exact (fun cls code w al c r m H => stuck_exactly (uax29 cls) code w al c r m (uax29_order_safe cls H)). Qed.
Print Assumptions C76_panics_exactly.

(** No call leaves a borrow behind, and every storage holds text. *)
Theorem C76_storages : forall cls code w r x, cls LF = GC_LF -> closures_ok code ->
  reached (uax29 cls) code w -> nth_error (wo_heap w) r = Some x ->
  (exists t, gb_to_string (c_gap x) = Ok t /\ valid_text t) /\ (c_lease x = Free <-> ~ guarded w r).
Proof. exact (fun cls code w r x H => storages_hold (uax29 cls) code w r x (uax29_order_safe cls H)). Qed.
Print Assumptions C76_storages.

(** Two buffers; the callback of the first writes into the second, whose own
    callback reads the first; the cursor of the second is put on the first. *)
Definition busy : list ncall :=
  [NNew; NNew; NCallback 0 1; NCallback 1 0; NBuffer 0 (BInsert (txt "ab")); NBuffer 1 (BInsert (txt "cd"));
   NClone 0; NAssign 1 0; NBuffer 1 (BMove MEnd); NBuffer 0 (BReplace (txt "xyz")); NBuffer 1 BUndo; NBuffer 0 BUndo].
Example C76_example : exists os w, run_world demo no_files busy = Ok (os, w) /\ reached uax29_15 demo w /\
  wo_guards w = [] /\ nexec uax29_15 demo tight (NText 0) w = Ok (UText (txt "ab"), w) /\
  nexec uax29_15 demo tight (NText 1) w = Ok (UText (txt "!d!"), w) /\ List.length (wo_heap w) = 4.
Proof.
  destruct (run_world demo no_files busy) as [[os w]|] eqn:E; [|vm_compute in E; discriminate].
  exists os, w. split; [reflexivity|]. split.
  - exists no_files, (map (pair tight) busy), os. eapply (runs_world demo (fun _ => 2)); [apply demo_uses|exact E|vm_compute; reflexivity|].
    apply Forall_forall. exact (fun _ _ => I).
  - vm_compute in E. injection E as _ <-. repeat (split; [vm_compute; reflexivity|]). vm_compute. reflexivity.
Qed.

(** With a kept borrow of the storage of buffer 0, buffer 0 can be read but not
    edited, and buffer 1 can be edited. *)
Definition keeping : list ncall := [NNew; NNew; NBuffer 0 (BInsert (txt "ab")); NClone 0; NHold 0 false].
Example C76_kept_example : exists os w b0 b1, run_world demo no_files keeping = Ok (os, w) /\ reached uax29_15 demo w /\
  wo_buffers w = [b0; b1] /\ guarded w (rb_data b0) /\ ~ guarded w (rb_data b1) /\
  borrows w (NBuffer 0 (BInsert (txt "x"))) (rb_data b0) true /\ conflict w (rb_data b0) true /\
  nexec uax29_15 demo tight (NBuffer 0 (BInsert (txt "x"))) w = Panic /\
  nexec uax29_15 demo tight (NText 0) w = Ok (UText (txt "ab"), w) /\
  (exists w', nexec uax29_15 demo tight (NBuffer 1 (BInsert (txt "x"))) w = Ok (UBuffer BUnit, w')).
Proof.
  destruct (run_world demo no_files keeping) as [[os w]|] eqn:E; [|vm_compute in E; discriminate].
  assert (R : reached uax29_15 demo w).
  { exists no_files, (map (pair tight) keeping), os. eapply (runs_world demo (fun _ => 2)); [apply demo_uses|exact E|vm_compute; reflexivity|].
    apply Forall_forall. exact (fun _ _ => I). }
  vm_compute in E. injection E as _ <-. do 4 eexists. split; [reflexivity|]. split; [exact R|]. split; [reflexivity|].
  split; [exists false; now left|]. split; [intros (m & [[=]|[]])|]. split; [now apply borrows_insert|].
  split; [right; split; [reflexivity|]; exists false; now left|]. split; [vm_compute; reflexivity|]. split; [vm_compute; reflexivity|].
  eexists. vm_compute. reflexivity.
Qed.

(** C77: buffers do not share their text.  In every program no two buffers have
    the same storage, and a call changes no buffer but the one it is made on and
    those into which the caller, or the callback, writes through a handle. *)
Theorem C77_own_storage : forall cls code w, cls LF = GC_LF -> closures_ok code ->
  reached (uax29 cls) code w -> NoDup (map rb_data (wo_buffers w)).
Proof. exact (fun cls code w H => own_storages (uax29 cls) code w (uax29_order_safe cls H)). Qed.
Print Assumptions C77_own_storage.

Theorem C77_isolation : forall cls code w al c o w' j, cls LF = GC_LF -> closures_ok code ->
  reached (uax29 cls) code w -> alloc_ok al -> ncall_ok code w c ->
  nexec (uax29 cls) code al c w = Ok (o, w') -> j < List.length (wo_buffers w) ->
  ~ concerns code w c j -> view w' j = view w j.
Proof. exact (fun cls code w al c o w' j H => isolated (uax29 cls) code w al c o w' j (uax29_order_safe cls H)). Qed.
Print Assumptions C77_isolation.

(** Buffer 1, whose cursor is on the storage of buffer 0, moves it, is edited and
    replaces its text: buffer 0 stays as it is.  A callback that writes into
    buffer 1 changes it. *)
Definition apart : list ncall :=
  [NNew; NNew; NBuffer 0 (BInsert (txt "ab")); NClone 0; NAssign 1 0; NCallback 0 1].
Example C77_example : exists os w w1 w2, run_world demo no_files apart = Ok (os, w) /\ reached uax29_15 demo w /\
  ~ concerns demo w (NBuffer 1 (BReplace (txt "q"))) 0 /\ concerns demo w (NBuffer 0 (BInsert (txt "c"))) 1 /\
  nexec uax29_15 demo tight (NBuffer 1 (BReplace (txt "q"))) w = Ok (UBuffer BUnit, w1) /\
  view w1 0 = view w 0 /\ view w1 1 <> view w 1 /\
  nexec uax29_15 demo tight (NBuffer 0 (BInsert (txt "c"))) w = Ok (UBuffer BUnit, w2) /\ view w2 1 <> view w 1.
Proof.
  destruct (run_world demo no_files apart) as [[os w]|] eqn:E; [|vm_compute in E; discriminate].
  assert (R : reached uax29_15 demo w).
  { exists no_files, (map (pair tight) apart), os. eapply (runs_world demo (fun _ => 2)); [apply demo_uses|exact E|vm_compute; reflexivity|].
    apply Forall_forall. exact (fun _ _ => I). }
  vm_compute in E. injection E as _ <-. do 4 eexists. split; [reflexivity|]. split; [exact R|].
  split. { intros [[=]|(b & n & b' & Hb & Hn & _)]. injection Hb as <-. discriminate. }
  split. { right. do 3 eexists. split; [reflexivity|]. split; [reflexivity|]. split; [reflexivity|].
           exists (Pos 0 0), []. apply writes_now. exact I. }
  split; [vm_compute; reflexivity|]. split; [vm_compute; reflexivity|]. split; [vm_compute; discriminate|].
  split; [vm_compute; reflexivity|vm_compute; discriminate].
Qed.

(** C78: several buffers are several buffers.  If callbacks only look, and the
    program neither assigns cursors to buffers, nor writes storages through
    handles, nor keeps borrows, then the program returns what the same calls on a
    list of separate buffers return, and leaves those buffers and that disk. *)
Theorem C78_values : forall cls code f cs os w, cls LF = GC_LF -> closures_ok code -> only_look code ->
  world_session (uax29 cls) code plain f cs os w ->
  exists vs, vrun (uax29 cls) cs [] f = Ok (map from_buffers os, vs, wo_disk w) /\
    forall i, view w i = nth_error vs i.
Proof. exact (fun cls code f cs os w H => are_values (uax29 cls) code f cs os w (uax29_order_safe cls H)). Qed.
Print Assumptions C78_values.

(** Each is a buffer that calls on it alone can produce, so that all that is
    proved of such buffers holds of it. *)
Theorem C78_reachable : forall cls code f cs os w i v, cls LF = GC_LF -> closures_ok code -> only_look code ->
  world_session (uax29 cls) code plain f cs os w -> view w i = Some v ->
  reachable_buffer (uax29 cls) v (wo_disk w).
Proof. exact (fun cls code f cs os w i v H => are_reachable (uax29 cls) code f cs os w i v (uax29_order_safe cls H)). Qed.
Print Assumptions C78_reachable.

(** Two buffers on one file: the second loads what the first saved. *)
Definition shared_file : list ncall :=
  [NOpen the_path; NNew; NCallback 0 0; NClone 1; NMove 0 MEnd; NStorage (txt "z") (Pos 0 0); NBuffer 0 (BInsert (txt "x"));
   NBuffer 1 (BSetPath (Some the_link)); NBuffer 0 (BSave WriteSucceeds); NBuffer 1 BReload; NText 1; NGap 0 GToString].
Example C78_example : exists os w vs, run_world lookers (one_file (txt "ab")) shared_file = Ok (os, w) /\
  world_session uax29_15 lookers plain (one_file (txt "ab")) (map (pair tight) shared_file) os w /\
  vrun uax29_15 (map (pair tight) shared_file) [] (one_file (txt "ab")) = Ok (map from_buffers os, vs, wo_disk w) /\
  List.length vs = 2 /\ nth_error os 10 = Some (UText (txt "xab")).
Proof.
  destruct (run_world lookers (one_file (txt "ab")) shared_file) as [[os w]|] eqn:E; [|vm_compute in E; discriminate].
  assert (S : world_session uax29_15 lookers plain (one_file (txt "ab")) (map (pair tight) shared_file) os w).
  { eapply (runs_world lookers S); [|exact E|vm_compute; reflexivity|].
    - intros n r U. apply lookers_uses in U. lia.
    - apply Forall_forall. intros c Hc. apply plainb_ok. revert c Hc. apply forallb_forall. reflexivity. }
  destruct (C78_values gcb15 lookers (one_file (txt "ab")) (map (pair tight) shared_file) os w eq_refl lookers_ok lookers_look S) as (vs & Ev & V).
  exists os, w, vs. split; [reflexivity|]. split; [exact S|]. split; [exact Ev|].
  vm_compute in E. injection E as <- <-. split; [|vm_compute; reflexivity]. 
  assert (H0 := V 1). assert (H1 := V 2). vm_compute in H0, H1.
  destruct vs as [|v0 [|v1 [|v2 vs]]]; try discriminate; reflexivity.
Qed.
