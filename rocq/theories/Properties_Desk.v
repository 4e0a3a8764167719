(** Property C99: a workspace and the storages of its buffers.  Statements only;
    the programs are in Desk.v and what is said about them in DeskSpec.v. *)
From Coq Require Import String.
From Verif Require Import Base Utf8 Grapheme GraphemeProofs UnicodeTable Position GapBuffer
  Cursor PathModel Buffer ClusterSpec Spec CursorSpec Calls CursorCalls HalvesProofs BufferCalls Witness Token Workspace WorkspaceSpec
  WorkspaceWitness Shared SharedSpec World WorldSpec WorldWitness Desk DeskSpec DeskValues DeskWitness.

(** Which buffers are open, in which order, and which is current, after each call:
    they are the very same buffers, with their storages, cursors and histories. *)
Theorem C99_order : forall cls code s al c o s', cls LF = GC_LF -> closures_ok code ->
  desk_reached (uax29 cls) code s -> alloc_ok al -> dcall_ok code s c ->
  dexec (uax29 cls) code al c s = Ok (o, s') -> arranged c s o s'.
Proof. exact (fun cls code s al c o s' H Hc => desk_arranged (uax29 cls) code (uax29_order_safe cls H) Hc s al c o s'). Qed.
Print Assumptions C99_order.

(** The calls that arrange buffers write to no storage that exists (so that every
    cursor and guard the program has stays as it is), nor to the disk. *)
Theorem C99_storages : forall cls code s al c o s', cls LF = GC_LF -> closures_ok code ->
  desk_reached (uax29 cls) code s -> alloc_ok al -> dcall_ok code s c -> arranges c ->
  dexec (uax29 cls) code al c s = Ok (o, s') ->
  (exists new, d_heap s' = d_heap s ++ new) /\ wo_cursors (d_world s') = wo_cursors (d_world s) /\
  wo_guards (d_world s') = wo_guards (d_world s) /\ wo_disk (d_world s') = wo_disk (d_world s).
Proof. exact (fun cls code s al c o s' H Hc => desk_keeps (uax29 cls) code (uax29_order_safe cls H) Hc s al c o s'). Qed.
Print Assumptions C99_storages.

(** They never panic, whatever borrows the program keeps. *)
Theorem C99_arranging_never_panics : forall cls code s al c, cls LF = GC_LF -> closures_ok code ->
  desk_reached (uax29 cls) code s -> alloc_ok al -> arranges c ->
  exists o s', dexec (uax29 cls) code al c s = Ok (o, s').
Proof. exact (fun cls code s al c H Hc => desk_arranges_runs (uax29 cls) code (uax29_order_safe cls H) Hc s al c). Qed.
Print Assumptions C99_arranging_never_panics.

(** Other calls do not either, unless a storage they need is kept borrowed. *)
Theorem C99_never_panics : forall cls code s al c, cls LF = GC_LF -> closures_ok code ->
  desk_reached (uax29 cls) code s -> alloc_ok al -> dcall_ok code s c ->
  (forall r, desk_needs code s c r -> ~ guarded (d_world s) r) ->
  exists o s', dexec (uax29 cls) code al c s = Ok (o, s').
Proof. exact (fun cls code s al c H Hc => desk_runs (uax29 cls) code (uax29_order_safe cls H) Hc s al c). Qed.
Print Assumptions C99_never_panics.

(** A borrow of the first file's text is kept, for writing, while others are opened
    and closed and the first is current again; asking for its tokens panics. *)
Definition kept : list dcall := [DOpen a_rs; DClone; DWorld (NHold 0 true); DOpen b_txt; DOpen other; DNext; DSyntax].
Example C99_kept_example : exists os s s1, run_desk demo kept = Ok (os, s) /\ desk_reached uax29_15 demo s /\
  texts s = [Some (txt "fn"); Some (txt "b" ++ nl); Some e_acute] /\ d_index s = Some 0 /\ guarded (d_world s) 0 /\ desk_needs demo s DTokens 0 /\
  dexec uax29_15 demo tight DTokens s = Panic /\ arranges DClose /\ dexec uax29_15 demo tight DClose s = Ok (VUnit, s1) /\
  texts s1 = [Some (txt "b" ++ nl); Some e_acute] /\ d_index s1 = Some 0 /\
  ~ guarded (d_world s1) 2 /\ (exists s2 t, dexec uax29_15 demo tight DTokens s1 = Ok (VTokens (ROk t), s2)).
Proof.
  destruct (run_desk demo kept) as [[os s]|] eqn:E; [|vm_compute in E; discriminate].
  assert (R : desk_reached uax29_15 demo s).
  { eapply (reaches_desk demo (fun _ => 2)); [apply demo_uses|exact E|vm_compute; reflexivity]. }
  vm_compute in E. injection E as _ <-. do 3 eexists. split; [reflexivity|]. split; [exact R|].
  split; [vm_compute; reflexivity|]. split; [reflexivity|]. split; [exists true; now left|].
  split; [eexists; split; reflexivity|]. split; [vm_compute; reflexivity|]. split; [exact I|]. split; [vm_compute; reflexivity|].
  split; [vm_compute; reflexivity|]. split; [reflexivity|].
  split; [intros (m & [[=]|[]])|]. eexists _, _. vm_compute. reflexivity.
Qed.

(** No two buffers, open or the program's own, have the same storage; a call leaves
    every open buffer as it is, text and all, but those it is about. *)
Theorem C99_own_storage : forall cls code s, cls LF = GC_LF -> closures_ok code ->
  desk_reached (uax29 cls) code s -> NoDup (map rb_data (d_lineup s ++ wo_buffers (d_world s))).
Proof. exact (fun cls code s H Hc => desk_own_storage (uax29 cls) code (uax29_order_safe cls H) Hc s). Qed.
Print Assumptions C99_own_storage.

Theorem C99_isolation : forall cls code s al c o s' b, cls LF = GC_LF -> closures_ok code ->
  desk_reached (uax29 cls) code s -> alloc_ok al -> dcall_ok code s c ->
  dexec (uax29 cls) code al c s = Ok (o, s') -> In b (d_lineup s) -> ~ desk_concerns code s c b ->
  In b (d_lineup s') /\ seen (d_heap s') b = seen (d_heap s) b.
Proof. exact (fun cls code s al c o s' b H Hc => desk_isolated (uax29 cls) code (uax29_order_safe cls H) Hc s al c o s' b). Qed.
Print Assumptions C99_isolation.

(** The program's own buffer is added; its callback writes into the storage of the
    file that is open beside it.  Closing it leaves that file as it is. *)
Definition mixed : list dcall := [DWorld NNew; DOpen a_rs; DWorld (NBuffer 0 (BInsert (txt "own"))); DWorld (NCallback 0 1); DAdd 0].
Example C99_mixed_example : exists os s a b s1 s2, run_desk demo mixed = Ok (os, s) /\ desk_reached uax29_15 demo s /\
  d_lineup s = [a; b] /\ d_current s = Some b /\ wo_buffers (d_world s) = [] /\ texts s = [Some (txt "fn"); Some (txt "own")] /\
  desk_concerns demo s (DBuffer (BInsert (txt "x"))) a /\ ~ desk_concerns demo s DClose a /\
  dexec uax29_15 demo tight (DBuffer (BInsert (txt "x"))) s = Ok (VWorld (UBuffer BUnit), s1) /\
  texts s1 = [Some (txt "!fn"); Some (txt "xown")] /\
  dexec uax29_15 demo tight DClose s = Ok (VUnit, s2) /\ d_lineup s2 = [a] /\ texts s2 = [Some (txt "fn")].
Proof.
  destruct (run_desk demo mixed) as [[os s]|] eqn:E; [|vm_compute in E; discriminate].
  assert (R : desk_reached uax29_15 demo s).
  { eapply (reaches_desk demo (fun _ => 2)); [apply demo_uses|exact E|vm_compute; reflexivity]. }
  vm_compute in E. injection E as _ <-. do 6 eexists. split; [reflexivity|]. split; [exact R|].
  split; [vm_compute; reflexivity|]. split; [reflexivity|]. split; [reflexivity|]. split; [vm_compute; reflexivity|].
  split. { right. do 2 eexists. split; [reflexivity|]. split; [reflexivity|]. exists (Pos 0 0), []. apply writes_now. exact I. }
  split; [intros [=]|]. split; [vm_compute; reflexivity|]. split; [vm_compute; reflexivity|]. split; [vm_compute; reflexivity|].
  split; vm_compute; reflexivity.
Qed.

(** Programs whose callbacks only look, and that edit through the buffers: the
    workspace is a list of separate buffers (that of WorkspaceSpec.v), and returns
    and leaves the same. *)
Theorem C99_values : forall cls code f p ss ws cs os s, cls LF = GC_LF -> closures_ok code -> only_look code ->
  rws_new f p (Some ss) = ROk ws -> desk_session (uax29 cls) code desk_plain f ws cs os s ->
  exists dir v, fs_canon f p = Some dir /\
    dvrun (uax29 cls) cs (VDesk [] (Shelf dir [] None 0 ss)) f = Ok (map from_desk os, v, wo_disk (d_world s)) /\
    desk_shows s v.
Proof. exact (fun cls code f p ss ws cs os s H Hc => desk_values (uax29 cls) code (uax29_order_safe cls H) Hc f p ss ws cs os s). Qed.
Print Assumptions C99_values.

(** Each buffer, open or not, is one that calls on it alone can produce, so that all
    that is proved of such buffers holds of it. *)
Theorem C99_reachable : forall cls code f p ss ws cs os s b, cls LF = GC_LF -> closures_ok code -> only_look code ->
  rws_new f p (Some ss) = ROk ws -> desk_session (uax29 cls) code desk_plain f ws cs os s ->
  In b (d_lineup s ++ wo_buffers (d_world s)) ->
  exists v, seen (d_heap s) b = Some v /\ reachable_buffer (uax29 cls) v (wo_disk (d_world s)).
Proof. exact (fun cls code f p ss ws cs os s b H Hc => desk_reachable (uax29 cls) code (uax29_order_safe cls H) Hc f p ss ws cs os s b). Qed.
Print Assumptions C99_reachable.

(** The file is edited and saved under one name; opening it by its link selects it. *)
Definition by_link : list dcall :=
  [DWorld NNew; DOpen a_rs; DCallback 1; DBuffer (BInsert (txt "x")); DBuffer (BSave WriteSucceeds); DAdd 0; DClone; DWorld (NMove 0 MEnd);
   DBuffer (BInsert (txt "own")); DOpen link; DBuffer BReload; DTokens; DPrevious; DTokens; DWorld (NOpen a_rs); DWorld (NText 0); DClose].
Example C99_values_example : exists os s v, run_desk lookers by_link = Ok (os, s) /\
  desk_session uax29_15 lookers desk_plain disk bench (map (pair tight) by_link) os s /\
  dvrun uax29_15 (map (pair tight) by_link) (VDesk [] (Shelf dir [] None 0 syntaxes)) disk = Ok (map from_desk os, v, wo_disk (d_world s)) /\
  desk_shows s v /\ List.length (vd_own v) = 1 /\ List.length (d_lineup s ++ wo_buffers (d_world s)) = 2 /\ texts s = [Some (txt "xfn")] /\
  nth_error os 11 = Some (VTokens (ROk (TS (txt "xfn") 1%N))) /\ nth_error os 13 = Some (VTokens (ROk (TS (txt "own") 0%N))) /\
  nth_error os 15 = Some (VWorld (UText (txt "xfn"))).
Proof.
  destruct (run_desk lookers by_link) as [[os s]|] eqn:E; [|vm_compute in E; discriminate].
  assert (S : desk_session uax29_15 lookers desk_plain disk bench (map (pair tight) by_link) os s).
  { eapply (runs_desk lookers S); [|exact E|vm_compute; reflexivity|].
    - intros n r U. apply lookers_uses in U. lia.
    - apply Forall_forall. intros c Hc. apply dplainb_ok. revert c Hc. apply forallb_forall. reflexivity. }
  destruct (C99_values gcb15 lookers disk dir syntaxes bench (map (pair tight) by_link) os s eq_refl lookers_ok lookers_look bench_new S) as (d & v & Ed & Ev & V).
  injection Ed as <-.
  exists os, s, v. split; [reflexivity|]. split; [exact S|]. split; [exact Ev|]. split; [exact V|].
  destruct V as (_ & _ & _ & _ & _ & V). vm_compute in E. injection E as <- <-. cbn [d_world wo_buffers] in V.
  split; [now rewrite <- (map_length Some), V|]. repeat (split; [vm_compute; reflexivity|]). vm_compute. reflexivity.
Qed.
