(** Property C94: several programs that use one disk in turn.  Statements only; the
    programs are in Programs.v and what is said about them in ProgramsSpec.v. *)
From Coq Require Import String.
From Verif Require Import Base Utf8 Grapheme UnicodeTable Position GapBuffer Cursor PathModel Buffer BufferCalls Witness Token
  Workspace WorkspaceSpec WorkspaceWitness Programs ProgramsSpec ProgramsProofs ProgramsWitness.

(** C94: what one of the programs sees is a session of its own calls, between which
    something changes the disk; so all that is proved of such sessions holds of it. *)
Theorem C94_each_program : forall brk k cs ws f os ws' f' w, prun brk cs ws f = Ok (os, ws', f') -> nth_error ws k = Some w ->
  exists w' l, nth_error ws' k = Some w' /\ with_disks (own k cs os) l /\
    wrun brk (map fst l) w f = Ok (map snd l, w', f').
Proof. exact programs_apart. Qed.
Print Assumptions C94_each_program.

(** C94: none of them ever panics. *)
Theorem C94_no_panic : forall cls, cls LF = GC_LF -> forall cs ws f, Forall (pcall_ok (uax29 cls)) cs -> Forall started ws ->
  exists os ws' f', prun (uax29 cls) cs ws f = Ok (os, ws', f').
Proof. exact programs_total. Qed.
Print Assumptions C94_no_panic.

(** C94: what one of them saved stays in the file until somebody writes there ... *)
Theorem C94_save_stays : forall brk k al r cs ws f os ws2 f2 b p t, has_selected ws k b p t ->
  prun brk ((k, (al, WEdit (BSave r))) :: cs) ws f = Ok (done :: os, ws2, f2) ->
  nobody_writes_after brk p (k, (al, WEdit (BSave r))) cs ws f ->
  forall p', same_file f p' p -> fs_read f2 p' = Some (enc t).
Proof. exact saved_stays. Qed.
Print Assumptions C94_save_stays.

(** ... and is what any of them gets by reloading the file ... *)
Theorem C94_reload : forall brk k al r cs ws f os ws2 f2 b p t j al' b' q u, reached brk ws f -> has_selected ws k b p t ->
  prun brk ((k, (al, WEdit (BSave r))) :: cs) ws f = Ok (done :: os, ws2, f2) -> alloc_ok al -> Forall (pcall_ok brk) cs ->
  nobody_writes_after brk p (k, (al, WEdit (BSave r))) cs ws f ->
  has_selected ws2 j b' q u -> same_file f q p -> alloc_ok al' ->
  exists ws3 b'', pexec brk (j, (al', WEdit BReload)) ws2 f2 = Ok (done, ws3, f2) /\
    has_selected ws3 j b'' q t /\ buf_modified b'' = false.
Proof. exact saved_reload. Qed.
Print Assumptions C94_reload.

(** ... or by opening it, if it was not open there. *)
Theorem C94_open : forall brk k al r cs ws f os ws2 f2 b p t j al' w q, reached brk ws f -> has_selected ws k b p t ->
  prun brk ((k, (al, WEdit (BSave r))) :: cs) ws f = Ok (done :: os, ws2, f2) -> alloc_ok al -> Forall (pcall_ok brk) cs ->
  nobody_writes_after brk p (k, (al, WEdit (BSave r))) cs ws f ->
  nth_error ws2 j = Some w -> same_file f q p -> alloc_ok al' ->
  (forall b', In b' (open_buffers w) -> b_path b' <> fs_target f q) ->
  exists ws3 b'' cp, pexec brk (j, (al', WOpen q)) ws2 f2 = Ok (WResult (ROk tt), ws3, f2) /\
    fs_target f q = Some cp /\ has_selected ws3 j b'' cp t /\ buf_modified b'' = false.
Proof. exact saved_open. Qed.
Print Assumptions C94_open.

(** C94, partial: if nobody has written to the file since this program reloaded it,
    what a save overwrites is what was loaded.  Missing: that a save never overwrites
    what another program saved in the meantime, which is false. *)
Theorem C94_nothing_lost_partial : forall brk k al cs ws f ws1 f1 os ws2 f2 b p t, reached brk ws f -> alloc_ok al ->
  pexec brk (k, (al, WEdit BReload)) ws f = Ok (done, ws1, f1) -> has_selected ws1 k b p t ->
  prun brk ((k, (al, WEdit BReload)) :: cs) ws f = Ok (done :: os, ws2, f2) -> nobody_writes brk p cs ws1 f1 ->
  forall p', same_file f p' p -> fs_read f2 p' = Some (enc t).
Proof. exact reloaded_stays. Qed.
Print Assumptions C94_nothing_lost_partial.

(** The first program saves "xfn"; the second, which has typed "y" into its own "fn",
    reloads and has "xfn". *)
Example C94_example : exists w0 os ws f os2 ws2 f2 ws3 f3 b b', ws_new disk dir (Some syntaxes) = ROk w0 /\
  prun uax29_15 both_open [w0; w0] disk = Ok (os, ws, f) /\ reached uax29_15 ws f /\ has_selected ws 0 b a_rs (txt "xfn") /\
  prun uax29_15 (turn_of 0 (WEdit (BSave WriteSucceeds)) :: unaware) ws f = Ok (done :: os2, ws2, f2) /\ Forall (pcall_ok uax29_15) unaware /\
  nobody_writes_after uax29_15 a_rs (turn_of 0 (WEdit (BSave WriteSucceeds))) unaware ws f /\
  has_selected ws2 1 b' a_rs (txt "yfn") /\
  pexec uax29_15 (turn_of 1 (WEdit BReload)) ws2 f2 = Ok (done, ws3, f3) /\
  texts ws2 = [Some (Ok (txt "xfn"), false); Some (Ok (txt "yfn"), true)] /\
  texts ws3 = [Some (Ok (txt "xfn"), false); Some (Ok (txt "xfn"), false)].
Proof.
  pose proof both_ok as B. apply Forall_app in B as [B1 B2].
  destruct (ws_new disk dir (Some syntaxes)) as [w0|] eqn:E0; [|vm_compute in E0; discriminate].
  assert (X : match prun uax29_15 both_open [w0; w0] disk with Panic => None | Ok (_, ws, f) =>
    match prun uax29_15 (turn_of 0 (WEdit (BSave WriteSucceeds)) :: unaware) ws f with Panic => None | Ok (os2, ws2, f2) =>
    match pexec uax29_15 (turn_of 1 (WEdit BReload)) ws2 f2 with Panic => None | Ok (o3, ws3, f3) =>
      Some (texts ws, paths_of ws, nth_error os2 0, texts ws2, paths_of ws2, o3, texts ws3) end end end =
    Some ([Some (Ok (txt "xfn"), true); Some (Ok (txt "fn"), false)], [Some a_rs; Some a_rs], Some done,
          [Some (Ok (txt "xfn"), false); Some (Ok (txt "yfn"), true)], [Some a_rs; Some a_rs], done,
          [Some (Ok (txt "xfn"), false); Some (Ok (txt "xfn"), false)])).
  { vm_compute in E0. injection E0 as <-. vm_compute. reflexivity. }
  destruct (prun uax29_15 both_open [w0; w0] disk) as [[[os ws] f]|] eqn:E1; [|discriminate].
  destruct (prun uax29_15 (turn_of 0 (WEdit (BSave WriteSucceeds)) :: unaware) ws f) as [[[os2 ws2] f2]|] eqn:E3; [|discriminate].
  destruct (pexec uax29_15 (turn_of 1 (WEdit BReload)) ws2 f2) as [[[o3 ws3] f3]|] eqn:E4; [|discriminate].
  injection X as X1 X2 X3 X4 X5 X6 X7. destruct os2 as [|o1 os2]; [discriminate|]. injection X3 as X3. fold done in X3, X6. subst o1 o3.
  destruct (selected_by ws 0 a_rs (txt "xfn") true) as [b Hb]; [now rewrite X1|now rewrite X2|].
  destruct (selected_by ws2 1 a_rs (txt "yfn") true) as [b' Hb']; [now rewrite X4|now rewrite X5|].
  exists w0, os, ws, f, os2, ws2, f2, ws3, f3, b, b'.
  split; [reflexivity|]. split; [exact E1|]. split.
  { exists [w0; w0], disk, both_open, os. split; [|auto]. repeat constructor; exists disk, dir, syntaxes; exact E0. }
  split; [exact Hb|]. split; [exact E3|]. split; [exact B2|].
  split; [intros o ws1 f1 _; apply quiet_calls; reflexivity|]. split; [exact Hb'|]. auto.
Qed.

(** C94, full statement: false.  The second program saves "yfn" without having loaded
    "xfn": both saves succeed, neither program is told, the first has an unmodified
    buffer with "xfn", and "xfn" is on the disk no more. *)
Theorem C94_lost_refuted : exists w0 os ws f, ws_new disk dir (Some syntaxes) = ROk w0 /\
  prun uax29_15 (both_open ++ [turn_of 0 (WEdit (BSave WriteSucceeds))] ++ unaware ++ [turn_of 1 (WEdit (BSave WriteSucceeds))])
    [w0; w0] disk = Ok (os, ws, f) /\
  nth_error os 3 = Some (WEdited (Some (BResult (ROk tt)))) /\ nth_error os 8 = Some (WEdited (Some (BResult (ROk tt)))) /\
  texts ws = [Some (Ok (txt "xfn"), false); Some (Ok (txt "yfn"), false)] /\ paths_of ws = [Some a_rs; Some a_rs] /\
  fs_read f a_rs = Some (enc (txt "yfn")).
Proof.
  destruct (ws_new disk dir (Some syntaxes)) as [w0|] eqn:E0; [|vm_compute in E0; discriminate].
  assert (X : match prun uax29_15 (both_open ++ [turn_of 0 (WEdit (BSave WriteSucceeds))] ++ unaware ++ [turn_of 1 (WEdit (BSave WriteSucceeds))])
    [w0; w0] disk with Panic => None | Ok (os, ws, f) => Some (nth_error os 3, nth_error os 8, texts ws, paths_of ws, fs_read f a_rs) end =
    Some (Some (WEdited (Some (BResult (ROk tt)))), Some (WEdited (Some (BResult (ROk tt)))),
      [Some (Ok (txt "xfn"), false); Some (Ok (txt "yfn"), false)], [Some a_rs; Some a_rs], Some (enc (txt "yfn")))).
  { vm_compute in E0. injection E0 as <-. vm_compute. reflexivity. }
  destruct (prun uax29_15 _ [w0; w0] disk) as [[[os ws] f]|] eqn:E1; [|discriminate].
  injection X as X1 X2 X3 X4 X5. exists w0, os, ws, f. auto 8.
Qed.
Print Assumptions C94_lost_refuted.
