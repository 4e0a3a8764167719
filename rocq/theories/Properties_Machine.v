(** Properties C66 and C67: the code on machine integers.  Model: Machine.v;
    specification: MachineSpec.v.  [K] is [isize::MAX]. *)
From Coq Require Import String.
From Verif Require Import Base Utf8 Grapheme GraphemeProofs UnicodeTable Position GapBuffer
  Cursor PathModel Buffer Spec CursorSpec BufferCalls BufferFacts Machine MachineSpec MachineProofs MachineEnough Witness.

(** C66: a session whose numbers are far from the largest one runs out of
    memory, or does on machine integers what it does on unbounded numbers; no
    sum overflows. *)
Theorem C66_machine_integers : forall K brk cs b f,
  1 <= K -> u_fresh K f b ->
  Forall (fun ac => alloc_ok (fst ac) /\ call_ok (snd ac) /\ within_machine K (snd ac)) cs ->
  fresh_buffer f b /\
  (u_brun K brk cs b f = MNoMemory \/ u_brun K brk cs b f = of_res (brun brk cs b f)).
Proof. exact machine_run. Qed.
Print Assumptions C66_machine_integers.
(** It does not panic either. *)
Theorem C66_no_panic : forall K cls cs b f,
  1 <= K -> cls LF = GC_LF -> u_fresh K f b ->
  Forall (fun ac => alloc_ok (fst ac) /\ call_ok (snd ac) /\ within_machine K (snd ac)) cs ->
  u_brun K (uax29 cls) cs b f = MNoMemory \/
  exists os b' f', u_brun K (uax29 cls) cs b f = MOk (os, b', f')
                   /\ brun (uax29 cls) cs b f = Ok (os, b', f').
Proof. exact machine_no_panic. Qed.
Print Assumptions C66_no_panic.
(** It does not run out of memory on a machine that has enough. *)
Theorem C66_enough_memory : forall brk cs b f, fresh_buffer f b -> exists K0, forall K, K0 <= K ->
  u_fresh K f b /\ Forall (fun ac => within_machine K (snd ac)) cs
  /\ u_brun K brk cs b f = of_res (brun brk cs b f).
Proof. exact enough_memory. Qed.
Print Assumptions C66_enough_memory.
(** So the other theorems about reachable buffers hold of the buffers that a
    machine reaches. *)
Theorem C66_reached_buffers : forall K brk b f,
  1 <= K -> u_reached K brk b f -> reachable_buffer brk b f.
Proof. exact reached_reachable. Qed.
Print Assumptions C66_reached_buffers.

(** A machine with 12-byte strings does not run out of memory on these calls,
    one of which assigns the position (12, 12) to the cursor; a machine with
    3-byte strings does. *)
Definition some_calls : list (allocator * bcall) :=
  [(tight, BInsert (txt "ab" ++ nl ++ txt "c")%list); (tight, BMove MDown); (tight, BInsert (txt "d"));
   (tight, BDeleteRange (Pos 0 1) (Pos 1 1)); (tight, BUndo);
   (tight, BDeleteRange (Pos 2 0) (Pos 24 0)); (tight, BCursor (Pos 12 12));
   (tight, BMove MRight); (tight, BDelete)].
Example C66_example : exists b,
  u_fresh 12 no_files b /\
  Forall (fun ac => alloc_ok (fst ac) /\ call_ok (snd ac) /\ within_machine 12 (snd ac)) some_calls /\
  match u_brun 12 uax29_15 some_calls b no_files with
  | MOk (_, b', _) => buf_data b' = Ok (txt "ab" ++ nl ++ txt "dc")%list
  | _ => False
  end.
Proof.
  destruct (u_buffer_new 12 tight) as [b| | |] eqn:E; try (vm_compute in E; discriminate).
  exists b. split; [left; exists tight; exact E|]. split.
  - unfold some_calls. repeat constructor; cbn [fst snd call_ok]; try apply tight_ok; try (now apply valid_textb_ok);
      cbn; try lia.
  - vm_compute in E. injection E as <-. vm_compute. reflexivity.
Qed.
Example C66_no_memory_example : exists b, u_fresh 3 no_files b /\
  u_brun 3 uax29_15 some_calls b no_files = MNoMemory.
Proof.
  destruct (u_buffer_new 3 tight) as [b| | |] eqn:E; try (vm_compute in E; discriminate).
  exists b. split; [left; exists tight; exact E|]. vm_compute in E. injection E as <-. vm_compute. reflexivity.
Qed.

(** C67, part of the full statement: bounds checks, reads, cursor placements and
    inserts take every position; no sum overflows.  Missing: [delete_range] to
    the largest line (see the refuted theorem), and movements and [delete] from
    a cursor whose position was assigned. *)
Theorem C67_any_position_partial : forall K brk al b f c p q data,
  1 <= K -> u_reached K brk b f -> alloc_ok al -> valid_text data ->
  u_in_bounds K brk (b_data b) p = of_res (in_bounds brk (b_data b) p)
  /\ u_read K brk (b_data b) (range_new p q) = of_res (gb_read brk (b_data b) (range_new p q))
  /\ u_move_to K brk (b_data b) c p = of_res (move_to brk (b_data b) c p)
  /\ (u_insert K brk al (b_data b) data p = MNoMemory
      \/ u_insert K brk al (b_data b) data p = of_res (gb_insert brk al (b_data b) data p)).
Proof. exact any_position. Qed.
Print Assumptions C67_any_position_partial.
(** [delete_range] overflows for exactly the ranges that start in the text and
    end on line [usize::MAX]. *)
Theorem C67_delete_range_exactly_when : forall K brk al b f p q,
  1 <= K -> u_reached K brk b f ->
  u_bexec K brk al (BDeleteRange p q) b f = MOverflow <->
  in_bounds brk (b_data b) (r_start (range_new p q)) = Ok true /\ 2 * K < line (r_end (range_new p q)).
Proof. exact range_overflows. Qed.
Print Assumptions C67_delete_range_exactly_when.
(** The full statement is false: deleting from the start of the text to line
    [usize::MAX] overflows in every buffer. *)
Theorem C67_refuted : forall K brk al b f, 1 <= K -> u_reached K brk b f ->
  exists c, call_ok c /\ u_bexec K brk al c b f = MOverflow.
Proof.
  exact (fun K brk al b f HK Hr =>
    ex_intro _ (BDeleteRange (Pos 0 0) (Pos (2 * K + 1) 0)) (conj I (largest_line K brk al b f HK Hr))).
Qed.
Print Assumptions C67_refuted.
(** A movement down or right overflows exactly from the largest line or offset. *)
Theorem C67_down_exactly_when : forall K brk b f c, 1 <= K -> u_reached K brk b f ->
  u_move_down K brk (b_data b) c = MOverflow <-> 2 * K < line (c_pos c).
Proof. exact down_when. Qed.
Print Assumptions C67_down_exactly_when.
Theorem C67_right_exactly_when : forall K brk b f c, 1 <= K -> u_reached K brk b f ->
  u_move_right K brk (b_data b) c = MOverflow <-> 2 * K < offset (c_pos c).
Proof. exact right_when. Qed.
Print Assumptions C67_right_exactly_when.
(** [delete] overflows exactly from the largest line or offset. *)
Theorem C67_delete_exactly_when : forall K brk al b f c, 1 <= K -> u_reached K brk b f ->
  u_bexec K brk al BDelete (set_cursor b c) f = MOverflow
  <-> 2 * K < line (c_pos c) \/ 2 * K < offset (c_pos c).
Proof. exact delete_when. Qed.
Print Assumptions C67_delete_exactly_when.
(** Undo of an insert overflows exactly if the position after the inserted text
    does not fit, or would not with one more line. *)
Theorem C67_undo_exactly_when : forall K brk al b f p d os b' f',
  1 <= K -> u_reached K brk b f -> alloc_ok al -> valid_text d ->
  b_group b = None -> u_brun K brk [(al, BCursor p); (al, BInsert d)] b f = MOk (os, b', f') ->
  u_bexec K brk al BUndo b' f' = MOverflow <->
  2 * K + 1 < line p + List.length (lines_of d) \/
  (List.length (lines_of d) = 1 /\ 2 * K + 1 < offset p + List.length (graphemes brk d)).
Proof. exact undo_when. Qed.
Print Assumptions C67_undo_exactly_when.
(** Sums of positions and distances, and line ranges, overflow exactly when the
    result does not fit. *)
Theorem C67_sum_exactly_when : forall K p d,
  u_pos_add K p d = if (line p + d_lines d <=? 2 * K + 1) &&
                       ((0 <? d_lines d) || (offset p + d_offset d <=? 2 * K + 1))
                    then MOk (pos_add p d) else MOverflow.
Proof. exact add_overflows. Qed.
Print Assumptions C67_sum_exactly_when.
Theorem C67_assigned_sum_is_the_sum : forall K p d, u_pos_add_assign K p d = u_pos_add K p d.
Proof. exact add_assign_overflows. Qed.
Print Assumptions C67_assigned_sum_is_the_sum.
Theorem C67_inclusive_range_exactly_when : forall K r,
  u_to_inclusive_range K r = if lr_end r <=? 2 * K then MOk (to_inclusive_range r) else MOverflow.
Proof. exact inclusive_overflows. Qed.
Print Assumptions C67_inclusive_range_exactly_when.

(** The machine with 12-byte strings reaches a buffer; there the range from
    (1, 1) to line 25 overflows, the same range from (9, 9) does not; an insert
    at line 25 is ignored, but undoing it overflows. *)
Example C67_example : exists b f, u_reached 12 uax29_15 b f /\
  buf_data b = Ok (txt "ab" ++ nl ++ txt "dc")%list /\
  in_bounds uax29_15 (b_data b) (Pos 1 1) = Ok true /\
  in_bounds uax29_15 (b_data b) (Pos 9 9) = Ok false /\
  b_group b = None /\
  exists os b' f', u_brun 12 uax29_15 [(tight, BCursor (Pos 25 0)); (tight, BInsert (txt "x"))] b f = MOk (os, b', f').
Proof.
  destruct (u_buffer_new 12 tight) as [b0| | |] eqn:E; try (vm_compute in E; discriminate).
  destruct (u_brun 12 uax29_15 some_calls b0 no_files) as [[[os b] f]| | |] eqn:E2;
    try (vm_compute in E; injection E as <-; vm_compute in E2; discriminate).
  exists b, f. split.
  - exists b0, no_files, some_calls, os. split; [left; exists tight; exact E|]. split; [|exact E2].
    unfold some_calls. repeat constructor; cbn [fst snd call_ok]; try apply tight_ok; try (now apply valid_textb_ok);
      cbn; try lia.
  - vm_compute in E. injection E as <-. vm_compute in E2. injection E2 as _ <- _. vm_compute.
    repeat (split; [reflexivity|]). eexists _, _, _. reflexivity.
Qed.
