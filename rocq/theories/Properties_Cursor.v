(** Properties C11-C15: cursor movement. *)
From Coq Require Import String.
From Verif Require Import Base Utf8 Grapheme GraphemeProofs UnicodeTable Position GapBuffer
  Cursor Spec CursorSpec Calls CursorCalls TextProofs UaxProofs HalvesProofs TextFacts GapProps
  CursorProofs Witness Properties_Gap.

(** C11: [move_to] succeeds exactly at the positions of the text. *)
Theorem C11_move_to_exact : forall brk g t, coherent brk g t -> forall c p,
  move_to brk g c p =
  Ok (exists_at brk t p, if exists_at brk t p then Cur p (offset p) else c).
Proof. exact move_to_coherent. Qed.
Print Assumptions C11_move_to_exact.

(** C11, any text: it agrees with [in_bounds] and never panics. *)
Theorem C11_move_to_is_in_bounds : forall brk g c p, reachable brk g ->
  exists b, in_bounds brk g p = Ok b
    /\ move_to brk g c p = Ok (b, if b then Cur p (offset p) else c).
Proof. exact move_to_any. Qed.
Print Assumptions C11_move_to_is_in_bounds.

(** C12, any text, any segmentation: movement never panics, and ends where it
    started or at a position of the buffer. *)
Theorem C12_movement_stays_in_bounds : forall brk g ms, reachable brk g -> forall c,
  exists c', crun brk g ms c = Ok c' /\ in_or_same brk g c c'.
Proof. exact crun_stays. Qed.
Print Assumptions C12_movement_stays_in_bounds.
Theorem C12_movement_from_in_bounds : forall brk g ms c,
  reachable brk g -> in_bounds brk g (c_pos c) = Ok true ->
  exists c', crun brk g ms c = Ok c' /\ in_bounds brk g (c_pos c') = Ok true.
Proof. exact crun_in_bounds. Qed.
Print Assumptions C12_movement_from_in_bounds.

(** C12-C15 in one: every sequence of movements does what the specification
    of the movements says, wherever the cursor is, and keeps a cursor that is in
    the text there. *)
Theorem C12_movement_refines_spec : forall brk g t, coherent brk g t -> no_crlf t ->
  forall ms c,
  exists c', crun brk g ms c = Ok c'
    /\ view c' = fold_left (fun s m => spec_move brk t m s) ms (view c)
    /\ (exists_at brk t (c_pos c) = true -> exists_at brk t (c_pos c') = true).
Proof. exact crun_coherent. Qed.
Print Assumptions C12_movement_refines_spec.

(** For UAX #29 the second hypothesis follows from the first. *)
Theorem C12_uax29_no_crlf : forall cls t, cls CR = GC_CR -> cls LF = GC_LF ->
  plain_newlines (uax29 cls) t -> no_crlf t.
Proof. exact uax29_no_crlf. Qed.
Print Assumptions C12_uax29_no_crlf.

Example C12_example : exists g, clean_buffer uax29_15 g (txt "abc" ++ nl ++ nl ++ txt "xy")
  /\ reachable uax29_15 g /\ no_crlf (txt "abc" ++ nl ++ nl ++ txt "xy")
  /\ crun uax29_15 g [MDown; MDown; MRight; MEnd; MUp] (cursor_new (Pos 0 3))
     = Ok (Cur (Pos 1 0) 2).
Proof.
  destruct (gsession uax29_15 tight (txt "abc" ++ nl ++ nl ++ txt "xy") []) as [[os g]|] eqn:E;
    [|vm_compute in E; discriminate].
  exists g.
  assert (C : clean_session uax29_15 (txt "abc" ++ nl ++ nl ++ txt "xy") [])
    by (apply ascii_session; [reflexivity|constructor]).
  assert (H : clean_buffer uax29_15 g (txt "abc" ++ nl ++ nl ++ txt "xy")).
  { exists tight, (txt "abc" ++ nl ++ nl ++ txt "xy"), [], os. split; [assumption|].
    split; [assumption|]. vm_compute in E. injection E as _ <-. vm_compute. reflexivity. }
  split; [assumption|]. split.
  { exists tight, (txt "abc" ++ nl ++ nl ++ txt "xy"), [], os.
    split; [now apply valid_textb_ok|]. repeat split; try constructor. exact E. }
  split.
  - apply (uax29_no_crlf gcb15); [vm_compute; reflexivity..|]. apply C.
  - vm_compute in E. injection E as _ <-. vm_compute. reflexivity.
Qed.

(** C13: moving up and down ends on the line clamped arithmetic gives, at the
    wished column or the end of the line, and keeps the wish. *)
Theorem C13_vertical_movement : forall brk g t, coherent brk g t -> no_crlf t ->
  forall ups c, settled brk t c ->
  exists c', crun brk g (map (fun u : bool => if u then MUp else MDown) ups) c = Ok c'
    /\ settled brk t c' /\ c_sticky c' = c_sticky c
    /\ line (c_pos c') = spec_lines (List.length (lines_of t)) ups (line (c_pos c)).
Proof. exact vertical_coherent. Qed.
Print Assumptions C13_vertical_movement.

(** C13: [settled], its hypothesis, is kept by every movement (a successful
    [move_to] makes any cursor settled). *)
Theorem C13_settled : forall brk g t, coherent brk g t -> no_crlf t ->
  forall m c c', settled brk t c -> cexec brk g m c = Ok c' -> settled brk t c'.
Proof. exact settled_coherent. Qed.
Print Assumptions C13_settled.

Example C13_example :
  settled uax29_15 (txt "abc" ++ nl ++ nl ++ txt "xy") (cursor_new (Pos 0 3)) /\
  settled uax29_15 (txt "abc" ++ nl ++ nl ++ txt "xy") (Cur (Pos 2 2) 3) /\
  spec_lines 3 [false; false; false; true] 0 = 1.
Proof. repeat split; vm_compute; try reflexivity; lia. Qed.

(** C14: horizontal movement. *)
Theorem C14_left : forall brk g t, coherent brk g t -> forall c,
  exists_at brk t (c_pos c) = true ->
  move_left brk g c =
  Ok (if offset (c_pos c) =? 0 then c
      else cursor_new (Pos (line (c_pos c)) (offset (c_pos c) - 1))).
Proof. exact left_coherent. Qed.
Print Assumptions C14_left.
Theorem C14_right : forall brk g t, coherent brk g t -> forall c,
  exists_at brk t (c_pos c) = true ->
  move_right brk g c =
  Ok (if offset (c_pos c) =? line_width brk t (line (c_pos c)) then c
      else cursor_new (Pos (line (c_pos c)) (offset (c_pos c) + 1))).
Proof. exact right_coherent. Qed.
Print Assumptions C14_right.
Theorem C14_start_of_line : forall brk g t, coherent brk g t -> forall c,
  exists_at brk t (c_pos c) = true ->
  move_to_start_of_line brk g c = Ok (cursor_new (Pos (line (c_pos c)) 0)).
Proof. exact start_coherent. Qed.
Print Assumptions C14_start_of_line.
Theorem C14_end_of_line : forall brk g t, coherent brk g t -> no_crlf t -> forall c,
  exists_at brk t (c_pos c) = true ->
  exists c', move_to_end_of_line brk g c = Ok c'
    /\ c_pos c' = Pos (line (c_pos c)) (line_width brk t (line (c_pos c))).
Proof. exact end_coherent. Qed.
Print Assumptions C14_end_of_line.

Example C14_example : line_width uax29_15 (txt "abc" ++ nl ++ txt "e" ++ acute ++ txt "x") 1 = 2.
Proof. vm_compute. reflexivity. Qed.

(** C15: first and last line. *)
Theorem C15_first_line : forall brk g t, coherent brk g t -> no_crlf t -> forall c,
  move_to_first_line brk g c = Ok (cursor_new (Pos 0 (Nat.min (c_sticky c) (line_width brk t 0)))).
Proof. exact first_coherent. Qed.
Print Assumptions C15_first_line.
Theorem C15_last_line : forall brk g t, coherent brk g t -> forall c,
  move_to_last_line brk g c =
  Ok (cursor_new (Pos (List.length (lines_of t) - 1)
        (Nat.min (c_sticky c) (line_width brk t (List.length (lines_of t) - 1))))).
Proof. exact last_coherent. Qed.
Print Assumptions C15_last_line.

Example C15_example :
  List.length (lines_of (txt "ab" ++ nl)) = 2 /\ line_width uax29_15 (txt "ab" ++ nl) 1 = 0 /\
  List.length (lines_of []) = 1.
Proof. repeat split; vm_compute; reflexivity. Qed.
