(** Redo in an open group, and histories over simple texts: the theorems of C22
    and C07 that go beyond clean sessions. *)
From Coq Require Import String.
From Verif Require Import Base Utf8 Grapheme UnicodeTable Position GapBuffer GapProps Cursor PathModel Buffer Spec ClusterSpec CursorSpec
  CursorCalls BufferCalls BufferFacts Witness RedoSpec RedoProofs.

(** C22, the case in which it holds: the step that is redone was made on other
    lines than the edits of the group.  [A] is one step, on lines in [L]; it is
    undone; [G] is made in a group, on other lines; [A] is redone there and the group
    ended.  Both steps are then in the text, and two undos give the text with
    [A] only, and the text before. *)
Theorem C22_redo_on_other_lines_partial : forall cls, cls LF = GC_LF ->
  forall L b f A G bA b1 bG osA osG fA fG al1 al2 al3 al4,
  simple_history cls b f -> b_group b = None ->
  Forall (fun ac => alloc_ok (fst ac)) (A ++ G) -> Forall alloc_ok [al1; al2; al3; al4] ->
  in_lines cls L A (start_group b) f -> existsb (fun ac => edits_text (snd ac)) A = true ->
  brun (uax29 cls) A (start_group b) f = Ok (osA, bA, fA) ->
  buf_undo (uax29 cls) al1 (end_group bA) = Ok b1 ->
  in_lines cls (fun l => negb (L l)) G (start_group b1) f -> existsb (fun ac => edits_text (snd ac)) G = true ->
  brun (uax29 cls) G (start_group b1) f = Ok (osG, bG, fG) ->
  exists t tA tG tAG b2 b3 b4,
    buf_data b = Ok t /\ buf_data bA = Ok tA /\ buf_data b1 = Ok t /\ buf_data bG = Ok tG /\
    buf_redo (uax29 cls) al2 bG = Ok b2 /\ buf_data b2 = Ok tAG /\
    (forall l, nth_error (lines_of tAG) l = nth_error (lines_of (if L l then tA else tG)) l) /\
    buf_undo (uax29 cls) al3 (end_group b2) = Ok b3 /\ buf_data b3 = Ok tA /\
    buf_undo (uax29 cls) al4 b3 = Ok b4 /\ buf_data b4 = Ok t.
Proof. exact redo_other_lines. Qed.
Print Assumptions C22_redo_on_other_lines_partial.

(** C07, for whole buffers: after any calls at all, redo in groups and ranges with
    missing ends included, the answers depend on the text only, if what was put
    in is made of simple clusters. *)
Theorem C07_simple_histories_partial : forall cls, cls LF = GC_LF -> forall b f, simple_history cls b f ->
  exists t, buf_data b = Ok t /\ words (simple_cluster cls) t /\
    (forall p q, buf_read (uax29 cls) b (range_new p q) = Ok (spec_read (uax29 cls) t p q)) /\
    (forall p, in_bounds (uax29 cls) (b_data b) p = Ok (exists_at (uax29 cls) t p)).
Proof. exact simple_answers. Qed.
Print Assumptions C07_simple_histories_partial.

(** A text with a flag and a letter with a mark; "x" is put into the first line and
    a range deleted there, undone, and redone while "yz" is put into the second
    line, whose first cluster is deleted. *)
Definition two_lines : text := (txt "abc" ++ nl ++ [127465%N; 127466%N] ++ txt "e" ++ [769%N])%list.
Definition on_first : list (allocator * bcall) :=
  map (pair tight) [BCursor (Pos 0 1); BInsert (txt "x"); BDeleteRange (Pos 0 4) (Pos 0 2)].
Definition on_second : list (allocator * bcall) :=
  map (pair tight) [BMove (MTo (Pos 1 2)); BInsert (txt "yz"); BMove MStart; BDelete].
Example C22_other_lines_example : exists b bA b1 bG b2 osA osG,
  let f := one_file two_lines in
  let L l := l =? 0 in
  simple_history gcb15 b f /\ b_group b = None /\
  in_lines gcb15 L on_first (start_group b) f /\
  brun uax29_15 on_first (start_group b) f = Ok (osA, bA, f) /\
  buf_undo uax29_15 tight (end_group bA) = Ok b1 /\
  in_lines gcb15 (fun l => negb (L l)) on_second (start_group b1) f /\
  brun uax29_15 on_second (start_group b1) f = Ok (osG, bG, f) /\
  buf_redo uax29_15 tight bG = Ok b2 /\
  buf_data b2 = Ok (txt "ax" ++ nl ++ txt "e" ++ [769%N] ++ txt "yz")%list.
Proof.
  destruct (from_file tight (one_file two_lines) the_path) as [[b|]|] eqn:Eb; [|vm_compute in Eb; discriminate..].
  assert (H : simple_history gcb15 b (one_file two_lines)).
  { exists b, (one_file two_lines), two_lines, [], []. split; [right; now exists tight, the_path|].
    split; [vm_compute in Eb; injection Eb as <-; vm_compute; reflexivity|]. split; [|now split].
    exists [txt "a"; txt "b"; txt "c"; nl; [127465%N; 127466%N]; (txt "e" ++ [769%N])%list]. split; [|reflexivity].
    do 4 (apply Forall_cons; [apply sc_solo; vm_compute; reflexivity|]).
    apply Forall_cons; [apply sc_flag; vm_compute; reflexivity|].
    apply Forall_cons; [apply sc_marked; [vm_compute; reflexivity..|]; repeat constructor|].
    constructor. }
  exists b. vm_compute in Eb. injection Eb as <-. do 6 eexists.
  split; [exact H|]. split; [reflexivity|]. split; [apply in_linesb_ok; vm_compute; reflexivity|].
  split; [vm_compute; reflexivity|]. split; [vm_compute; reflexivity|]. split; [apply in_linesb_ok; vm_compute; reflexivity|].
  split; [vm_compute; reflexivity|]. split; [vm_compute; reflexivity|vm_compute; reflexivity].
Qed.
