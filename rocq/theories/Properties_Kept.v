(** Property C87, and what it says of the cursor (C16).  Specification: RedoSpec.v. *)
From Coq Require Import String.
From Verif Require Import Base Utf8 Grapheme UnicodeTable Position GapBuffer GapProps Cursor PathModel Buffer Spec ClusterSpec CursorSpec
  CursorCalls BufferCalls BufferFacts Witness RedoSpec RedoProofs KeptProofs.

(** C87: whatever is called, the positions at or before all places that were
    announced meanwhile exist as they did, and what is read between them is the
    same. *)
Theorem C87_nothing_before_changes : forall cls, cls LF = GC_LF ->
  forall b f cs os b' f',
  simple_history cls b f -> b_callback b = true ->
  Forall (fun ac => alloc_ok (fst ac) /\ simple_input cls (snd ac) /\ quiet (snd ac)) cs ->
  brun (uax29 cls) cs b f = Ok (os, b', f') ->
  exists ps, b_log b' = (b_log b ++ ps)%list /\
    (forall q, Forall (lex_le q) ps -> in_bounds (uax29 cls) (b_data b') q = in_bounds (uax29 cls) (b_data b) q) /\
    (forall p q, Forall (lex_le p) ps -> Forall (lex_le q) ps ->
       buf_read (uax29 cls) b' (range_new p q) = buf_read (uax29 cls) b (range_new p q)).
Proof. exact nothing_before. Qed.
Print Assumptions C87_nothing_before_changes.

(** C16, for the calls that can leave the cursor behind: a cursor in the text is in
    the text afterwards, if no place before it was announced. *)
Theorem C16_nothing_announced_before_partial : forall cls, cls LF = GC_LF ->
  forall b f al c o b' f',
  simple_history cls b f -> b_callback b = true -> alloc_ok al -> simple_input cls c -> not_assigned c ->
  bexec (uax29 cls) al c b f = Ok (o, b', f') ->
  in_bounds (uax29 cls) (b_data b) (c_pos (b_cursor b)) = Ok true ->
  exists ps, b_log b' = (b_log b ++ ps)%list /\
    (Forall (lex_le (c_pos (b_cursor b))) ps ->
     in_bounds (uax29 cls) (b_data b') (c_pos (b_cursor b')) = Ok true).
Proof. exact cursor_ahead. Qed.
Print Assumptions C16_nothing_announced_before_partial.

(** A file with a flag and a marked letter; a group of edits behind (0,4) is made,
    undone and redone, all announced at (0,4) or later. *)
Definition flagged : text := (txt "ab" ++ [127465%N; 127466%N] ++ txt "e" ++ [769%N] ++ txt "z" ++ nl ++ txt "last")%list.
Definition behind_four : list (allocator * bcall) :=
  map (pair tight) [BStartGroup; BCursor (Pos 0 4); BInsert (txt "new" ++ nl); BDeleteRange (Pos 2 2) (Pos 1 1); BEndGroup;
                    BMove MFirst; BUndo; BRedo].
Example C87_example : exists b b' f os,
  simple_history gcb15 b f /\ b_callback b = true /\
  Forall (fun ac => alloc_ok (fst ac) /\ simple_input gcb15 (snd ac) /\ quiet (snd ac)) behind_four /\
  brun uax29_15 behind_four b f = Ok (os, b', f) /\
  b_log b' = [Pos 0 4; Pos 1 1; Pos 1 1; Pos 0 4; Pos 0 4; Pos 1 1] /\ b_log b = [] /\
  buf_data b = Ok flagged /\
  buf_data b' = Ok (txt "ab" ++ [127465%N; 127466%N] ++ txt "e" ++ [769%N] ++ txt "new" ++ nl ++ txt "zst")%list /\
  buf_read uax29_15 b' (range_new (Pos 0 4) (Pos 0 1)) = Ok (Some (txt "b" ++ [127465%N; 127466%N] ++ txt "e" ++ [769%N])%list) /\
  in_bounds uax29_15 (b_data b) (Pos 1 1) = Ok true.
Proof.
  destruct (from_file tight (one_file flagged) the_path) as [[b0|]|] eqn:Eb; [|vm_compute in Eb; discriminate..].
  destruct (brun uax29_15 [(tight, BSetCallback true)] b0 (one_file flagged)) as [[[o0 b] f]|] eqn:E0;
    [|vm_compute in Eb; injection Eb as <-; vm_compute in E0; discriminate].
  assert (f = one_file flagged) as -> by (cbn [brun bexec bind] in E0; now injection E0).
  assert (H : simple_history gcb15 b (one_file flagged)).
  { exists b0, (one_file flagged), flagged, [(tight, BSetCallback true)], o0. split; [right; now exists tight, the_path|].
    split; [vm_compute in Eb; injection Eb as <-; vm_compute; reflexivity|]. split.
    - exists ([txt "a"; txt "b"; [127465%N; 127466%N]; (txt "e" ++ [769%N])%list; txt "z"; nl] ++ map (fun c => [c]) (txt "last"))%list.
      split; [|reflexivity]. cbn [app].
      do 2 (apply Forall_cons; [apply sc_solo; vm_compute; reflexivity|]).
      apply Forall_cons; [apply sc_flag; vm_compute; reflexivity|].
      apply Forall_cons; [apply sc_marked; [vm_compute; reflexivity..|]; repeat constructor|].
      repeat (apply Forall_cons; [apply sc_solo; vm_compute; reflexivity|]). constructor.
    - split; [|exact E0]. repeat constructor. apply tight_ok. }
  cbn [brun bexec bind] in E0. injection E0 as <- <-. vm_compute in Eb. injection Eb as <-.
  do 4 eexists. split; [exact H|]. split; [reflexivity|]. split.
  { repeat (apply Forall_cons; [split; [apply tight_ok|split; [|exact I]]; try exact I|]); [|constructor].
    exists [txt "n"; txt "e"; txt "w"; nl]. split; [|reflexivity].
    repeat (apply Forall_cons; [apply sc_solo; vm_compute; reflexivity|]). constructor. }
  split; [vm_compute; reflexivity|]. repeat split; vm_compute; reflexivity.
Qed.

(** C16: the range behind a cursor is deleted; the cursor, which no announced place
    precedes, is still in the text. *)
Example C16_nothing_announced_example : exists b b' f,
  simple_history gcb15 b f /\ b_callback b = true /\ c_pos (b_cursor b) = Pos 0 3 /\
  in_bounds uax29_15 (b_data b) (Pos 0 3) = Ok true /\
  bexec uax29_15 tight (BDeleteRange (Pos 1 1) (Pos 0 3)) b f = Ok (BUnit, b', f) /\
  b_log b' = (b_log b ++ [Pos 0 3])%list /\ buf_data b' = Ok (txt "abcy").
Proof.
  destruct (from_new [BInsert (txt "abcd" ++ nl ++ txt "xy"); BSetCallback true; BMove (MTo (Pos 0 3))] no_files) as [[[os b] f]|] eqn:E;
    [|vm_compute in E; discriminate].
  assert (H : simple_history gcb15 b f).
  { unfold from_new in E. destruct (buffer_new tight) as [b0|] eqn:E0; [|discriminate]. cbn [bind] in E.
    exists b0, no_files, [], (map (pair tight) [BInsert (txt "abcd" ++ nl ++ txt "xy"); BSetCallback true; BMove (MTo (Pos 0 3))]), os.
    split; [left; now exists tight|]. split; [vm_compute in E0; injection E0 as <-; reflexivity|]. split; [now exists []|].
    split; [|exact E]. repeat constructor; try apply tight_ok. cbn [simple_input fst snd].
    exists (map (fun c => [c]) (txt "abcd" ++ nl ++ txt "xy")). split; [|reflexivity].
    repeat (apply Forall_cons; [apply sc_solo; vm_compute; reflexivity|]). constructor. }
  vm_compute in E. injection E as <- <- <-. do 3 eexists. split; [exact H|].
  split; [reflexivity|]. split; [reflexivity|]. split; [vm_compute; reflexivity|]. split; [vm_compute; reflexivity|].
  split; vm_compute; reflexivity.
Qed.

(** The limit to simple clusters is needed: a mark inserted behind "e" at (0,1), and
    announced there, changes the cluster before (0,1). *)
Example C87_simple_needed : exists b b',
  (exists os, from_new [BInsert (txt "e"); BSetCallback true; BMove MEnd] no_files = Ok (os, b, no_files)) /\
  bexec uax29_15 tight (BInsert [769%N]) b no_files = Ok (BUnit, b', no_files) /\
  b_log b = [] /\ b_log b' = [Pos 0 1] /\
  buf_read uax29_15 b (range_new (Pos 0 0) (Pos 0 1)) = Ok (Some (txt "e")) /\
  buf_read uax29_15 b' (range_new (Pos 0 0) (Pos 0 1)) = Ok (Some (txt "e" ++ [769%N])%list).
Proof. do 2 eexists. split; [eexists; vm_compute; reflexivity|]. repeat split; vm_compute; reflexivity. Qed.
