(** Property C88, and C30 for any number of calls.  Specification: HighlightSpec.v
    ([highlighted_alike]), BufferCalls.v ([same_lines]), RedoSpec.v ([quiet]).
    Nothing is assumed of the parser. *)
From Coq Require Import String.
From Verif Require Import Base Utf8 Grapheme UnicodeTable Position GapBuffer GapProps Cursor PathModel Buffer Token Spec TokenSpec
  CursorCalls BufferCalls BufferFacts Witness TokenWitness RedoSpec HighlightSpec HighlightProofs.

(** C30, for any number of calls: the lines before all announced places are as
    before, with the newlines that end them. *)
Theorem C30_announced_by_calls : forall brk cs b f os b' f' t t',
  reachable_buffer brk b f -> b_callback b = true ->
  Forall (fun ac => alloc_ok (fst ac) /\ call_ok (snd ac) /\ quiet (snd ac)) cs ->
  brun brk cs b f = Ok (os, b', f') -> buf_data b = Ok t -> buf_data b' = Ok t' ->
  exists ps, b_log b' = (b_log b ++ ps)%list /\
    forall n, Forall (fun p => n <= line p) ps -> same_lines n t t'.
Proof. exact run_announces. Qed.
Print Assumptions C30_announced_by_calls.

(** C88: whatever is called, with any parser, highlighting the text afterwards
    gives the same on the lines before all announced places as before. *)
Theorem C88_highlighting_kept : forall brk cs b f os b' f' t t',
  reachable_buffer brk b f -> b_callback b = true ->
  Forall (fun ac => alloc_ok (fst ac) /\ call_ok (snd ac) /\ quiet (snd ac)) cs ->
  brun brk cs b f = Ok (os, b', f') -> buf_data b = Ok t -> buf_data b' = Ok t' ->
  exists ps, b_log b' = (b_log b ++ ps)%list /\
    forall pstate scopeop stack
      (parse_line : pstate -> text -> option (list (nat * scopeop)) * pstate)
      (apply : stack -> scopeop -> stack * bool) start new n,
    0 < n -> Forall (fun p => n <= line p) ps ->
    highlighted_alike pstate scopeop stack parse_line apply brk start new n t t'.
Proof. exact highlighting_kept. Qed.
Print Assumptions C88_highlighting_kept.

(** Two edits from the second line on, one undone.  The first line is highlighted
    as before, in three calls; the second is not. *)
Definition old_words : text := (txt "a bc" ++ nl ++ txt "d e" ++ nl ++ txt "f")%list.
Definition new_words : text := (txt "a bc" ++ nl ++ txt "d x e" ++ nl ++ txt "f")%list.
Definition word_edits : list (allocator * bcall) :=
  map (pair tight) [BCursor (Pos 1 1); BInsert (txt " x"); BDeleteRange (Pos 1 5) (Pos 2 0); BUndo].
Example C88_example : exists b f os b' f',
  reachable_buffer uax29_15 b f /\ b_callback b = true /\
  Forall (fun ac => alloc_ok (fst ac) /\ call_ok (snd ac) /\ quiet (snd ac)) word_edits /\
  brun uax29_15 word_edits b f = Ok (os, b', f') /\ buf_data b = Ok old_words /\ buf_data b' = Ok new_words /\
  b_log b' = (b_log b ++ [Pos 1 1; Pos 1 5; Pos 1 5])%list /\
  (exists it, ti_new nat N (list N) (mark_line spaces) [] new_words 0 = Ok (ROk it) /\
     heard nat N (list N) (mark_line spaces) push uax29_15 3 it =
     Ok ([Some (Lexeme (Lex (txt "a") [] (Pos 0 0))); Some (Lexeme (Lex (txt " bc") [32%N] (Pos 0 1))); Some Newline], None)) /\
  highlighted_alike nat N (list N) (mark_line spaces) push uax29_15 0 [] 1 old_words new_words /\
  ~ highlighted_alike nat N (list N) (mark_line spaces) push uax29_15 0 [] 2 old_words new_words.
Proof.
  destruct (from_new [BInsert old_words; BSetCallback true] no_files) as [[[os b] f]|] eqn:E; [|vm_compute in E; discriminate].
  pose proof (from_new_reachable _ _ _ _ _ E eq_refl) as R.
  exists b, f. do 3 eexists. split; [exact R|]. vm_compute in E. injection E as _ <- _.
  split; [reflexivity|].
  split; [repeat apply Forall_cons; try apply Forall_nil; (split; [apply tight_ok|]); (split; [first [exact I|now apply valid_textb_ok]|exact I])|].
  split; [vm_compute; reflexivity|]. split; [vm_compute; reflexivity|]. split; [vm_compute; reflexivity|].
  split; [vm_compute; reflexivity|].
  split; [eexists; split; [vm_compute; reflexivity|vm_compute; reflexivity]|]. split.
  - apply lines_highlighted; [lia|vm_compute; reflexivity].
  - unfold highlighted_alike. destruct (ti_new nat N (list N) (mark_line spaces) [] old_words 0) as [[it|]|] eqn:E1; [|vm_compute in E1; discriminate..].
    destruct (ti_new nat N (list N) (mark_line spaces) [] new_words 0) as [[it'|]|] eqn:E2; [|vm_compute in E2; discriminate..].
    vm_compute in E1. injection E1 as E1. vm_compute in E2. injection E2 as E2. symmetry in E1, E2.
    intros (m & H & B & _). destruct (Nat.le_gt_cases 5 m) as [L|L].
    + specialize (H 5 L). subst it it'. vm_compute in H. discriminate.
    + assert (Y : exists xs i, TokenSpec.steps (ti_next nat N (list N) (mark_line spaces) push uax29_15) 5 it = Ok (xs, i) /\
        nth_error xs 4 = Some (Some (Lexeme (Lex (txt " e") [32; 0; 32]%N (Pos 1 1)))) /\ List.length xs = 5).
      { subst it. eexists _, _. split; [vm_compute; reflexivity|]. split; vm_compute; reflexivity. }
      destruct Y as (xs & i & X & Y & Z). specialize (B 5 _ _ X).
      rewrite Forall_forall in B. specialize (B (Some (Lexeme (Lex (txt " e") [32; 0; 32]%N (Pos 1 1))))).
      cbn [lx_position line] in B. enough (2 <= 1) by lia. apply B. apply (nth_error_In _ (4 - m)).
      rewrite <- (firstn_skipn m xs), nth_error_app2 in Y by (rewrite firstn_length; lia).
      rewrite firstn_length in Y. now replace (4 - Nat.min m (List.length xs)) with (4 - m) in Y by lia.
Qed.
