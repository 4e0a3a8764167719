(** Properties C39-C46 and C51-C53: workspaces.  Statements only; the
    specification is WorkspaceSpec.v and BufferCalls.v, proofs are in
    WorkspaceProofs.v and WorkspaceProps.v. *)
From Coq Require Import String.
From Verif Require Import Base Utf8 Utf8Proofs Grapheme UnicodeTable Position GapBuffer Cursor PathModel Buffer
  Spec CursorSpec CursorCalls BufferCalls BufferFacts Witness Token Workspace WorkspaceSpec WorkspaceProps
  WorkspaceWitness.

Ltac workspace_calls :=
  repeat (constructor; [split; [first [exact I|now apply valid_textb_ok|idtac]|first [exact I|idtac]]|]); try constructor.

(** C39: any sequence of calls on a new workspace returns what it returns on a
    plain list of buffers with a selected index (WorkspaceSpec.v), leaves the
    same disk, and shows the same buffers in the same order with the same
    selection. *)
Theorem C39_workspace_is_a_list : forall brk f0 p ss w0 cs, ws_new f0 p (Some ss) = ROk w0 ->
  exists cp, fs_canon f0 p = Some cp /\
  match spec_wrun brk cs (Shelf cp [] None 0 ss) f0 with
  | Ok (os, s, f) => exists w, wrun brk cs w0 f0 = Ok (os, w, f) /\ shows w s /\ open_buffers w = s_buffers s
  | Panic => wrun brk cs w0 f0 = Panic
  end.
Proof. exact workspace_is_list. Qed.
Print Assumptions C39_workspace_is_a_list.

(** C39: no sequence of calls panics. *)
Theorem C39_no_panic : forall cls f0 p ss w0 cs, cls LF = GC_LF -> ws_new f0 p (Some ss) = ROk w0 ->
  Forall (fun ac => alloc_ok (fst ac) /\ wcall_ok (uax29 cls) (snd ac)) cs ->
  exists os w f, wrun (uax29 cls) cs w0 f0 = Ok (os, w, f).
Proof. exact workspace_no_panic. Qed.
Print Assumptions C39_no_panic.

(** Open a, open b, edit b, go back to a, close it, open a again and close b:
    the edit to b is still there when b is selected. *)
Example C39_example : exists os w f b,
  wplay [WOpen a_rs; WOpen b_txt; WEdit (BInsert (txt "x")); WPrevious; WClose; WOpen a_rs; WNext] = Ok (os, w, f) /\
  w_current w = Some b /\ buf_data b = Ok (txt "xb" ++ nl) /\ current_buffer_index w = Some 0 /\
  buffer_paths w = [Some [name "sub"; name "b.txt"]; Some [name "a.rs"]].
Proof. do 4 eexists. repeat (split; [vm_compute; reflexivity|]). vm_compute. reflexivity. Qed.

(** C40: the ids of open buffers are distinct. *)
Theorem C40_ids_distinct : forall brk w f, reachable_workspace brk keeps_ids w f ->
  NoDup (map b_id (open_buffers w)) /\ Forall (fun b => b_id b <> None) (open_buffers w).
Proof. exact ids_distinct. Qed.
Print Assumptions C40_ids_distinct.

(** C40: a buffer added after another has a larger id, whatever happens in
    between (closing the other included). *)
Theorem C40_ids_increase : forall brk w f al c w1 i cs f1 os w2 f2 al' c' w3 j,
  reachable_workspace brk any w f -> alloc_ok al -> wcall_ok brk c -> gave brk al c w f w1 i ->
  Forall (fun ac => alloc_ok (fst ac) /\ wcall_ok brk (snd ac)) cs -> wrun brk cs w1 f1 = Ok (os, w2, f2) ->
  gave brk al' c' w2 f2 w3 j -> i < j.
Proof. exact ids_increase. Qed.
Print Assumptions C40_ids_increase.

(** C40: ids are kept. *)
Theorem C40_ids_kept : forall brk w f al c o w' f',
  reachable_workspace brk any w f -> alloc_ok al -> wcall_ok brk c ->
  same_buffers c -> wexec brk al c w f = Ok (o, w', f') ->
  map b_id (open_buffers w') = map b_id (open_buffers w).
Proof. exact ids_kept. Qed.
Print Assumptions C40_ids_kept.

(** C40: a new buffer goes right after the current one, the others stay as they
    are, ids included. *)
Theorem C40_new_buffer_is_next : forall brk w f al c w' i,
  reachable_workspace brk any w f -> gave brk al c w f w' i ->
  exists pre b post, open_buffers w = pre ++ post /\ open_buffers w' = pre ++ b :: post /\
    w_current w' = Some b /\ b_id b = Some i /\ current_buffer_index w' = Some (List.length pre) /\
    match current_buffer_index w with None => pre = [] | Some k => List.length pre = S k end.
Proof. exact gave_place. Qed.
Print Assumptions C40_new_buffer_is_next.

(** Open two, close one, open a third: its id is new. *)
Example C40_example : exists w f w', reachable_workspace uax29_15 keeps_ids w f /\
  map b_id (open_buffers w) = [Some 0] /\ gave uax29_15 tight (WOpen other) w f w' 2 /\
  map b_id (open_buffers w') = [Some 0; Some 2].
Proof.
  destruct (wplay [WOpen a_rs; WOpen b_txt; WClose]) as [[[os w] f]|] eqn:E; [|vm_compute in E; discriminate].
  assert (R : reachable_workspace uax29_15 keeps_ids w f) by (eapply wplay_reachable; [exact E|workspace_calls]).
  exists w, f. vm_compute in E. injection E as _ <- <-. eexists. split; [exact R|]. split; [vm_compute; reflexivity|].
  split; [|].
  - eexists _, _. split; [vm_compute; reflexivity|]. split; [vm_compute; reflexivity|]. eexists. split; reflexivity.
  - vm_compute. reflexivity.
Qed.

(** C41: there is a current buffer, at a valid index, exactly when there are
    buffers; buffer_paths has an entry for each. *)
Theorem C41_selection : forall brk w f, reachable_workspace brk any w f ->
  List.length (buffer_paths w) = List.length (open_buffers w) /\
  match current_buffer_index w with
  | None => w_current w = None /\ open_buffers w = []
  | Some i => exists b, w_current w = Some b /\ nth_error (open_buffers w) i = Some b
  end.
Proof. exact selection. Qed.
Print Assumptions C41_selection.

Example C41_example : exists w f, reachable_workspace uax29_15 any w f /\
  List.length (buffer_paths w) = 2 /\ current_buffer_index w = Some 0.
Proof.
  destruct scratch as [b|] eqn:Eb; [|vm_compute in Eb; discriminate].
  destruct (wplay [WAdd b; WOpen other; WOpen a_rs; WClose; WNext]) as [[[os w] f]|] eqn:E;
    [|vm_compute in Eb; injection Eb as <-; vm_compute in E; discriminate].
  exists w, f. split.
  - eapply wplay_reachable; [exact E|]. workspace_calls. exact (scratch_reachable b Eb).
  - vm_compute in Eb. injection Eb as <-. vm_compute in E. injection E as _ <- _. split; vm_compute; reflexivity.
Qed.

(** C42: opening a path that is already open selects that buffer, edits and
    all, and adds nothing. *)
Theorem C42_reopening_selects : forall brk w f p cp b al,
  reachable_workspace brk any w f -> fs_canon f p = Some cp ->
  In b (open_buffers w) -> b_path b = Some cp ->
  exists w' b', open_buffer al f w p = Ok (ROk tt, w') /\ open_buffers w' = open_buffers w /\
    w_current w' = Some b' /\ b_path b' = Some cp.
Proof. exact reopen. Qed.
Print Assumptions C42_reopening_selects.

(** C42: opening a readable file that is not open adds one buffer with its text. *)
Theorem C42_opening_adds : forall brk w f p cp al t,
  reachable_workspace brk any w f -> fs_canon f p = Some cp ->
  read_to_string f p = Some t -> (forall b, In b (open_buffers w) -> b_path b <> Some cp) ->
  exists w' pre b post, open_buffer al f w p = Ok (ROk tt, w') /\
    open_buffers w = pre ++ post /\ open_buffers w' = pre ++ b :: post /\
    w_current w' = Some b /\ b_path b = Some cp /\ buf_data b = Ok t /\ buf_modified b = false.
Proof. exact open_new. Qed.
Print Assumptions C42_opening_adds.

(** C42: workspaces filled through open_buffer never hold a path twice. *)
Theorem C42_no_duplicates : forall brk w f, reachable_workspace brk only_opens w f ->
  NoDup (map b_path (open_buffers w)).
Proof. exact no_duplicates. Qed.
Print Assumptions C42_no_duplicates.

(** C42: a failing open changes nothing at all. *)
Theorem C42_failing_open : forall al f w p e w', open_buffer al f w p = Ok (RErr e, w') -> w' = w.
Proof. exact failing_open. Qed.
Print Assumptions C42_failing_open.

(** C42: it fails exactly when the path does not exist, or is neither open nor
    readable. *)
Theorem C42_open_fails_when : forall brk al f w p, reachable_workspace brk any w f ->
  ((exists cp, fs_canon f p = Some cp /\
      ((exists b, In b (open_buffers w) /\ b_path b = Some cp) \/ read_to_string f p <> None)) ->
   exists w', open_buffer al f w p = Ok (ROk tt, w')) /\
  ((forall cp, fs_canon f p = Some cp ->
      (forall b, In b (open_buffers w) -> b_path b <> Some cp) /\ read_to_string f p = None) ->
   exists w', open_buffer al f w p = Ok (RErr IoError, w')).
Proof. exact open_fails_when. Qed.
Print Assumptions C42_open_fails_when.

(** The same file under its relative and absolute names. *)
Example C42_example : exists w f b, reachable_workspace uax29_15 only_opens w f /\
  In b (open_buffers w) /\ b_path b = Some a_rs /\ fs_canon f [name "a.rs"] = Some a_rs /\
  w_current w <> Some b /\ List.length (open_buffers w) = 2 /\
  (exists w', open_buffer tight f w [name "a.rs"] = Ok (ROk tt, w') /\ w_current w' = Some b) /\
  (exists w', open_buffer tight f w [name "none"] = Ok (RErr IoError, w')).
Proof.
  destruct (wplay [WOpen a_rs; WEdit (BInsert (txt "x")); WOpen b_txt]) as [[[os w] f]|] eqn:E;
    [|vm_compute in E; discriminate].
  assert (R : reachable_workspace uax29_15 only_opens w f) by (eapply wplay_reachable; [exact E|workspace_calls]).
  exists w, f. vm_compute in E. injection E as _ <- <-. eexists. split; [exact R|].
  split; [left; reflexivity|]. split; [reflexivity|]. split; [vm_compute; reflexivity|].
  split; [vm_compute; discriminate|]. split; [reflexivity|].
  split; eexists; [split|]; vm_compute; reflexivity.
Qed.

(** C43: next and previous are inverse to each other. *)
Theorem C43_next_then_previous : forall brk w f al al', reachable_workspace brk any w f ->
  exists w1 w2, next_buffer al w = Ok w1 /\ previous_buffer al' w1 = Ok w2 /\ same_view w w2.
Proof. exact next_then_previous. Qed.
Print Assumptions C43_next_then_previous.
Theorem C43_previous_then_next : forall brk w f al al', reachable_workspace brk any w f ->
  exists w1 w2, previous_buffer al w = Ok w1 /\ next_buffer al' w1 = Ok w2 /\ same_view w w2.
Proof. exact previous_then_next. Qed.
Print Assumptions C43_previous_then_next.

(** C43: as many nexts as there are buffers come back to the start ... *)
Theorem C43_full_circle : forall brk w f als,
  reachable_workspace brk any w f -> List.length als = List.length (open_buffers w) ->
  exists w', nexts als w = Ok w' /\ same_view w w'.
Proof. exact nexts_cycle. Qed.
Print Assumptions C43_full_circle.

(** C43: ... and meet each buffer exactly once. *)
Theorem C43_each_met_once : forall brk w f j b,
  reachable_workspace brk any w f -> nth_error (open_buffers w) j = Some b ->
  exists k, k < List.length (open_buffers w) /\
    (forall als, List.length als = k -> exists w', nexts als w = Ok w' /\ open_buffers w' = open_buffers w /\
        current_buffer_index w' = Some j /\ w_current w' = Some b) /\
    (forall als w', List.length als < List.length (open_buffers w) -> nexts als w = Ok w' ->
        current_buffer_index w' = Some j -> List.length als = k).
Proof. exact nexts_visit. Qed.
Print Assumptions C43_each_met_once.

Example C43_example : exists w f w1 w2 w3, reachable_workspace uax29_15 any w f /\
  nexts [tight] w = Ok w1 /\ nexts [tight; tight] w = Ok w2 /\ nexts [tight; tight; tight] w = Ok w3 /\
  map current_buffer_index [w; w1; w2; w3] = [Some 2; Some 0; Some 1; Some 2].
Proof.
  destruct (wplay [WOpen a_rs; WOpen b_txt; WOpen other]) as [[[os w] f]|] eqn:E; [|vm_compute in E; discriminate].
  assert (R : reachable_workspace uax29_15 any w f) by (eapply wplay_reachable; [exact E|workspace_calls]).
  exists w, f. vm_compute in E. injection E as _ <- _. do 3 eexists. split; [exact R|].
  do 3 (split; [vm_compute; reflexivity|]). reflexivity.
Qed.

(** C44: closing removes exactly the current buffer, selects the one before it
    (or the new first one), and does nothing when there is none. *)
Theorem C44_close : forall brk w f al, reachable_workspace brk any w f ->
  match current_buffer_index w with
  | None => close_current_buffer al w = Ok w
  | Some i => exists w' pre b post, close_current_buffer al w = Ok w' /\
      open_buffers w = pre ++ b :: post /\ List.length pre = i /\ w_current w = Some b /\
      open_buffers w' = pre ++ post /\
      (pre ++ post = [] -> current_buffer_index w' = None /\ w_current w' = None) /\
      (pre ++ post <> [] -> current_buffer_index w' = Some (i - 1) /\
         w_current w' = nth_error (pre ++ post) (i - 1) /\ w_current w' <> None)
  end.
Proof. exact closing. Qed.
Print Assumptions C44_close.

Example C44_example : exists w f w', reachable_workspace uax29_15 any w f /\
  current_buffer_index w = Some 0 /\ List.length (open_buffers w) = 3 /\
  close_current_buffer tight w = Ok w' /\ open_buffers w' = tl (open_buffers w) /\
  current_buffer_index w' = Some 0.
Proof.
  destruct (wplay [WOpen a_rs; WOpen b_txt; WOpen other; WNext]) as [[[os w] f]|] eqn:E; [|vm_compute in E; discriminate].
  assert (R : reachable_workspace uax29_15 any w f) by (eapply wplay_reachable; [exact E|workspace_calls]).
  exists w, f. vm_compute in E. injection E as _ <- _. eexists. split; [exact R|].
  repeat (split; [vm_compute; reflexivity|]). vm_compute. reflexivity.
Qed.

(** C45: buffer_paths has the path of each buffer in order, relative to the
    workspace for those inside it; its entry at the current index is
    current_buffer_path. *)
Theorem C45_paths : forall brk w f, reachable_workspace brk any w f ->
  Forall2 (shown (w_path w)) (map b_path (open_buffers w)) (buffer_paths w) /\
  match current_buffer_index w with
  | Some i => nth_error (buffer_paths w) i = Some (current_buffer_path w)
  | None => current_buffer_path w = None
  end.
Proof. exact paths_shown. Qed.
Print Assumptions C45_paths.

(** C45: an absolute path is found again by joining. *)
Theorem C45_join : forall base p q, shown base (Some p) (Some q) -> absolute p -> join_path base q = p.
Proof. exact shown_join. Qed.
Print Assumptions C45_join.

Example C45_example : exists w f, reachable_workspace uax29_15 any w f /\
  buffer_paths w = [Some [name "a.rs"]; None; Some other] /\ absolute other /\ absolute a_rs.
Proof.
  destruct scratch as [b|] eqn:Eb; [|vm_compute in Eb; discriminate].
  destruct (wplay [WOpen a_rs; WAdd b; WOpen other]) as [[[os w] f]|] eqn:E;
    [|vm_compute in Eb; injection Eb as <-; vm_compute in E; discriminate].
  exists w, f. split; [|split].
  - eapply wplay_reachable; [exact E|]. workspace_calls. exact (scratch_reachable b Eb).
  - vm_compute in Eb. injection Eb as <-. vm_compute in E. injection E as _ <- _. vm_compute; reflexivity.
  - split; (eexists; split; [reflexivity|]); intros H; cbn in H; intuition discriminate.
Qed.

(** C46: the tokens of the current buffer can be had exactly when there is one,
    and are made from its text and syntax definition. *)
Theorem C46_tokens : forall brk w f, reachable_workspace brk keeps_syntax w f ->
  match w_current w with
  | None => open_buffers w = [] /\ current_buffer_tokens w = Ok (RErr EmptyWorkspace)
  | Some b => exists t y, buf_data b = Ok t /\ b_syntax b = Some y /\
      current_buffer_tokens w = Ok (ROk (TS t y))
  end.
Proof. exact tokens_available. Qed.
Print Assumptions C46_tokens.

Example C46_example : exists w f, reachable_workspace uax29_15 keeps_syntax w f /\
  current_buffer_tokens w = Ok (ROk (TS (txt "xfn") 1%N)).
Proof.
  destruct (wplay [WOpen b_txt; WOpen a_rs; WEdit (BInsert (txt "x"))]) as [[[os w] f]|] eqn:E;
    [|vm_compute in E; discriminate].
  assert (R : reachable_workspace uax29_15 keeps_syntax w f) by (eapply wplay_reachable; [exact E|workspace_calls]).
  exists w, f. split; [exact R|]. vm_compute in E. injection E as _ <- _. vm_compute. reflexivity.
Qed.

(** C46: whatever was done to the buffers: without a current buffer or without a
    syntax definition that is what the error says. *)
Theorem C46_tokens_outcome : forall brk w f, reachable_workspace brk any w f ->
  match w_current w with
  | None => open_buffers w = [] /\ current_buffer_tokens w = Ok (RErr EmptyWorkspace)
  | Some b => exists t, buf_data b = Ok t /\
      current_buffer_tokens w =
        Ok (match b_syntax b with Some y => ROk (TS t y) | None => RErr MissingSyntax end)
  end.
Proof. exact tokens_outcome. Qed.
Print Assumptions C46_tokens_outcome.

Example C46_outcome_example : exists w f, reachable_workspace uax29_15 any w f /\
  current_buffer_tokens w = Ok (RErr MissingSyntax).
Proof.
  destruct (wplay [WOpen b_txt; WEdit (BSetSyntax None)]) as [[[os w] f]|] eqn:E;
    [|vm_compute in E; discriminate].
  assert (R : reachable_workspace uax29_15 any w f) by (eapply wplay_reachable; [exact E|workspace_calls]).
  exists w, f. split; [exact R|]. vm_compute in E. injection E as _ <- _. vm_compute. reflexivity.
Qed.

(** C51: a buffer that is added keeps its syntax definition; without one it gets
    the one registered for its extension, or else for its name, or plain text.
    Its text, path, cursor and history are kept. *)
Theorem C51_added_syntax : forall brk w f al b, reachable_workspace brk any w f ->
  exists w' b', add_buffer al w b = Ok w' /\ w_current w' = Some b' /\
    b_data b' = b_data b /\ b_path b' = b_path b /\ b_cursor b' = b_cursor b /\ b_history b' = b_history b /\
    b_syntax b' = match b_syntax b with Some y => Some y | None => Some (syntax_for (w_syntaxes w) b) end.
Proof. exact added_syntax. Qed.
Print Assumptions C51_added_syntax.

(** C51: update_current_syntax chooses again, and only that. *)
Theorem C51_updated_syntax : forall brk w f, reachable_workspace brk any w f ->
  match w_current w with
  | None => update_current_syntax w = (RErr EmptyWorkspace, w)
  | Some b => exists w', update_current_syntax w = (ROk tt, w') /\
      w_current w' = Some (set_syntax b (Some (syntax_for (w_syntaxes w) b)))
  end.
Proof. exact updated_syntax. Qed.
Print Assumptions C51_updated_syntax.

Example C51_example : exists w f, reachable_workspace uax29_15 any w f /\
  map b_syntax (open_buffers w) = [Some 1%N; Some 0%N; Some 2%N].
Proof.
  destruct (wplay [WOpen a_rs; WOpen b_txt; WOpen other]) as [[[os w] f]|] eqn:E; [|vm_compute in E; discriminate].
  assert (R : reachable_workspace uax29_15 any w f) by (eapply wplay_reachable; [exact E|workspace_calls]).
  exists w, f. split; [exact R|]. vm_compute in E. injection E as _ <- _. reflexivity.
Qed.

(** C52: no editing, history or file operation changes the id, path, syntax
    definition or callback of a buffer; only assigning them does. *)
Theorem C52_only_assigned : forall brk al c b f o b' f',
  reachable_buffer brk b f -> alloc_ok al -> call_ok c -> bexec brk al c b f = Ok (o, b', f') ->
  b_id b' = match c with BSetId i => i | _ => b_id b end /\
  b_path b' = match c with BSetPath p => p | _ => b_path b end /\
  b_syntax b' = match c with BSetSyntax y => y | _ => b_syntax b end /\
  b_callback b' = match c with BSetCallback on => on | _ => b_callback b end.
Proof. exact only_assigned. Qed.
Print Assumptions C52_only_assigned.

Example C52_example : exists b f o b' f', reachable_buffer uax29_15 b f /\
  b_id b = Some 7 /\ b_syntax b = Some 3%N /\ bexec uax29_15 tight BReload b f = Ok (o, b', f') /\
  buf_data b' <> buf_data b /\ b_id b' = Some 7 /\ b_syntax b' = Some 3%N.
Proof.
  destruct (from_disk [BSetId (Some 7); BSetSyntax (Some 3%N); BInsert (txt "mine")] (one_file (txt "ab")))
    as [[[os b] f]|] eqn:E; [|vm_compute in E; discriminate].
  pose proof (from_disk_reachable _ _ _ _ _ E eq_refl) as R.
  exists b, f. do 3 eexists. split; [exact R|]. vm_compute in E. injection E as _ <- <-.
  split; [reflexivity|]. split; [reflexivity|]. split; [vm_compute; reflexivity|].
  split; [vm_compute; discriminate|]. split; reflexivity.
Qed.

(** C53, partial: after taking the buffer out of the public field
    current_buffer, the other buffers stay as they are and an empty buffer is in
    its place.  Missing: that nothing is left of it. *)
Theorem C53_taken_buffer_partial : forall brk w f al, reachable_workspace brk any w f ->
  forall b, w_current w = Some b ->
  exists w' pre post blank, next_buffer al (take_current w) = Ok w' /\
    open_buffers w = pre ++ b :: post /\ open_buffers w' = pre ++ blank :: post /\
    b_path blank = None /\ b_id blank = None /\ buf_data blank = Ok [].
Proof. exact taken_leaves_blank. Qed.
Print Assumptions C53_taken_buffer_partial.

(** C53, full statement: false.  The workspace still lists as many buffers. *)
Theorem C53_taken_buffer_refuted : exists w f w', reachable_workspace uax29_15 any w f /\
  w_current w <> None /\ next_buffer tight (take_current w) = Ok w' /\
  List.length (buffer_paths w') = List.length (buffer_paths w) /\ w_current w' <> None.
Proof.
  destruct (wplay [WOpen a_rs]) as [[[os w] f]|] eqn:E; [|vm_compute in E; discriminate].
  assert (R : reachable_workspace uax29_15 any w f) by (eapply wplay_reachable; [exact E|workspace_calls]).
  exists w, f. vm_compute in E. injection E as _ <- _. eexists. split; [exact R|].
  split; [discriminate|]. split; [vm_compute; reflexivity|]. split; [reflexivity|discriminate].
Qed.
Print Assumptions C53_taken_buffer_refuted.
