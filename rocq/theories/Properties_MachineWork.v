(** Property C74: workspaces, lines and tokens on machine integers.  Models:
    Machine.v and MachineWork.v; specification: MachineSpec.v and
    MachineWorkSpec.v.  [K] is [isize::MAX] and [2 * K + 1] is [usize::MAX]. *)
From Coq Require Import String.
From Verif Require Import Base Utf8 Grapheme GraphemeProofs UnicodeTable Position LineIterator GapBuffer
  Cursor PathModel Buffer Spec CursorSpec BufferCalls BufferFacts Token TokenSpec TokenWitness Workspace WorkspaceSpec WorkspaceWitness
  Machine MachineSpec MachineWork MachineWorkSpec MachineWorkProofs Witness.

(** C74: a session on a workspace whose buffers' numbers are far from the largest
    one, and in which at most [usize::MAX] calls give out an id, runs out of
    memory, or does on machine integers what it does on unbounded numbers. *)
Theorem C74_machine_workspace : forall K brk f0 p ss w0 cs, 1 <= K -> ws_new f0 p (Some ss) = ROk w0 ->
  Forall (fun ac => alloc_ok (fst ac) /\ u_wcall_ok K brk (snd ac)) cs -> adding cs <= 2 * K + 1 ->
  u_wrun K brk cs w0 f0 = MNoMemory \/ u_wrun K brk cs w0 f0 = of_res (wrun brk cs w0 f0).
Proof. exact machine_workspace. Qed.
Print Assumptions C74_machine_workspace.
(** It does not panic either. *)
Theorem C74_no_panic : forall K cls f0 p ss w0 cs, 1 <= K -> cls LF = GC_LF -> ws_new f0 p (Some ss) = ROk w0 ->
  Forall (fun ac => alloc_ok (fst ac) /\ u_wcall_ok K (uax29 cls) (snd ac)) cs -> adding cs <= 2 * K + 1 ->
  u_wrun K (uax29 cls) cs w0 f0 = MNoMemory \/
  exists os w f, u_wrun K (uax29 cls) cs w0 f0 = MOk (os, w, f) /\ wrun (uax29 cls) cs w0 f0 = Ok (os, w, f).
Proof. exact machine_workspace_no_panic. Qed.
Print Assumptions C74_no_panic.
(** Every session runs on a machine that has enough memory. *)
Theorem C74_enough_memory : forall brk f0 p ss w0 cs, ws_new f0 p (Some ss) = ROk w0 ->
  Forall (fun ac => alloc_ok (fst ac) /\ wcall_ok brk (snd ac)) cs ->
  exists K0, forall K, K0 <= K ->
    Forall (fun ac => alloc_ok (fst ac) /\ u_wcall_ok K brk (snd ac)) cs /\ adding cs <= 2 * K + 1 /\
    u_wrun K brk cs w0 f0 = of_res (wrun brk cs w0 f0).
Proof. exact workspace_enough. Qed.
Print Assumptions C74_enough_memory.
(** So the other theorems about reachable workspaces hold of the workspaces that a
    machine reaches, however many ids were given out. *)
Theorem C74_reached_workspaces : forall K brk w f,
  1 <= K -> u_reached_workspace K brk w f -> reachable_workspace brk any w f.
Proof. exact (fun K brk w f HK R => proj1 (reached_workspace K brk w f HK R)). Qed.
Print Assumptions C74_reached_workspaces.

(** What overflows is giving out an id when they are used up, and nothing else. *)
Theorem C74_add_exactly_when : forall K brk al w f b fb,
  1 <= K -> alloc_ok al -> u_reached_workspace K brk w f -> u_reached K brk b fb ->
  u_wexec K brk al (WAdd b) w f = MOverflow <-> 2 * K < w_next_id w.
Proof. exact add_when. Qed.
Print Assumptions C74_add_exactly_when.
(** Opening a path gives out an id if no open buffer has that path and the file
    is read. *)
Theorem C74_open_exactly_when : forall K brk al w f p, 1 <= K -> alloc_ok al -> u_reached_workspace K brk w f ->
  u_wexec K brk al (WOpen p) w f = MOverflow <->
  2 * K < w_next_id w /\ (forall cp, fs_canon f p = Some cp -> ~ In (Some cp) (map b_path (open_buffers w))) /\
  exists b, u_from_file K al f p = MOk (ROk b).
Proof. exact open_when. Qed.
Print Assumptions C74_open_exactly_when.
Theorem C74_nothing_else : forall K brk al c w f,
  1 <= K -> alloc_ok al -> u_wcall_ok K brk c -> u_reached_workspace K brk w f ->
  u_wexec K brk al c w f = MOverflow ->
  2 * K < w_next_id w /\ ((exists b, c = WAdd b) \/ (exists p, c = WOpen p)).
Proof. exact others_never. Qed.
Print Assumptions C74_nothing_else.

(** C74: the text, its number of lines and every search of a buffer that a
    machine reaches. *)
Theorem C74_lookups : forall K brk b f needle, 1 <= K -> u_reached K brk b f ->
  u_buf_data K b = of_res (buf_data b) /\ u_buf_line_count K b = of_res (buf_line_count b) /\
  u_buf_search K b needle = of_res (buf_search b needle).
Proof. exact lookups_machine. Qed.
Print Assumptions C74_lookups.

(** C74: any number of lines of any text that fits in memory. *)
Theorem C74_lines : forall K data n, List.length (enc data) <= K ->
  u_steps (u_li_next K) n (li_new data) = of_res (steps li_next n (li_new data)).
Proof. exact lines_machine. Qed.
Print Assumptions C74_lines.
(** C74: any number of tokens of the current buffer of a workspace that a machine
    reaches, whatever the parser answers. *)
Theorem C74_tokens : forall K brk w f ts pstate scopeop stack
  (parse_line : pstate -> text -> option (list (nat * scopeop)) * pstate)
  (apply : stack -> scopeop -> stack * bool) new (start : syntax -> pstate),
  1 <= K -> u_reached_workspace K brk w f ->
  u_current_buffer_tokens K w = of_res (current_buffer_tokens w) /\
  (current_buffer_tokens w = Ok (ROk ts) ->
   u_ti_new pstate scopeop stack parse_line new K (ts_data ts) (start (ts_syntax ts)) = of_res (ts_iter parse_line new start ts) /\
   forall it n, ts_iter parse_line new start ts = Ok (ROk it) ->
     u_steps (u_ti_next pstate scopeop stack parse_line apply brk K) n it
       = of_res (steps (ti_next pstate scopeop stack parse_line apply brk) n it)).
Proof. exact machine_tokens. Qed.
Print Assumptions C74_tokens.

(** A machine with 8-byte strings: two files are opened, the second is edited, the
    first closed.  With 3-byte strings the edit does not fit. *)
Definition some_wcalls : list (allocator * wcall) :=
  map (pair tight) [WOpen a_rs; WOpen b_txt; WEdit (BInsert (txt "x y")); WPrevious; WClose].
Example C74_example : exists w0, ws_new disk dir (Some syntaxes) = ROk w0 /\
  Forall (fun ac => alloc_ok (fst ac) /\ u_wcall_ok 8 uax29_15 (snd ac)) some_wcalls /\ adding some_wcalls <= 2 * 8 + 1 /\
  match u_wrun 8 uax29_15 some_wcalls w0 disk with
  | MOk (_, w, _) =>
    u_current_buffer_tokens 8 w = MOk (ROk (TS (txt "x yb" ++ nl)%list 0%N)) /\
    match u_ti_new nat N (list N) (mark_line spaces) [] 8 (txt "x yb" ++ nl)%list 0 with
    | MOk (ROk it) => match u_steps (u_ti_next nat N (list N) (mark_line spaces) push uax29_15 8) 4 it with
                      | MOk (xs, _) => xs = [Some (Lexeme (Lex (txt "x") [] (Pos 0 0)));
                           Some (Lexeme (Lex (txt " yb") [32%N] (Pos 0 1))); Some Newline; None]
                      | _ => False end
    | _ => False
    end
  | _ => False
  end /\
  u_wrun 3 uax29_15 some_wcalls w0 disk = MNoMemory.
Proof.
  destruct (ws_new disk dir (Some syntaxes)) as [w0|] eqn:E; [|vm_compute in E; discriminate]. exists w0. split; [reflexivity|]. split.
  - unfold some_wcalls. cbn [map]. repeat constructor; cbn [fst snd u_wcall_ok]; try apply tight_ok.
    all: try (now apply valid_textb_ok). all: cbn; try lia.
  - split; [cbn; lia|]. vm_compute in E. injection E as <-. vm_compute. repeat split.
Qed.
(** On a machine that counts to 3, the fourth buffer does not get an id, though
    all others have been closed. *)
Example C74_ids_example : exists w0 b, ws_new disk dir (Some syntaxes) = ROk w0 /\ u_reached 1 uax29_15 b no_files /\
  exists os w f, u_wrun 1 uax29_15 (map (pair tight) [WAdd b; WClose; WAdd b; WClose; WAdd b; WClose]) w0 disk = MOk (os, w, f) /\
  open_buffers w = [] /\ u_wexec 1 uax29_15 tight (WAdd b) w f = MOverflow.
Proof.
  destruct (ws_new disk dir (Some syntaxes)) as [w0|] eqn:E; [|vm_compute in E; discriminate].
  destruct (u_buffer_new 1 tight) as [b| | |] eqn:Eb; try (vm_compute in Eb; discriminate).
  exists w0, b. split; [reflexivity|]. split.
  - exists b, no_files, [], []. split; [left; now exists tight|]. split; [constructor|reflexivity].
  - vm_compute in E, Eb. injection E as <-. injection Eb as <-. vm_compute. do 3 eexists. repeat split.
Qed.
