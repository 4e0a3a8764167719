(** Property C86: files with several names.  Statements only; disks with hard links
    and sessions on them are in HardLinks.v. *)
From Coq Require Import String.
From Verif Require Import Base Utf8 Grapheme UnicodeTable Position GapBuffer Cursor PathModel Buffer
  Spec CursorSpec Calls CursorCalls BufferCalls BufferFacts Witness Token Workspace WorkspaceSpec
  WorkspaceProps FileProofs WorkspaceWitness HardLinks HardProofs HardWitness.

(** C86: a session on a disk with hard links gives the answers and leads to the
    workspace of a session without them, in which after each save someone else
    writes to the other names; so what holds of those holds here. *)
Theorem C86_hard_sessions : forall brk f0 p ss w0 h hs os w h', f0 = seen h -> ws_new f0 p (Some ss) = ROk w0 ->
  Forall (fun ac => alloc_ok (fst ac) /\ hcall_ok brk (snd ac)) hs -> hrun brk hs w0 h = Ok (os, w, h') ->
  reachable_workspace brk any w (seen h') /\
  exists cs os', Forall (fun ac => alloc_ok (fst ac) /\ wcall_ok brk (snd ac)) cs /\
    wrun brk cs w0 (seen h) = Ok (os', w, seen h') /\
    answers own_call (map snd cs) os' = answers own_hcall (map snd hs) os.
Proof. exact hard_sessions. Qed.
Print Assumptions C86_hard_sessions.

(** C86: a save that succeeds writes one file; that is the file the path led to, or
    a new one.  All its names read as the text; other names are of the files they
    were of, and read as before. *)
Theorem C86_hard_save : forall h w new b p b' h', b_path b = Some p -> unused h new ->
  hard_save h w new b = Ok (ROk tt, b', h') ->
  exists t i, buf_data b = Ok t /\ file_of h' p = Some i /\ (file_of h p = Some i \/ file_of h p = None /\ i = new) /\
    (forall p', file_of h' p' = Some i -> fs_read (seen h') p' = Some (enc t)) /\
    (forall p', file_of h' p' <> Some i -> file_of h' p' = file_of h p' /\ fs_read (seen h') p' = fs_read (seen h) p').
Proof. exact hard_saved. Qed.
Print Assumptions C86_hard_save.

(** C86, partial: in a workspace filled through open_buffer, while nobody changes
    the symbolic links, two open buffers lead to one file only if it has two names
    that are hard links; so never, if there are none. *)
Theorem C86_twice_only_by_hard_links_partial : forall brk p ss w0 h hs os w h',
  links_settle (seen h) -> ws_new (seen h) p (Some ss) = ROk w0 ->
  Forall (fun ac => alloc_ok (fst ac) /\ hcall_ok brk (snd ac) /\ hard_opens (hd_target h) (snd ac)) hs ->
  hrun brk hs w0 h = Ok (os, w, h') ->
  forall i j bi bj pi pj n, nth_error (open_buffers w) i = Some bi -> nth_error (open_buffers w) j = Some bj ->
    b_path bi = Some pi -> b_path bj = Some pj -> file_of h' pi = Some n -> file_of h' pj = Some n ->
    i = j \/ exists qi qj, hd_target h' pi = Some qi /\ hd_target h' pj = Some qj /\ qi <> qj /\
      hd_file h' qi = Some n /\ hd_file h' qj = Some n.
Proof. exact hard_apart. Qed.
Print Assumptions C86_twice_only_by_hard_links_partial.
Theorem C86_one_buffer_per_file_partial : forall brk p ss w0 h hs os w h',
  links_settle (seen h) -> ws_new (seen h) p (Some ss) = ROk w0 ->
  Forall (fun ac => alloc_ok (fst ac) /\ hcall_ok brk (snd ac) /\ hard_opens (hd_target h) (snd ac)) hs ->
  hrun brk hs w0 h = Ok (os, w, h') -> no_hard_links h' ->
  forall i j bi bj pi pj n, nth_error (open_buffers w) i = Some bi -> nth_error (open_buffers w) j = Some bj ->
    b_path bi = Some pi -> b_path bj = Some pj -> file_of h' pi = Some n -> file_of h' pj = Some n -> i = j.
Proof. exact hard_one_name. Qed.
Print Assumptions C86_one_buffer_per_file_partial.

(** Such a session: symbolic links and relative names are recognised, and a save
    shows under all names. *)
Example C86_example : exists os w h b,
  links_settle (seen hard_disk) /\ unused hard_disk 7%N /\ hard_play a_session = Ok (os, w, h) /\
  map b_path (open_buffers w) = [Some a_rs] /\ w_current w = Some b /\ buf_data b = Ok (txt "xfn") /\
  fs_read (seen h) twin = Some (enc (txt "xfn")) /\ fs_read (seen h) b_txt = Some (enc (txt "b" ++ nl)).
Proof.
  assert (X : match hard_play a_session with
    | Ok (_, w, h) => (map b_path (open_buffers w), match w_current w with Some b => buf_data b | None => Panic end,
                       fs_read (seen h) twin, fs_read (seen h) b_txt)
    | Panic => ([], Panic, None, None) end
    = ([Some a_rs], Ok (txt "xfn"), Some (enc (txt "xfn")), Some (enc (txt "b" ++ nl)))) by (vm_compute; reflexivity).
  destruct (hard_play a_session) as [[[os w] h]|]; [|discriminate].
  injection X as X1 X2 X3 X4. destruct (w_current w) as [b|] eqn:Ew; [|discriminate].
  exists os, w, h, b. split; [unfold links_settle, seen, hard_disk; cbn [fs_target hd_target]; exact disk_settles|].
  split; [intros q; unfold hard_disk; cbn [hd_file]; destruct (path_eqb q a_rs), (path_eqb q twin), (path_eqb q b_txt), (path_eqb q dir); discriminate|].
  split; [reflexivity|]. split; [exact X1|]. split; [exact Ew|]. split; [exact X2|]. split; [exact X3|exact X4].
Qed.

(** C86, full statement: false.  Two names that are hard links are opened as two
    buffers; both are saved without an error and unmodified, and the text of the
    first is gone. *)
Theorem C86_one_buffer_per_file_refuted : exists os w h b1 b2,
  Forall (fun c => hcall_ok uax29_15 c /\ hard_opens (hd_target hard_disk) c) two_names /\
  hard_play two_names = Ok (os, w, h) /\ open_buffers w = [b1; b2] /\
  b_path b1 = Some a_rs /\ b_path b2 = Some twin /\ file_of h a_rs = file_of h twin /\
  (forall r, In (WEdited (Some (BResult r))) os -> r = ROk tt) /\
  buf_modified b1 = false /\ buf_modified b2 = false /\
  buf_data b1 = Ok (txt "xfn") /\ buf_data b2 = Ok (txt "yfn") /\
  fs_read (seen h) a_rs = Some (enc (txt "yfn")).
Proof.
  assert (X : match hard_play two_names with
    | Ok (os, w, h) => (os, map (fun b => (b_path b, buf_modified b, buf_data b)) (open_buffers w),
                        (file_of h a_rs, file_of h twin), fs_read (seen h) a_rs)
    | Panic => ([], [], (None, Some 0%N), None) end
    = ([WResult (ROk tt); WResult (ROk tt); WEdited (Some BUnit); WUnit; WEdited (Some BUnit); WEdited (Some (BResult (ROk tt)));
        WUnit; WEdited (Some (BResult (ROk tt)))],
       [(Some a_rs, false, Ok (txt "xfn")); (Some twin, false, Ok (txt "yfn"))], (Some 1%N, Some 1%N), Some (enc (txt "yfn"))))
    by (vm_compute; reflexivity).
  destruct (hard_play two_names) as [[[os w] h]|]; [|discriminate].
  injection X as X1 X2 X3 X4 X5. destruct (open_buffers w) as [|b1 [|b2 [|? ?]]] eqn:Ew; try discriminate X2.
  cbn [map] in X2. injection X2 as Y1 Y2 Y3 Y4 Y5 Y6.
  exists os, w, h, b1, b2.
  split; [unfold two_names; repeat (apply Forall_cons; [split; [try exact I; split; try exact I|exact I]|]); try apply Forall_nil;
    repeat constructor|].
  split; [reflexivity|]. split; [exact Ew|]. split; [exact Y1|]. split; [exact Y4|]. split; [now rewrite X3, X4|].
  split; [subst os; intros r H; cbn in H; repeat (destruct H as [H|H]; [try discriminate; injection H as <-; reflexivity|]); destruct H|].
  repeat (split; [assumption|]). assumption.
Qed.
Print Assumptions C86_one_buffer_per_file_refuted.
