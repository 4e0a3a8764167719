(** Property C93: opening and reloading while other programs replace files by
    renaming.  Statements only; the steps are in Opening.v and what is said about
    them in OpeningSpec.v. *)
From Coq Require Import String.
From Verif Require Import Base Utf8 Grapheme UnicodeTable Position GapBuffer Cursor PathModel Buffer BufferCalls Witness Token
  Workspace WorkspaceSpec WorkspaceWitness HardLinks HardWitness Saving Loading Renaming RenamingSpec Opening OpeningSpec
  OpeningProofs OpeningWitness.

(** C93: [from_file] returns what it would have returned all at once at one moment of
    the call, unless the operating system reports an error. *)
Theorem C93_from_file : forall al p es h ph h' r, iloading p es (IAsking, h) = (ph, h') -> only_renames es h ->
  iread_result ph = Some r ->
  (exists es1 es2, es = (es1 ++ es2)%list /\ from_file_given al r (seen h') p = from_file al (seen (disk_then p es1 h)) p) \/
  (from_file_given al r (seen h') p = Ok (RErr IoError) /\ (In INotOpened es \/ In IReadError es)).
Proof. exact from_file_moment. Qed.
Print Assumptions C93_from_file.

(** So does [reload]. *)
Theorem C93_reload : forall brk al es b p h o h', b_path b = Some p -> only_renames es h ->
  reload_steps brk al es b h = Ok (Some o, h') ->
  (exists es1 es2, es = (es1 ++ es2)%list /\ buf_reload brk al (seen (disk_then p es1 h)) b = Ok o) \/
  (o = (RErr IoError, b) /\ (In INotOpened es \/ In IReadError es)).
Proof. exact reload_moment. Qed.
Print Assumptions C93_reload.

(** So does [open_buffer], in every session in which others rename during the calls
    and neither remove files nor change links between them. *)
Theorem C93_open : forall brk h0 w h al p es r w' h', renaming_session brk h0 w h -> only_renames es h ->
  open_buffer_steps al p es w h = Ok (Some (r, w'), h') ->
  (exists es1 es2, es = (es1 ++ es2)%list /\ open_buffer al (seen (disk_then p es1 h)) w p = Ok (r, w')) \/
  (r = RErr IoError /\ w' = w /\ (In INotOpened es \/ In IReadError es)).
Proof. exact session_open. Qed.
Print Assumptions C93_open.

(** It never panics, and it ends however often the file is replaced. *)
Theorem C93_open_total : forall brk h0 w h al p es, renaming_session brk h0 w h ->
  exists o h', open_buffer_steps al p es w h = Ok (o, h').
Proof. exact session_open_total. Qed.
Print Assumptions C93_open_total.
Theorem C93_open_ends : forall brk h0 w h al p bs es, renaming_session brk h0 w h -> reads h p = Some bs -> only_renames es h ->
  Forall ireadable es -> List.length bs < List.length (filter is_iread es) ->
  exists o h', open_buffer_steps al p (IOpened :: es) w h = Ok (Some o, h').
Proof. exact session_open_ends. Qed.
Print Assumptions C93_open_ends.

(** No call of such a session panics, and every call does to the workspace, and returns,
    what the same call does and returns where nobody changes the disk during it. *)
Theorem C93_no_panic : forall cls h0 w h al c, cls LF = GC_LF -> renaming_session (uax29 cls) h0 w h -> alloc_ok al ->
  icall_ok (uax29 cls) c -> exists o h', iexec (uax29 cls) al c w h = Ok (o, h').
Proof. exact session_total. Qed.
Print Assumptions C93_no_panic.
Theorem C93_each_call : forall brk h0 w h al c o w' h', renaming_session brk h0 w h -> icall_ok brk c -> others_rename h c ->
  iexec brk al c w h = Ok (Some (o, w'), h') ->
  exists c' g g', same_call c c' /\ fs_target g = hd_target h /\ wexec brk al c' w g = Ok (o, w', g').
Proof. exact session_step_ordinary. Qed.
Print Assumptions C93_each_call.

(** Only saves change the disk. *)
Theorem C93_reads_only : forall brk al c w h o h', iexec brk al c w h = Ok (o, h') ->
  match c with
  | IOpen _ es | IReload es => h' = h \/ h' = others_did es h
  | ICall _ => h' = h
  | ISave _ | IDisk _ => True
  end.
Proof. exact reads_only. Qed.
Print Assumptions C93_reads_only.

(** A save that succeeds leaves the text in the file, unless the file was replaced
    after it was opened, and the buffer unmodified; one that fails leaves the buffer,
    and what was in the file, a beginning of the text, or what another program put
    there. *)
Theorem C93_save : forall es b p t h r b' h', b_path b = Some p -> buf_data b = Ok t -> new_numbers es h ->
  save_steps es b h = Ok (Some (r, b'), h') ->
  (r = ROk tt /\ buf_data b' = Ok t /\ buf_modified b' = false /\
   (reads h' p = Some (enc t) \/
    exists es1 q new bs es2, es = (es1 ++ SRenamed q new bs :: es2)%list /\ hd_target h p = Some q /\
      has_opened (fst (isaving p (enc t) es1 (SOpening, h))) = true /\ reads h' p = Some bs)) \/
  (r = RErr IoError /\ b' = b /\
   (reads h' p = reads h p \/ (exists k, reads h' p = Some (firstn k (enc t))) \/
    exists q new bs, In (SRenamed q new bs) es /\ hd_target h p = Some q /\ reads h' p = Some bs)).
Proof. exact save_moment. Qed.
Print Assumptions C93_save.

(** C93: such a session is one of calls during which the disk does not change, so all
    that is proved of those holds ... *)
Theorem C93_sessions : forall brk h0 w h, renaming_session brk h0 w h ->
  exists p ss w0 cs os, ws_new (seen h0) p (Some ss) = ROk w0 /\
    Forall (fun ac => alloc_ok (fst ac) /\ wcall_ok brk (snd ac) /\ only_opens (snd ac) /\
                      keeps_links (hd_target h0) (snd ac)) cs /\
    wrun brk cs w0 (seen h0) = Ok (os, w, seen h).
Proof. exact session_ordinary. Qed.
Print Assumptions C93_sessions.
(** ... every open buffer with a path has a file ... *)
Theorem C93_file_there : forall brk h0 w h b q, renaming_session brk h0 w h -> In b (open_buffers w) ->
  b_path b = Some q -> hd_file h q <> None.
Proof. exact session_files. Qed.
Print Assumptions C93_file_there.
(** ... no path is open twice, and no file is open under two paths that lead to the
    same place. *)
Theorem C93_no_duplicates : forall brk h0 w h, renaming_session brk h0 w h -> NoDup (map b_path (open_buffers w)).
Proof. exact session_no_duplicates. Qed.
Print Assumptions C93_no_duplicates.
Theorem C93_files_apart : forall brk h0 w h, links_settle (seen h0) -> renaming_session brk h0 w h ->
  forall i j bi bj pi pj, nth_error (open_buffers w) i = Some bi -> nth_error (open_buffers w) j = Some bj ->
    b_path bi = Some pi -> b_path bj = Some pj -> hd_target h pi = hd_target h pj -> i = j.
Proof. exact session_files_apart. Qed.
Print Assumptions C93_files_apart.

(** The link is loaded as "fn" although its file is replaced twice meanwhile; the file
    is found open under its own name; the reload gives "pub", which was there for a
    moment; "xpub" is saved. *)
Example C93_example : exists w0 w h b, ws_new (seen hard_disk) dir (Some syntaxes) = ROk w0 /\
  iplay replaced_often w0 hard_disk = Ok (w, h) /\ renaming_session uax29_15 hard_disk w h /\
  map b_path (open_buffers w) = [Some a_rs; Some b_txt] /\ w_current w = Some b /\
  buf_data b = Ok (txt "xpub") /\ buf_modified b = false /\ reads h link = Some (enc (txt "xpub")) /\
  only_renames [IOpened; ITook 9; IRenamed a_rs 20%N (enc (txt "y")); ITook 9] h.
Proof.
  destruct (ws_new (seen hard_disk) dir (Some syntaxes)) as [w0|] eqn:E0; [|vm_compute in E0; discriminate].
  assert (X : match iplay replaced_often w0 hard_disk with
    | Ok (w, h) => (map b_path (open_buffers w), match w_current w with Some b => Some (buf_data b, buf_modified b) | None => None end, reads h link)
    | Panic => ([], None, None) end
    = ([Some a_rs; Some b_txt], Some (Ok (txt "xpub"), false), Some (enc (txt "xpub")))).
  { vm_compute in E0. injection E0 as <-. vm_compute. reflexivity. }
  assert (B0 : below hard_disk 10).
  { intros q i. unfold hard_disk. cbn [hd_file]. destruct (path_eqb q a_rs), (path_eqb q twin), (path_eqb q b_txt), (path_eqb q dir); intros [= <-]; lia. }
  assert (P : Forall proper replaced_often).
  { assert (N : forall es, forallb (fun e => match e with IChanged _ => false | _ => true end) es = true -> forall h', ~ In (IChanged h') es).
    { intros es H h' I. rewrite forallb_forall in H. specialize (H _ I). discriminate. }
    unfold replaced_often. constructor; [cbn [proper]; apply N; reflexivity|]. constructor; [cbn [proper]; apply N; reflexivity|]. constructor; [cbn [proper]; apply N; reflexivity|]. constructor; [cbn [proper]; apply N; reflexivity|].
    constructor; [split; [now apply valid_textb_ok|exact I]|]. constructor; [exact I|constructor]. }
  destruct (iplay replaced_often w0 hard_disk) as [[w h]|] eqn:E; [|discriminate]. injection X as X1 X2 X3.
  destruct (w_current w) as [b|] eqn:Ew; [|discriminate]. injection X2 as X2 X4.
  exists w0, w, h, b. split; [reflexivity|]. split; [exact E|]. split.
  { apply (iplay_session hard_disk replaced_often w0 hard_disk 10 17); [eapply session_new; exact E0|exact B0|vm_compute; reflexivity|exact P|exact E]. }
  split; [exact X1|]. split; [exact Ew|]. split; [exact X2|]. split; [exact X4|]. split; [exact X3|].
  assert (B : below h 17) by (apply (iplay_below hard_disk replaced_often w0 hard_disk 10 17 w h); [eapply session_new; exact E0|exact B0|vm_compute; reflexivity|exact P|exact E]).
  split; [intros h' H; cbn [In] in H; repeat destruct H as [H|H]; try discriminate; contradiction|].
  split; [repeat constructor; intros []|]. repeat constructor. intros q H. apply B in H. lia.
Qed.
