(** Proofs about offices: a workspace is a list of editors, for every text. *)
From Verif Require Import Base Utf8 Utf8Proofs Grapheme Position GapBuffer Cursor PathModel Buffer
  Spec CursorSpec CursorCalls Calls TextProofs HalvesProofs BufferCalls UaxProofs MarkSpec MarkEditor MarkProofs MarkEditorProofs
  Token Workspace OfficeSpec.
From Verif Require WorkspaceSpec WorkspaceProofs WorkspaceProps.
Import WorkspaceSpec(wcall, wout, shelf, Shelf, s_path, s_buffers, s_selected, s_given, s_syntaxes).

Record osim (s : shelf) (f : fsys) (o : office) : Prop := OSim {
  os_path : s_path s = o_path o;
  os_buffers : Forall2 sim (s_buffers s) (o_editors o);
  os_selected : s_selected s = o_selected o;
  os_given : s_given s = o_given o;
  os_syntaxes : s_syntaxes s = o_syntaxes o;
  os_disk : f = o_disk o }.

Lemma Forall2_nth {A B} (R : A -> B -> Prop) l l' : Forall2 R l l' -> forall i,
  match nth_error l i, nth_error l' i with Some x, Some y => R x y | None, None => True | _, _ => False end.
Proof. induction 1; intros [|i]; cbn; auto. apply IHForall2. Qed.
Lemma Forall2_firstn {A B} (R : A -> B -> Prop) l l' : Forall2 R l l' -> forall i, Forall2 R (firstn i l) (firstn i l').
Proof. induction 1; intros [|i]; cbn; constructor; auto. Qed.
Lemma Forall2_skipn {A B} (R : A -> B -> Prop) l l' : Forall2 R l l' -> forall i, Forall2 R (skipn i l) (skipn i l').
Proof. induction 1; intros [|i]; cbn; try constructor; auto. Qed.
Lemma Forall2_len {A B} (R : A -> B -> Prop) l l' : Forall2 R l l' -> length l = length l'.
Proof. induction 1; cbn; congruence. Qed.

Lemma at_desk_sim s f o : osim s f o ->
  match WorkspaceSpec.selected s, at_desk o with Some b, Some e => sim b e | None, None => True | _, _ => False end.
Proof.
  intros []. unfold WorkspaceSpec.selected, at_desk. rewrite os_selected0.
  destruct (o_selected o) as [i|]; [|exact I]. now apply Forall2_nth.
Qed.

Lemma syntax_sim ss b e : sim b e -> WorkspaceSpec.syntax_for ss b = syntax_at ss (me_path e).
Proof.
  intros S. unfold WorkspaceSpec.syntax_for, syntax_at, buf_file_extension, buf_file_name.
  rewrite (MarkEditorProofs.s_path _ _ S).
  destruct (me_path e) as [p|]; [|reflexivity].
  destruct (path_extension p) as [[|x ext]|]; try reflexivity;
  (destruct (path_file_name p) as [n|]; [|reflexivity]; destruct (decode_strict n); reflexivity).
Qed.

Lemma id_sim b e i : sim b e -> sim (set_id b (Some i)) (with_id i e).
Proof. intros []. split; cbn; try assumption; reflexivity. Qed.
Lemma syn_sim b e s : sim b e -> sim (set_syntax b s) (with_syntax s e).
Proof. intros []. split; cbn; try assumption; reflexivity. Qed.
Lemma syn_same_sim b e s : sim b e -> b_syntax b = Some s -> sim b (with_syntax (Some s) e).
Proof. intros [] H. split; cbn; try assumption. Qed.

Lemma put_sim s f o b e : osim s f o -> sim b e -> osim (WorkspaceSpec.put s b) f (sit o e).
Proof.
  intros [] Sb. split; cbn; try assumption; try (now rewrite ?os_selected0, ?os_given0).
  rewrite os_selected0. set (i := match o_selected o with Some i => S i | None => 0 end).
  apply Forall2_app; [now apply Forall2_firstn|]. constructor; [|now apply Forall2_skipn].
  rewrite (syntax_sim _ _ _ Sb), os_given0, os_syntaxes0. rewrite (MarkEditorProofs.s_syntax _ _ Sb).
  destruct (me_syntax e) as [x|] eqn:E.
  - apply syn_same_sim; [now apply id_sim|]. cbn. now rewrite (MarkEditorProofs.s_syntax _ _ Sb).
  - now apply syn_sim, id_sim.
Qed.

Lemma select_sim s f o i : osim s f o -> osim (WorkspaceSpec.select s i) f (with_editors o (o_editors o) (Some i)).
Proof. intros []. now split. Qed.

Lemma becomes_sim s f o b e : osim s f o -> sim b e -> osim (WorkspaceSpec.replace_selected s b) f (becomes o e).
Proof.
  intros O S. unfold WorkspaceSpec.replace_selected, becomes. rewrite <- (os_selected _ _ _ O).
  destruct (s_selected s) as [i|] eqn:E; [|assumption]. destruct O. split; try assumption; try reflexivity.
  cbn -[skipn]. apply Forall2_app; [now apply Forall2_firstn|]. constructor; [assumption|now apply Forall2_skipn].
Qed.

Lemma works_sim cp b e : sim b e -> WorkspaceSpec.has_path cp b = works_on cp e.
Proof. intros S. unfold WorkspaceSpec.has_path, works_on. now rewrite (MarkEditorProofs.s_path _ _ S). Qed.
Lemma first_sim cp bs es : Forall2 sim bs es -> WorkspaceSpec.first_with cp bs = first_on cp es.
Proof. induction 1; cbn; [reflexivity|]. now rewrite (works_sim _ _ _ H), IHForall2. Qed.

Lemma load_sim al s f o p : osim s f o -> exists s',
  WorkspaceSpec.load al f s p = Ok (fst (match read_to_string (o_disk o) p, fs_canon (o_disk o) p with
    | Some t, Some cp => (WorkspaceSpec.WResult (ROk tt), sit o (me_open al (o_disk o) cp t))
    | _, _ => (WorkspaceSpec.WResult (RErr IoError), o)
    end), s') /\ osim s' f (snd (match read_to_string (o_disk o) p, fs_canon (o_disk o) p with
    | Some t, Some cp => (WorkspaceSpec.WResult (ROk tt), sit o (me_open al (o_disk o) cp t))
    | _, _ => (WorkspaceSpec.WResult (RErr IoError), o)
    end)).
Proof.
  intros O. rewrite <- (os_disk _ _ _ O). unfold WorkspaceSpec.load.
  destruct (WorkspaceProps.from_file_total al f p) as (r & E). rewrite E. cbn [bind]. pose proof E as E'.
  unfold from_file in E. destruct (read_to_string f p) as [t|] eqn:Er.
  - destruct (gb_new al t) as [g|]; [|discriminate]. cbn [bind] in E.
    destruct (fs_canon f p) as [cp|] eqn:Ec; injection E as <-; cbn [fst snd].
    + eexists. split; [reflexivity|]. apply put_sim; [assumption|]. apply start_sim. right. now exists al, f, p, cp, t.
    + eauto.
  - injection E as <-. cbn [fst snd]. eauto.
Qed.

Lemma open_sim al s f o p : osim s f o -> exists s',
  WorkspaceSpec.spec_open al f s p = Ok (fst (o_open al p o), s') /\ osim s' f (snd (o_open al p o)).
Proof.
  intros O. pose proof (os_disk _ _ _ O) as Ed. subst f. unfold WorkspaceSpec.spec_open, o_open. pose proof (load_sim al s _ o p O) as L.
  set (r := match read_to_string (o_disk o) p with Some t => _ | None => _ end) in *.
  cbn zeta.
  destruct (fs_canon (o_disk o) p) as [cp|] eqn:Ec; [|exact L].
  pose proof (at_desk_sim _ _ _ O) as D. destruct (WorkspaceSpec.selected s) as [b|], (at_desk o) as [e|]; try contradiction.
  - rewrite (works_sim _ _ _ D). destruct (works_on cp e); [cbn; eauto|].
    rewrite (first_sim _ _ _ (os_buffers _ _ _ O)). destruct (first_on cp (o_editors o)) as [i|]; [|exact L].
    cbn. eexists. split; [reflexivity|]. now apply select_sim.
  - rewrite (first_sim _ _ _ (os_buffers _ _ _ O)). destruct (first_on cp (o_editors o)) as [i|]; [|exact L].
    cbn. eexists. split; [reflexivity|]. now apply select_sim.
Qed.

Lemma turn_sim s f o k : osim s f o -> osim (WorkspaceSpec.turn s k) f (o_turn o k).
Proof.
  intros O. unfold WorkspaceSpec.turn, o_turn. rewrite <- (os_selected _ _ _ O).
  destruct (s_selected s) as [i|]; [|assumption].
  rewrite (Forall2_len _ _ _ (os_buffers _ _ _ O)). now apply select_sim.
Qed.

Lemma close_sim s f o : osim s f o -> osim (WorkspaceSpec.spec_close s) f (o_close o).
Proof.
  intros O. unfold WorkspaceSpec.spec_close, o_close. rewrite <- (os_selected _ _ _ O).
  destruct (s_selected s) as [i|]; [|assumption]. destruct O.
  assert (F : Forall2 sim (firstn i (s_buffers s) ++ skipn (S i) (s_buffers s))
                          (firstn i (o_editors o) ++ skipn (S i) (o_editors o)))
    by (apply Forall2_app; [now apply Forall2_firstn|now apply Forall2_skipn]).
  split; try assumption. cbn -[skipn]. now destruct F.
Qed.

Lemma made_sim brk b e : order_safe brk -> made brk b e -> sim b e.
Proof.
  intros Hos (b0 & e0 & cs & os & f & St & H & E & ->).
  destruct (calls_sim brk cs Hos b0 e0 (start_sim _ _ St) H) as (b' & E' & S). rewrite E in E'. now injection E' as -> -> _.
Qed.

Lemma ocall_sim brk al c oc s f o : order_safe brk -> alloc_ok al -> same_call brk c oc -> osim s f o ->
  exists s', WorkspaceSpec.spec_wcall brk al c s f =
    Ok (fst (o_call brk al oc o), s', o_disk (snd (o_call brk al oc o)))
  /\ osim s' (o_disk (snd (o_call brk al oc o))) (snd (o_call brk al oc o)).
Proof.
  intros Hos Ha C O. pose proof (os_disk _ _ _ O) as Ed. pose proof (at_desk_sim _ _ _ O) as D.
  destruct C; cbn [WorkspaceSpec.spec_wcall o_call fst snd].
  - cbn. rewrite <- Ed. eexists. split; [reflexivity|]. apply put_sim; [assumption|]. now apply (made_sim brk).
  - destruct (open_sim al s f o p O) as (s' & -> & O'). cbn [bind].
    rewrite <- (os_disk _ _ _ O'). eauto.
  - pose proof (close_sim _ _ _ O) as X. rewrite <- (os_disk _ _ _ X). eauto.
  - pose proof (turn_sim _ _ _ 1 O) as X. rewrite <- (os_disk _ _ _ X). eauto.
  - rewrite (Forall2_len _ _ _ (os_buffers _ _ _ O)).
    pose proof (turn_sim _ _ _ (length (o_editors o) - 1) O) as X. rewrite <- (os_disk _ _ _ X). eauto.
  - destruct (WorkspaceSpec.selected s) as [b|], (at_desk o) as [e|]; try contradiction.
    + destruct (call_sim brk al Hos Ha c b (put_disk e (o_disk o)) (disk_sim _ _ _ D) Hc) as (b' & E & S').
      cbn [me_disk put_disk] in E. rewrite <- Ed in E at 1. rewrite E. cbn [bind].
      destruct (me_call brk al c (put_disk e (o_disk o))) as [r e']. cbn [fst snd o_disk] in *.
      eexists. split; [reflexivity|].
      destruct (becomes_sim _ _ _ _ _ O S'). now split.
    + cbn. rewrite <- Ed. eauto.
  - destruct (WorkspaceSpec.selected s) as [b|], (at_desk o) as [e|]; try contradiction; cbn [fst snd].
    + rewrite (os_syntaxes _ _ _ O), (syntax_sim _ _ _ D).
      pose proof (becomes_sim _ _ _ _ _ O (syn_sim _ _ (Some (syntax_at (o_syntaxes o) (me_path e))) D)) as X.
      rewrite <- (os_disk _ _ _ X). eauto.
    + rewrite <- Ed. eauto.
  - cbn. rewrite <- Ed. eexists. split; [reflexivity|]. destruct O. now split.
  - cbn. rewrite <- Ed. eexists. split; [reflexivity|]. destruct O. now split.
  - cbn. eexists. split; [reflexivity|]. destruct O. now split.
Qed.

Lemma ocalls_sim brk cs ocs : order_safe brk -> same_calls brk cs ocs -> forall s f o, osim s f o ->
  exists s', WorkspaceSpec.spec_wrun brk cs s f =
    Ok (fst (o_calls brk ocs o), s', o_disk (snd (o_calls brk ocs o)))
  /\ osim s' (o_disk (snd (o_calls brk ocs o))) (snd (o_calls brk ocs o)).
Proof.
  intros Hos. induction 1 as [|[al c] [al' oc] cs ocs (E & Ha & C) _ IH]; intros s f o O; cbn [WorkspaceSpec.spec_wrun o_calls].
  - cbn. rewrite <- (os_disk _ _ _ O). eauto.
  - cbn [fst snd] in *. subst al'. destruct (ocall_sim brk al c oc s f o Hos Ha C O) as (s1 & -> & O1). cbn [bind].
    destruct (o_call brk al oc o) as [r o1]. cbn [fst snd] in *.
    destruct (IH _ _ _ O1) as (s2 & -> & O2). cbn [bind]. destruct (o_calls brk ocs o1) as [rs o2]. cbn [fst snd] in *. eauto.
Qed.

Lemma office_shown brk w s f o : WorkspaceSpec.shows w s -> WorkspaceSpec.open_buffers w = s_buffers s ->
  osim s f o -> shows_office brk w o.
Proof.
  intros (S1 & S2 & S3 & S4 & S5 & S6) Eb O. pose proof (at_desk_sim _ _ _ O) as D.
  assert (Em : map b_path (s_buffers s) = map me_path (o_editors o)).
  { pose proof (os_buffers _ _ _ O) as F. clear - F. induction F as [|b e bs es Hs _ IH]; cbn; [reflexivity|].
    now rewrite IH, (MarkEditorProofs.s_path _ _ Hs). }
  rewrite (os_path _ _ _ O) in *. split.
  - exact S1.
  - now rewrite S2, (os_syntaxes _ _ _ O).
  - now rewrite S4, (os_selected _ _ _ O).
  - rewrite S3. destruct (WorkspaceSpec.selected s), (at_desk o); try contradiction; [now apply sim_shows|exact I].
  - rewrite Eb. pose proof (os_buffers _ _ _ O) as F. clear - F. induction F; constructor; [now apply sim_shows|assumption].
  - destruct (WorkspaceSpec.selected s), (at_desk o); try contradiction; [now rewrite <- (MarkEditorProofs.s_path _ _ D)|exact S5].
  - now rewrite <- Em.
  - unfold current_buffer_tokens. rewrite S3.
    destruct (WorkspaceSpec.selected s), (at_desk o); try contradiction; [|reflexivity].
    rewrite (sim_whole _ _ D). cbn [bind]. rewrite (MarkEditorProofs.s_syntax _ _ D). now destruct (me_syntax _).
Qed.

Lemma workspace_is_office cls f0 p ss w0 cs ocs : cls LF = GC_LF -> ws_new f0 p (Some ss) = ROk w0 ->
  same_calls (uax29 cls) cs ocs ->
  exists cp, fs_canon f0 p = Some cp /\
  let '(rs, o) := o_calls (uax29 cls) ocs (Office cp [] None 0 ss f0) in
  exists w, WorkspaceSpec.wrun (uax29 cls) cs w0 f0 = Ok (rs, w, o_disk o) /\ shows_office (uax29 cls) w o.
Proof.
  intros Hc E C. destruct (WorkspaceProps.workspace_is_list (uax29 cls) f0 p ss w0 cs E) as (cp & Ec & H).
  exists cp. split; [assumption|].
  destruct (ocalls_sim _ cs ocs (uax29_order_safe cls Hc) C (Shelf cp [] None 0 ss) f0 (Office cp [] None 0 ss f0)) as (s & E' & O).
  { split; try reflexivity. constructor. }
  rewrite E' in H. destruct (o_calls (uax29 cls) ocs _) as [rs o]. cbn [fst snd] in *.
  destruct H as (w & Ew & S & Eb). exists w. split; [assumption|]. now apply (office_shown _ _ s (o_disk o)).
Qed.

Lemma every_buffer_made brk b f : reachable_buffer brk b f -> exists e, made brk b e.
Proof.
  intros (b0 & f0 & cs & os & Fr & H & E).
  assert (St : exists e0, me_start b0 e0 /\ me_disk e0 = f0).
  { destruct Fr as [(al & En)|(al & p & Ef)].
    - exists (me_new al f0). split; [|reflexivity]. left. eauto.
    - pose proof Ef as Ef'. unfold from_file in Ef. destruct (read_to_string f0 p) as [t|] eqn:Er; [|discriminate].
      destruct (gb_new al t); [|discriminate]. cbn [bind] in Ef.
      destruct (fs_canon f0 p) as [cp|] eqn:Ec; [|discriminate].
      exists (me_open al f0 cp t). split; [|reflexivity]. right. now exists al, f0, p, cp, t. }
  destruct St as (e0 & St & Ed). eexists. exists b0, e0, cs, os, f. rewrite Ed. eauto.
Qed.

(** Every session of good calls is the same as one of office calls. *)
Lemma every_session brk cs : Forall (fun ac => alloc_ok (fst ac) /\ WorkspaceSpec.wcall_ok brk (snd ac)) cs ->
  exists ocs, same_calls brk cs ocs.
Proof.
  induction 1 as [|[al c] cs [Ha Hc] _ (ocs & IH)]; [exists []; constructor|]. cbn [fst snd] in *.
  assert (X : exists oc, same_call brk c oc).
  { destruct c; cbn in Hc; try (eexists; constructor; assumption).
    destruct Hc as (f & R). destruct (every_buffer_made _ _ _ R) as (e & M). exists (OAdd e). now apply same_add. }
  destruct X as (oc & X). exists ((al, oc) :: ocs). constructor; [|assumption]. now repeat split.
Qed.
