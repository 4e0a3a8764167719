(** Lemmas behind the workspace properties. *)
From Coq Require Import Permutation.
From Verif Require Import Base Utf8 Utf8Proofs Grapheme GraphemeProofs Position GapBuffer
  GapBufferProofs Cursor PathModel Buffer Spec CursorSpec Calls CursorCalls TextProofs UaxProofs HalvesProofs TextFacts
  GapProps CursorProofs OpProofs BufferCalls Timeline TimelineProofs AnyTextProofs BufferProps
  BufferIoProps BufferFacts Token Workspace WorkspaceSpec WorkspaceProofs.

(** ** Which calls change the public fields of a buffer *)

Lemma store_fields b op : b_id (store b op) = b_id b /\ b_path (store b op) = b_path b /\
  b_syntax (store b op) = b_syntax b /\ b_callback (store b op) = b_callback b.
Proof. unfold store. now destruct (b_group b). Qed.

Definition same_fields (b b' : buffer) : Prop :=
  b_id b' = b_id b /\ b_path b' = b_path b /\ b_syntax b' = b_syntax b /\ b_callback b' = b_callback b.

Lemma edit_fields brk al op b b' : alloc_ok al -> wfb b -> op_valid op ->
  (let* (op', b1) := op_run brk al op b in Ok (store b1 op')) = Ok b' -> same_fields b b'.
Proof.
  intros Hal W V E. pose proof (op_run_step brk al op Hal V b (wfb_data _ W)) as X.
  destruct (op_run brk al op b) as [[op' b1]|]; [|discriminate]. cbn [bind] in E. injection E as <-.
  destruct X as [[_ (R1 & R2 & _ & _ & R5 & R6) _] _]. unfold same_fields.
  destruct (store_fields b1 op') as (S1 & S2 & S3 & S4). repeat split; congruence.
Qed.

Lemma bexec_fields brk al c b f o b' f' : alloc_ok al -> call_ok c -> wfb b -> bexec brk al c b f = Ok (o, b', f') ->
  b_id b' = match c with BSetId i => i | _ => b_id b end /\
  b_path b' = match c with BSetPath p => p | _ => b_path b end /\
  b_syntax b' = match c with BSetSyntax y => y | _ => b_syntax b end /\
  b_callback b' = match c with BSetCallback on => on | _ => b_callback b end.
Proof.
  intros Hal Hc W E.
  assert (Rep : forall s b1, valid_text s -> buf_replace brk al b s = Ok b1 -> same_fields b b1).
  { intros s b1 V X. destruct (wfb_data_total _ W) as (t & Et & _).
    destruct (replace_text brk al b s t Hal W V Et) as (b2 & X2 & _ & Y1 & Y2 & Y3 & Y4 & _).
    rewrite X in X2. injection X2 as <-. now repeat split. }
  destruct c; cbn [bexec call_ok] in *.
  - unfold buf_insert in E. destruct (let* (_, _) := _ in Ok (store _ _)) as [b1|] eqn:X; [|discriminate].
    injection E as <- <- <-. now apply edit_fields in X.
  - unfold buf_delete in E. destruct (in_bounds_wf brk (b_data b) (Pos (line (c_pos (b_cursor b))) (offset (c_pos (b_cursor b)) + 1)) (wfb_data _ W)) as (k & Ek).
    rewrite Ek in E. cbn [bind] in E. set (q := if k then _ else _) in E. unfold buf_delete_range in E.
    destruct (let* (_, _) := _ in Ok (store _ _)) as [b1|] eqn:X; [|discriminate].
    injection E as <- <- <-. apply edit_fields in X; try assumption. split; [exact I|eauto].
  - unfold buf_delete_range in E. destruct (let* (_, _) := _ in Ok (store _ _)) as [b1|] eqn:X; [|discriminate].
    injection E as <- <- <-. apply edit_fields in X; try assumption. split; [exact I|eauto].
  - destruct (buf_replace brk al b content) as [b1|] eqn:X; [|discriminate]. injection E as <- <- <-. now apply (Rep content).
  - destruct (buf_undo brk al b) as [b1|] eqn:X; [|discriminate]. injection E as <- <- <-. unfold buf_undo in X.
    assert (Y : forall op b0, op_valid op -> wf (b_data b0) -> same_fields b b0 -> op_reverse brk al op b0 = Ok b1 -> same_fields b b1).
    { intros op b0 V W0 (S1 & S2 & S3 & S4) R. pose proof (op_reverse_step brk al op Hal V b0 W0) as Z. rewrite R in Z.
      destruct Z as [_ (R1 & R2 & _ & _ & R5 & R6) _]. repeat split; congruence. }
    destruct W as [W1 W2 W3 W4].
    assert (H : (let '(op, h) := hist_previous (b_history b) in
       match op with Some op => op_reverse brk al op (set_history (set_group b None) h) | None => Ok (set_history (set_group b None) h) end) = Ok b1
       -> same_fields b b1).
    { unfold hist_previous. destruct (b_history b) as [prev next mk]. cbn [h_previous h_next h_mark] in *. destruct prev as [|op prev].
      - intros R. injection R as <-. now repeat split.
      - inversion_clear W2. intros R. refine (Y op _ H _ _ R); [exact W1|now repeat split]. }
    destruct (b_group b) as [[|op ops]|] eqn:Eg.
    + apply H. destruct (hist_previous (b_history b)) as [op h] eqn:Eh. cbn [b_history set_group] in X. rewrite Eh in X. exact X.
    + apply (Y (OpGroup (op :: ops)) (set_group b None)); try assumption; [|now repeat split]. now apply op_valid_group.
    + apply H. destruct (hist_previous (b_history b)) as [op h] eqn:Eh. cbn [b_history set_group] in X. rewrite Eh in X. exact X.
  - destruct (buf_redo brk al b) as [b1|] eqn:X; [|discriminate]. injection E as <- <- <-. unfold buf_redo, hist_next in X.
    destruct W as [W1 W2 W3 W4]. destruct (b_history b) as [prev next mk]. cbn [h_previous h_next h_mark] in *.
    destruct next as [|op next]; [injection X as <-; now repeat split|]. inversion_clear W3.
    set (b0 := set_history b _) in X. pose proof (op_run_step brk al op Hal H b0 W1) as Z.
    destruct (op_run brk al op b0) as [[op' b2]|]; [|discriminate]. injection X as <-.
    destruct Z as [[_ (R1 & R2 & _ & _ & R5 & R6) _] _]. now repeat split.
  - injection E as <- <- <-. unfold start_group. now destruct (b_group b).
  - injection E as <- <- <-. unfold end_group. now destruct (b_group b) as [[|? ?]|].
  - destruct (cexec brk (b_data b) m (b_cursor b)); [|discriminate]. cbn [bind] in E. injection E as <- <- <-. now repeat split.
  - injection E as <- <- <-. now repeat split.
  - unfold buf_save in E. destruct (b_path b) as [p|] eqn:Ep; [|injection E as <- <- <-; now repeat split].
    destruct (outcome f p w); try (destruct (buf_data b) as [t|]; [|discriminate]); cbn [bind] in E; injection E as <- <- <-; now repeat split.
  - unfold buf_reload in E. destruct (b_path b) as [p|] eqn:Ep; [|injection E as <- <- <-; now repeat split].
    destruct (read_to_string f p) as [s|] eqn:Ef; [|injection E as <- <- <-; now repeat split].
    assert (V : valid_text s).
    { unfold read_to_string in Ef. destruct (fs_read f p); [|discriminate]. now apply decode_strict_valid in Ef as [? _]. }
    destruct (buf_replace brk al b s) as [b1|] eqn:X; [|discriminate]. cbn [bind] in E. injection E as <- <- <-.
    destruct (Rep s b1 V X) as (S1 & S2 & S3 & S4). rewrite Ep in S2. now repeat split.
  - injection E as <- <- <-. now repeat split.
  - injection E as <- <- <-. now repeat split.
  - injection E as <- <- <-. now repeat split.
  - injection E as <- <- <-. now repeat split.
  - injection E as <- <- <-. now repeat split.
Qed.

(** ** How a call changes the list *)

Definition stamp (s : shelf) (b : buffer) : buffer :=
  let b1 := set_id b (Some (s_given s)) in
  match b_syntax b with Some _ => b1 | None => set_syntax b1 (Some (syntax_for (s_syntaxes s) b)) end.
Definition sel_ok (s : shelf) : Prop :=
  match s_selected s with Some i => i < length (s_buffers s) | None => s_buffers s = [] end.

Lemma sim_sel_ok w s : sim w s -> sel_ok s.
Proof.
  intros [p n ss|p pre bl post n b ss H]; unfold sel_ok; cbn; [reflexivity|]. rewrite app_length. cbn. lia.
Qed.

Inductive changed (brk : brk_rule) (al : allocator) (f : fsys) (s s' : shelf) : wcall -> Prop :=
| ch_same c : same_buffers c \/ (exists p, c = WOpen p) \/ (c = WClose /\ s_buffers s = [])
    \/ (exists i, c = WEdit (BSetId i) /\ s_buffers s = []) ->
  s_buffers s' = s_buffers s -> s_given s' = s_given s -> changed brk al f s s' c
| ch_edit c pre b post b' o f' : bexec brk al c b f = Ok (o, b', f') ->
  s_buffers s = pre ++ b :: post -> s_buffers s' = pre ++ b' :: post -> s_given s' = s_given s ->
  changed brk al f s s' (WEdit c)
| ch_syntax pre b post : s_buffers s = pre ++ b :: post ->
  s_buffers s' = pre ++ set_syntax b (Some (syntax_for (s_syntaxes s) b)) :: post -> s_given s' = s_given s ->
  changed brk al f s s' WSyntax
| ch_add b pre post : s_buffers s = pre ++ post -> s_buffers s' = pre ++ stamp s b :: post ->
  s_given s' = S (s_given s) -> changed brk al f s s' (WAdd b)
| ch_open p cp b pre post : from_file al f p = Ok (ROk b) -> fs_canon f p = Some cp ->
  Forall (fun x => has_path cp x = false) (s_buffers s) ->
  s_buffers s = pre ++ post -> s_buffers s' = pre ++ stamp s b :: post ->
  s_given s' = S (s_given s) -> changed brk al f s s' (WOpen p)
| ch_close pre b post : s_buffers s = pre ++ b :: post -> s_buffers s' = pre ++ post ->
  s_given s' = s_given s -> changed brk al f s s' WClose.

Lemma selected_split s b : selected s = Some b ->
  exists pre post, s_buffers s = pre ++ b :: post /\ s_selected s = Some (length pre).
Proof.
  unfold selected. destruct (s_selected s) as [i|]; [|discriminate]. intros E.
  apply split_at in E as (pre & post & E & L). exists pre, post. split; [assumption|now rewrite L].
Qed.
Lemma selected_none s : sel_ok s -> selected s = None -> s_buffers s = [] /\ s_selected s = None.
Proof.
  unfold selected, sel_ok. destruct (s_selected s) as [i|]; [|auto]. intros L E.
  apply nth_error_None in E. lia.
Qed.
Lemma put_split s b : exists pre post, s_buffers s = pre ++ post /\ s_buffers (put s b) = pre ++ stamp s b :: post
  /\ pre = firstn (match s_selected s with Some i => S i | None => 0 end) (s_buffers s)
  /\ s_given (put s b) = S (s_given s).
Proof.
  do 2 eexists. split; [|split; [reflexivity|split; reflexivity]].
  symmetry. apply firstn_skipn.
Qed.
Lemma from_file_canon al f p b : from_file al f p = Ok (ROk b) -> exists cp, fs_canon f p = Some cp /\ b_path b = Some cp
  /\ b_syntax b = None.
Proof.
  unfold from_file. destruct (read_to_string f p) as [t|]; [|discriminate].
  destruct (gb_new al t) as [g|]; [|discriminate]. cbn [bind]. destruct (fs_canon f p) as [cp|]; [|discriminate].
  intros E. injection E as <-. exists cp. now repeat split.
Qed.

Lemma spec_changed brk al c s f o s' f' : sel_ok s -> spec_wcall brk al c s f = Ok (o, s', f') ->
  changed brk al f s s' c.
Proof.
  intros So E. destruct c as [b|p| | | |c| |p|ss|g]; cbn [spec_wcall] in E.
  - injection E as <- <- <-. destruct (put_split s b) as (pre & post & E1 & E2 & _ & E3). econstructor; eassumption.
  - destruct (spec_open al f s p) as [[o1 s1]|] eqn:X; [|discriminate]. cbn [bind] in E. injection E as <- <- <-.
    assert (Ld : (forall cp, fs_canon f p = Some cp -> Forall (fun x => has_path cp x = false) (s_buffers s)) ->
      load al f s p = Ok (o1, s1) -> changed brk al f s s1 (WOpen p)).
    { intros Hf. unfold load. destruct (from_file al f p) as [[b|e]|] eqn:Eb; cbn [bind]; try discriminate.
      - intros L. injection L as <- <-. destruct (put_split s b) as (pre & post & E1 & E2 & _ & E3).
        destruct (from_file_canon _ _ _ _ Eb) as (cp & Hcp & _). eapply ch_open; eauto.
      - intros L. injection L as <- <-. apply ch_same; [right; left; eauto|reflexivity|reflexivity]. }
    unfold spec_open in X. destruct (fs_canon f p) as [cp|] eqn:Ec; [|apply Ld; [discriminate|assumption]].
    assert (Keep : forall j, changed brk al f s (select s j) (WOpen p)).
    { intros j. apply ch_same; [right; left; eauto|reflexivity|reflexivity]. }
    destruct (match selected s with Some b => has_path cp b | None => false end).
    + injection X as <- <-. apply ch_same; [right; left; eauto|reflexivity|reflexivity].
    + destruct (first_with cp (s_buffers s)) as [i|] eqn:Ei; [injection X as <- <-; apply Keep|].
      apply Ld; [|assumption]. intros cp' H. injection H as <-. now apply first_none.
  - injection E as <- <- <-. unfold spec_close. destruct (s_selected s) as [i|] eqn:Es.
    + unfold sel_ok in So. rewrite Es in So. destruct (nth_error (s_buffers s) i) as [b|] eqn:Eb; [|now apply nth_error_None in Eb; lia].
      destruct (split_at _ _ _ Eb) as (pre & post & E1 & L). eapply ch_close; [eassumption| |reflexivity].
      cbn [s_buffers]. now rewrite E1, <- L, firstn_pre, skipn_S_pre.
    + apply ch_same; try reflexivity. right. right. left. split; [reflexivity|].
      unfold sel_ok in So. now rewrite Es in So.
  - injection E as <- <- <-. unfold turn. destruct (s_selected s); apply ch_same; try reflexivity; left; exact I.
  - injection E as <- <- <-. unfold turn. destruct (s_selected s); apply ch_same; try reflexivity; left; exact I.
  - destruct (selected s) as [b|] eqn:Es.
    + destruct (bexec brk al c b f) as [[[o1 b'] f1]|] eqn:X; [|discriminate]. cbn [bind] in E. injection E as <- <- <-.
      destruct (selected_split _ _ Es) as (pre & post & E1 & E2).
      eapply ch_edit; try eassumption; unfold replace_selected; rewrite E2; cbn [s_buffers s_given]; [|reflexivity].
      now rewrite E1, firstn_pre, skipn_S_pre.
    + injection E as <- <- <-. destruct (selected_none _ So Es) as [E1 _]. apply ch_same; try reflexivity.
      destruct c; solve [left; exact I|right; right; right; eauto].
  - destruct (selected s) as [b|] eqn:Es; injection E as <- <- <-.
    + destruct (selected_split _ _ Es) as (pre & post & E1 & E2).
      eapply ch_syntax; try eassumption; unfold replace_selected; rewrite E2; cbn [s_buffers s_given]; [|reflexivity].
      now rewrite E1, firstn_pre, skipn_S_pre.
    + apply ch_same; try reflexivity. left. exact I.
  - injection E as <- <- <-. apply ch_same; try reflexivity. left. exact I.
  - injection E as <- <- <-. apply ch_same; try reflexivity. left. exact I.
  - injection E as <- <- <-. apply ch_same; try reflexivity. left. exact I.
Qed.

(** ** Invariants *)

Lemma wfb_set_id b i : wfb b -> wfb (set_id b i).
Proof. intros [W1 W2 W3 W4]. now split. Qed.
Lemma wfb_set_syntax b i : wfb b -> wfb (set_syntax b i).
Proof. intros [W1 W2 W3 W4]. now split. Qed.
Lemma wfb_stamp s b : wfb b -> wfb (stamp s b).
Proof. intros W. unfold stamp. destruct (b_syntax b); [now apply wfb_set_id|now apply wfb_set_syntax, wfb_set_id]. Qed.
Lemma stamp_id s b : b_id (stamp s b) = Some (s_given s).
Proof. unfold stamp. now destruct (b_syntax b). Qed.
Lemma stamp_path s b : b_path (stamp s b) = b_path b.
Proof. unfold stamp. now destruct (b_syntax b). Qed.
Lemma stamp_syntax s b : b_syntax (stamp s b) <> None.
Proof. unfold stamp. destruct (b_syntax b) eqn:E; cbn; [now rewrite E|discriminate]. Qed.
Lemma stamp_data s b : b_data (stamp s b) = b_data b.
Proof. unfold stamp. now destruct (b_syntax b). Qed.

Lemma wfb_changed brk al f s s' c : alloc_ok al -> wcall_ok brk c -> changed brk al f s s' c ->
  Forall wfb (s_buffers s) -> Forall wfb (s_buffers s').
Proof.
  intros Ha Hc Ch F. revert Hc. destruct Ch as [c' _ E _|c' pre b post b' o f' X E1 E2 _|pre b post E1 E2 _|b pre post E1 E2 _
    |p cp b pre post X _ _ E1 E2 _|pre b post E1 E2 _]; intros Hc; rewrite ?E, ?E2; try assumption;
    rewrite E1 in F; apply Forall_app in F as [F1 F2]; apply Forall_app; (split; [assumption|]).
  - inversion_clear F2. constructor; [|assumption].
    pose proof (bexec_any brk al c' b f Ha Hc H) as Y. rewrite X in Y. apply Y.
  - inversion_clear F2. constructor; [|assumption]. now apply wfb_set_syntax.
  - constructor; [|assumption]. destruct Hc as (g & R). now apply wfb_stamp, (reachable_wfb brk b g).
  - constructor; [|assumption]. apply wfb_stamp, (fresh_wfb f). right. eauto.
  - now inversion_clear F2.
Qed.

Lemma new_sim f p ss w : ws_new f p (Some ss) = ROk w ->
  exists cp, fs_canon f p = Some cp /\ sim w (Shelf cp [] None 0 ss).
Proof.
  unfold ws_new. destruct (fs_canon f p) as [cp|]; [|discriminate]. intros E. injection E as <-.
  exists cp. split; [reflexivity|constructor].
Qed.

Lemma run_inv brk (P : wcall -> Prop) (Q : shelf -> Prop) :
  (forall al f s s' c, alloc_ok al -> wcall_ok brk c -> P c -> Forall wfb (s_buffers s) ->
     changed brk al f s s' c -> Q s -> Q s') ->
  forall cs w s f os w' f', sim w s -> Forall wfb (s_buffers s) -> Q s ->
    Forall (fun ac => alloc_ok (fst ac) /\ wcall_ok brk (snd ac) /\ P (snd ac)) cs ->
    wrun brk cs w f = Ok (os, w', f') ->
    exists s', sim w' s' /\ Forall wfb (s_buffers s') /\ Q s'.
Proof.
  intros Step cs. induction cs as [|[al c] cs IH]; intros w s f os w' f' S W HQ F E; cbn [wrun] in E.
  - injection E as <- <- <-. eauto.
  - inversion_clear F as [|? ? (Ha & Hc & HP) F']. cbn [fst snd] in *.
    pose proof (wexec_sim brk al c w s f S) as X. pose proof (sim_sel_ok _ _ S) as So.
    destruct (spec_wcall brk al c s f) as [[[o s1] f1]|] eqn:Es; [|rewrite X in E; discriminate].
    destruct X as (w1 & E1 & S1). rewrite E1 in E. cbn [bind] in E.
    destruct (wrun brk cs w1 f1) as [[[os2 w2] f2]|] eqn:E2; [|discriminate]. cbn [bind] in E. injection E as <- <- <-.
    pose proof (spec_changed _ _ _ _ _ _ _ _ So Es) as Ch.
    eapply IH; try eassumption; [eapply wfb_changed; eassumption|eapply Step; eassumption].
Qed.

Lemma reach_inv brk (P : wcall -> Prop) (Q : shelf -> Prop) :
  (forall p ss, Q (Shelf p [] None 0 ss)) ->
  (forall al f s s' c, alloc_ok al -> wcall_ok brk c -> P c -> Forall wfb (s_buffers s) ->
     changed brk al f s s' c -> Q s -> Q s') ->
  forall w f, reachable_workspace brk P w f -> exists s, sim w s /\ Forall wfb (s_buffers s) /\ Q s.
Proof.
  intros H0 Step w f (f0 & p & ss & w0 & cs & os & En & F & E).
  destruct (new_sim _ _ _ _ En) as (cp & _ & S). eapply run_inv; try eassumption; [constructor|apply H0].
Qed.

Lemma reach_sim brk P w f : reachable_workspace brk P w f -> exists s, sim w s /\ Forall wfb (s_buffers s).
Proof.
  intros R. destruct (reach_inv brk P (fun _ => True)) with (w := w) (f := f) as (s & S & W & _); auto. eauto.
Qed.

(** ** C39 *)

Lemma workspace_is_list brk f0 p ss w0 cs : ws_new f0 p (Some ss) = ROk w0 ->
  exists cp, fs_canon f0 p = Some cp /\
  match spec_wrun brk cs (Shelf cp [] None 0 ss) f0 with
  | Ok (os, s, f) => exists w, wrun brk cs w0 f0 = Ok (os, w, f) /\ shows w s /\ open_buffers w = s_buffers s
  | Panic => wrun brk cs w0 f0 = Panic
  end.
Proof.
  intros E. destruct (new_sim _ _ _ _ E) as (cp & Hc & S). exists cp. split; [assumption|].
  pose proof (wrun_sim brk cs _ _ f0 S) as X. destruct (spec_wrun _ _ _ _) as [[[os s] f]|]; [|assumption].
  destruct X as (w & X & S'). exists w. split; [assumption|]. now apply sim_shows.
Qed.

Lemma from_file_total al f p : exists r, from_file al f p = Ok r.
Proof.
  unfold from_file. destruct (read_to_string f p) as [s|] eqn:Ef; [|eauto].
  assert (V : valid_text s).
  { unfold read_to_string in Ef. destruct (fs_read f p); [|discriminate]. now apply decode_strict_valid in Ef as [? _]. }
  destruct (new_ok al s V) as (g & Eg & _). rewrite Eg. cbn [bind]. destruct (fs_canon f p); eauto.
Qed.
Lemma load_total al f s p : exists r, load al f s p = Ok r.
Proof.
  unfold load. destruct (from_file_total al f p) as ([b|e] & E); rewrite E; cbn [bind]; eauto.
Qed.
Lemma spec_open_total al f s p : exists r, spec_open al f s p = Ok r.
Proof.
  unfold spec_open. destruct (fs_canon f p) as [cp|]; [|apply load_total].
  destruct (match selected s with Some _ => _ | None => _ end); [eauto|].
  destruct (first_with cp (s_buffers s)); [eauto|apply load_total].
Qed.
Lemma spec_wcall_total cls al c s f : cls LF = GC_LF -> alloc_ok al -> wcall_ok (uax29 cls) c ->
  Forall wfb (s_buffers s) -> exists o s' f', spec_wcall (uax29 cls) al c s f = Ok (o, s', f').
Proof.
  intros HL Ha Hc W. destruct c as [b|p| | | |c| |p|ss|g]; cbn [spec_wcall]; try (do 3 eexists; reflexivity).
  - destruct (spec_open_total al f s p) as ([o s'] & E). rewrite E. cbn [bind]. eauto.
  - destruct (selected s) as [b|] eqn:Es; [|eauto].
    destruct (selected_split _ _ Es) as (pre & post & E1 & _). rewrite E1 in W. apply Forall_app in W as [_ W]. inversion_clear W.
    pose proof (bexec_any (uax29 cls) al c b f Ha Hc H) as X.
    destruct (bexec (uax29 cls) al c b f) as [[[o b'] f']|]; [cbn [bind]; eauto|].
    now destruct (X (uax29_order_safe cls HL)).
  - destruct (selected s); eauto.
Qed.
Lemma workspace_no_panic cls f0 p ss w0 cs : cls LF = GC_LF -> ws_new f0 p (Some ss) = ROk w0 ->
  Forall (fun ac => alloc_ok (fst ac) /\ wcall_ok (uax29 cls) (snd ac)) cs ->
  exists os w f, wrun (uax29 cls) cs w0 f0 = Ok (os, w, f).
Proof.
  intros HL En. destruct (new_sim _ _ _ _ En) as (cp & _ & S).
  assert (W : Forall wfb (s_buffers (Shelf cp [] None 0 ss))) by constructor. clear En p. revert S W.
  generalize (Shelf cp [] None 0 ss). intros s. revert w0 s f0.
  induction cs as [|[al c] cs IH]; intros w0 s f0 S W F; cbn [wrun]; [eauto|].
  inversion_clear F as [|? ? (Ha & Hc) F']. cbn [fst snd] in *.
  destruct (spec_wcall_total cls al c s f0 HL Ha Hc W) as (o & s' & f' & E).
  pose proof (wexec_sim (uax29 cls) al c w0 s f0 S) as X. rewrite E in X. destruct X as (w1 & E1 & S1).
  rewrite E1. cbn [bind]. destruct (IH w1 s' f' S1) as (os & w & g & E2); [|assumption|rewrite E2; cbn [bind]; eauto].
  eapply wfb_changed; try eassumption. eapply spec_changed; [|eassumption]. now apply (sim_sel_ok w0).
Qed.

(** ** C40 *)

Definition ids_ok (s : shelf) : Prop :=
  NoDup (map b_id (s_buffers s)) /\ Forall (fun b => exists i, b_id b = Some i /\ i < s_given s) (s_buffers s).

Lemma bexec_id brk al c b f o b' f' : alloc_ok al -> call_ok c -> wfb b -> (forall i, c <> BSetId i) ->
  bexec brk al c b f = Ok (o, b', f') -> b_id b' = b_id b.
Proof.
  intros Ha Hc W N E. destruct (bexec_fields _ _ _ _ _ _ _ _ Ha Hc W E) as (H & _).
  destruct c; try assumption. now destruct (N i).
Qed.

Lemma ids_ok_grow s (l : list buffer) k : Forall (fun b => exists i, b_id b = Some i /\ i < s) l -> s <= k ->
  Forall (fun b => exists i, b_id b = Some i /\ i < k) l.
Proof. intros F L. eapply Forall_impl; [|eassumption]. cbv beta. intros b (i & H & Hi). exists i. split; [assumption|lia]. Qed.

Lemma nodup_mid {A} (pre post : list A) x : NoDup (pre ++ post) -> ~ In x (pre ++ post) -> NoDup (pre ++ x :: post).
Proof. intros N H. apply NoDup_Add with (a := x) (l := pre ++ post); [apply Add_app|now split]. Qed.

Lemma ids_changed brk al f s s' c : alloc_ok al -> wcall_ok brk c -> keeps_ids c -> Forall wfb (s_buffers s) ->
  changed brk al f s s' c -> ids_ok s -> ids_ok s'.
Proof.
  intros Ha Hc Hk W Ch [N F]. unfold ids_ok.
  assert (Fresh : forall b pre post, s_buffers s = pre ++ post -> s_buffers s' = pre ++ stamp s b :: post ->
    s_given s' = S (s_given s) -> NoDup (map b_id (s_buffers s')) /\
    Forall (fun b => exists i, b_id b = Some i /\ i < s_given s') (s_buffers s')).
  { intros b pre post E1 E2 E3. rewrite E1 in N, F. rewrite E2, E3. split.
    - rewrite map_app in *. cbn [map]. rewrite stamp_id. apply nodup_mid; [assumption|].
      rewrite <- map_app. intros I. apply in_map_iff in I as (x & Hx & Ix). rewrite Forall_forall in F.
      destruct (F x Ix) as (i & Hi & L). rewrite Hx in Hi. injection Hi as <-. lia.
    - apply (ids_ok_grow _ _ (S (s_given s))) in F; [|lia]. apply Forall_app in F as [F1 F2]. apply Forall_app. split; [assumption|].
      constructor; [|assumption]. exists (s_given s). split; [apply stamp_id|lia]. }
  revert Hc Hk. destruct Ch as [c' _ E E3|c' pre b post b' o f' X E1 E2 E3|pre b post E1 E2 E3|b pre post E1 E2 E3
    |p cp b pre post X _ _ E1 E2 E3|pre b post E1 E2 E3]; intros Hc Hk; try (now eapply Fresh; eassumption).
  - rewrite E, E3. now split.
  - rewrite E1 in N, F, W. rewrite E2, E3. rewrite !map_app in *. cbn [map] in *.
    apply Forall_app in W as [_ W]. inversion_clear W.
    assert (I : b_id b' = b_id b) by (eapply bexec_id; try eassumption; intros i ->; exact Hk).
    rewrite I. split; [assumption|]. apply Forall_app in F as [F1 F2]. inversion_clear F2. apply Forall_app. split; [assumption|].
    constructor; [|assumption]. now rewrite I.
  - rewrite E1 in N, F. rewrite E2, E3. rewrite !map_app in *. cbn [map] in *. split; [assumption|].
    apply Forall_app in F as [F1 F2]. inversion_clear F2. apply Forall_app. split; [assumption|]. now constructor.
  - rewrite E1 in N, F. rewrite E2, E3. rewrite !map_app in *. cbn [map] in *. split; [now apply NoDup_remove_1 in N|].
    apply Forall_app in F as [F1 F2]. inversion_clear F2. now apply Forall_app.
Qed.

Lemma ids_distinct brk w f : reachable_workspace brk keeps_ids w f ->
  NoDup (map b_id (open_buffers w)) /\ Forall (fun b => b_id b <> None) (open_buffers w).
Proof.
  intros R. destruct (reach_inv brk keeps_ids ids_ok) with (w := w) (f := f) as (s & S & W & N & F); try assumption.
  - intros p ss. split; constructor.
  - intros. eapply ids_changed; eassumption.
  - destruct (sim_shows _ _ S) as [_ ->]. split; [assumption|]. eapply Forall_impl; [|eassumption].
    cbv beta. intros b (i & -> & _). discriminate.
Qed.

Lemma put_selected s b : sel_ok s -> selected (put s b) = Some (stamp s b).
Proof.
  intros So. unfold selected, put. cbn [s_selected s_buffers].
  set (i := match s_selected s with Some i => S i | None => 0 end).
  assert (L : length (firstn i (s_buffers s)) = i).
  { apply firstn_length_le. unfold i, sel_ok in *. destruct (s_selected s); lia. }
  fold (stamp s b). generalize (skipn i (s_buffers s)). intros r. rewrite <- L at 2. apply nth_pre.
Qed.

Lemma changed_length brk al f s s' c : changed brk al f s s' c ->
  length (s_buffers s') = S (length (s_buffers s)) ->
  s_given s' = S (s_given s) /\ ((exists b, c = WAdd b) \/ exists p, c = WOpen p).
Proof.
  intros [c' _ E E3|c' pre b post b' o f' X E1 E2 E3|pre b post E1 E2 E3|b pre post E1 E2 E3
    |p cp b pre post X _ _ E1 E2 E3|pre b post E1 E2 E3] L; try rewrite E in L; try rewrite E1, E2, !app_length in L;
    cbn [length] in L; try lia; eauto.
Qed.

Lemma longer_put brk al c s f o s' f' : sel_ok s -> spec_wcall brk al c s f = Ok (o, s', f') ->
  length (s_buffers s') = S (length (s_buffers s)) -> exists b, s' = put s b.
Proof.
  intros So Es L. pose proof (spec_changed _ _ _ _ _ _ _ _ So Es) as Ch.
  destruct (changed_length _ _ _ _ _ _ Ch L) as [_ Hc].
  destruct Hc as [(b0 & ->)|(p & ->)]; cbn [spec_wcall] in Es; [injection Es as <- <- <-; eauto|].
  destruct (spec_open al f s p) as [[o2 s2]|] eqn:X; [|discriminate]. cbn [bind] in Es. injection Es as -> -> ->.
  assert (Ld : load al f' s p = Ok (o, s') -> exists b0, s' = put s b0).
  { unfold load. destruct (from_file al f' p) as [[b0|e]|]; cbn [bind]; try discriminate; intros H; injection H as <- <-; eauto.
    exfalso. lia. }
  unfold spec_open in X. destruct (fs_canon f' p) as [cp|]; [|auto].
  destruct (match selected s with Some _ => _ | None => _ end); [injection X as <- <-; exfalso; lia|].
  destruct (first_with cp (s_buffers s)); [injection X as <- <-; cbn in L; exfalso; lia|]. auto.
Qed.

Lemma gave_given brk al c w s f w' i : sim w s -> gave brk al c w f w' i ->
  exists o s' f', spec_wcall brk al c s f = Ok (o, s', f') /\ sim w' s' /\ i = s_given s /\ s_given s' = S (s_given s).
Proof.
  intros Sm (o & f' & E & L & b & Hb & Hi). pose proof (wexec_sim brk al c w s f Sm) as X.
  destruct (spec_wcall brk al c s f) as [[[o1 s1] f1]|] eqn:Es; [|congruence].
  destruct X as (w1 & E1 & S1). rewrite E in E1. injection E1 as <- <- <-.
  exists o, s1, f'. split; [reflexivity|]. split; [assumption|].
  pose proof (sim_sel_ok _ _ Sm) as So. pose proof (spec_changed _ _ _ _ _ _ _ _ So Es) as Ch.
  destruct (sim_shows _ _ Sm) as [_ O]. destruct (sim_shows _ _ S1) as [V1 O1]. rewrite O, O1 in L.
  destruct (changed_length _ _ _ _ _ _ Ch L) as [G Hc]. split; [|assumption].
  destruct (longer_put _ _ _ _ _ _ _ _ So Es L) as (b0 & ->). destruct V1 as (_ & _ & V & _). rewrite put_selected in V by assumption.
  rewrite Hb in V. injection V as ->. rewrite stamp_id in Hi. now injection Hi.
Qed.

Lemma ids_increase brk w f al c w1 i cs f1 os w2 f2 al' c' w3 j :
  reachable_workspace brk any w f -> alloc_ok al -> wcall_ok brk c -> gave brk al c w f w1 i ->
  Forall (fun ac => alloc_ok (fst ac) /\ wcall_ok brk (snd ac)) cs -> wrun brk cs w1 f1 = Ok (os, w2, f2) ->
  gave brk al' c' w2 f2 w3 j -> i < j.
Proof.
  intros R Ha Hc G F E G'. destruct (reach_sim _ _ _ _ R) as (s & S & W).
  destruct (gave_given _ _ _ _ _ _ _ _ S G) as (o & s1 & g & Es & S1 & -> & Hg).
  destruct (run_inv brk any (fun t => s_given s1 <= s_given t)) with (cs := cs) (w := w1) (s := s1) (f := f1) (os := os) (w' := w2) (f' := f2)
    as (s2 & S2 & _ & L); try assumption.
  - intros al0 g0 t t' c0 _ _ _ _ Ch L.
    destruct Ch; lia.
  - eapply wfb_changed; try eassumption. eapply spec_changed; [|eassumption]. now apply (sim_sel_ok w).
  - lia.
  - eapply Forall_impl; [|exact F]. cbv beta. intros ac [H1 H2]. split; [assumption|]. split; [assumption|exact I].
  - destruct (gave_given _ _ _ _ _ _ _ _ S2 G') as (_ & s3 & _ & _ & _ & -> & _). lia.
Qed.

Lemma ids_kept brk w f al c o w' f' : reachable_workspace brk any w f -> alloc_ok al -> wcall_ok brk c ->
  same_buffers c -> wexec brk al c w f = Ok (o, w', f') ->
  map b_id (open_buffers w') = map b_id (open_buffers w).
Proof.
  intros R Ha Hc Hs E. destruct (reach_sim _ _ _ _ R) as (s & Sm & W).
  pose proof (wexec_sim brk al c w s f Sm) as X.
  destruct (spec_wcall brk al c s f) as [[[o1 s1] f1]|] eqn:Es; [|congruence].
  destruct X as (w1 & E1 & S1). rewrite E in E1. injection E1 as <- <- <-.
  destruct (sim_shows _ _ Sm) as [_ ->]. destruct (sim_shows _ _ S1) as [_ ->].
  pose proof (spec_changed _ _ _ _ _ _ _ _ (sim_sel_ok _ _ Sm) Es) as Ch. revert Hs Hc Es E.
  destruct Ch as [c' _ Eq E3|c' pre b post b' o' g X E1 E2 E3|pre b post E1 E2 E3|b pre post E1 E2 E3
    |p cp b pre post X _ _ E1 E2 E3|pre b post E1 E2 E3]; intros Hs Hc _ _; try (now destruct Hs).
  - now rewrite Eq.
  - rewrite E1 in W. rewrite E1, E2, !map_app. cbn [map]. apply Forall_app in W as [_ W]. inversion_clear W. do 2 f_equal.
    eapply bexec_id; try eassumption. intros i ->. exact Hs.
  - now rewrite E1, E2, !map_app.
Qed.

(** The new buffer goes right after the current one. *)
Lemma gave_place brk w f al c w' i : reachable_workspace brk any w f -> gave brk al c w f w' i ->
  exists pre b post, open_buffers w = pre ++ post /\ open_buffers w' = pre ++ b :: post /\
    w_current w' = Some b /\ b_id b = Some i /\ current_buffer_index w' = Some (length pre) /\
    match current_buffer_index w with None => pre = [] | Some k => length pre = S k end.
Proof.
  intros R G. destruct (reach_sim _ _ _ _ R) as (s & Sm & _).
  destruct (gave_given _ _ _ _ _ _ _ _ Sm G) as (o & s1 & f1 & Es & S1 & -> & Hg).
  destruct G as (o' & f' & E & L & b & Hb & Hi).
  destruct (sim_shows _ _ Sm) as [V O]. destruct (sim_shows _ _ S1) as [V1 O1]. rewrite O, O1 in *.
  pose proof (sim_sel_ok _ _ Sm) as So.
  destruct (longer_put _ _ _ _ _ _ _ _ So Es L) as (b0 & ->). destruct V1 as (_ & _ & Vc & Vi & _). rewrite put_selected in Vc by assumption.
  rewrite Hb in Vc. injection Vc as ->. destruct V as (_ & _ & _ & Vj & _).
  unfold put in *. cbn [s_selected s_buffers] in *.
  set (k := match s_selected s with Some i => S i | None => 0 end) in *.
  assert (Lk : length (firstn k (s_buffers s)) = k).
  { apply firstn_length_le. unfold k, sel_ok in *. destruct (s_selected s); lia. }
  exists (firstn k (s_buffers s)), (stamp s b0), (skipn k (s_buffers s)).
  split; [symmetry; apply firstn_skipn|]. split; [reflexivity|]. split; [assumption|]. split; [apply stamp_id|].
  split; [now rewrite Vi, Lk|]. rewrite Vj, Lk. unfold k. now destruct (s_selected s).
Qed.

(** ** C41 *)

Lemma Forall2_same_length {A B} (P : A -> B -> Prop) l m : Forall2 P l m -> length l = length m.
Proof. induction 1; cbn; congruence. Qed.

Lemma selection brk w f : reachable_workspace brk any w f ->
  length (buffer_paths w) = length (open_buffers w) /\
  match current_buffer_index w with
  | None => w_current w = None /\ open_buffers w = []
  | Some i => exists b, w_current w = Some b /\ nth_error (open_buffers w) i = Some b
  end.
Proof.
  intros R. destruct (reach_sim _ _ _ _ R) as (s & Sm & _). destruct (sim_shows _ _ Sm) as [V O].
  destruct V as (_ & _ & Vc & Vi & _ & Vp). rewrite O, Vi, Vc. split.
  - apply Forall2_same_length in Vp. now rewrite <- Vp, map_length.
  - pose proof (sim_sel_ok _ _ Sm) as So. unfold sel_ok, selected in *. destruct (s_selected s) as [i|]; [|now split].
    destruct (nth_error (s_buffers s) i) as [b|] eqn:E; [eauto|]. apply nth_error_None in E. lia.
Qed.

(** ** C42 *)

Lemma reopen brk w f p cp b al : reachable_workspace brk any w f -> fs_canon f p = Some cp ->
  In b (open_buffers w) -> b_path b = Some cp ->
  exists w' b', open_buffer al f w p = Ok (ROk tt, w') /\ open_buffers w' = open_buffers w /\
    w_current w' = Some b' /\ b_path b' = Some cp.
Proof.
  intros R Hc Ib Hb. destruct (reach_sim _ _ _ _ R) as (s & Sm & _). destruct (sim_shows _ _ Sm) as [V O].
  rewrite O in *. pose proof (open_sim al f w s p Sm) as X. unfold spec_open in X. rewrite Hc in X.
  destruct V as (_ & _ & Vc & _). destruct (selected s) as [c|] eqn:Es.
  - assert (Hp : forall x, has_path cp x = true -> b_path x = Some cp).
    { intros x. unfold has_path. destruct (b_path x) as [q|]; [|discriminate]. now destruct (path_eq_dec q cp) as [->|]. }
    destruct (has_path cp c) eqn:E.
    + destruct X as (w' & X & S'). destruct (sim_shows _ _ S') as [V' O']. destruct V' as (_ & _ & Vc' & _).
      exists w', c. rewrite Vc', Es, O'. auto.
    + destruct (first_with cp (s_buffers s)) as [i|] eqn:Ei.
      * destruct X as (w' & X & S'). destruct (sim_shows _ _ S') as [V' O']. destruct V' as (_ & _ & Vc' & _).
        destruct (first_bound _ _ _ Ei) as (x & Hx & Px). exists w', x. rewrite Vc', O'. unfold selected, select. cbn. auto.
      * apply first_none in Ei. rewrite Forall_forall in Ei. specialize (Ei b Ib). unfold has_path in Ei. rewrite Hb in Ei.
        now destruct (path_eq_dec cp cp).
  - destruct (selected_none _ (sim_sel_ok _ _ Sm) Es) as [E0 _]. rewrite E0 in Ib. destruct Ib.
Qed.

Lemma open_new brk w f p cp al t : reachable_workspace brk any w f -> fs_canon f p = Some cp ->
  read_to_string f p = Some t -> (forall b, In b (open_buffers w) -> b_path b <> Some cp) ->
  exists w' pre b post, open_buffer al f w p = Ok (ROk tt, w') /\
    open_buffers w = pre ++ post /\ open_buffers w' = pre ++ b :: post /\
    w_current w' = Some b /\ b_path b = Some cp /\ buf_data b = Ok t /\ buf_modified b = false.
Proof.
  intros R Hc Ht Hn. destruct (reach_sim _ _ _ _ R) as (s & Sm & _). destruct (sim_shows _ _ Sm) as [V O].
  rewrite O in *. pose proof (open_sim al f w s p Sm) as X. unfold spec_open in X. rewrite Hc in X.
  assert (Hp : forall x, has_path cp x = true -> b_path x = Some cp).
  { intros x. unfold has_path. destruct (b_path x) as [q|]; [|discriminate]. now destruct (path_eq_dec q cp) as [->|]. }
  replace (match selected s with Some b => has_path cp b | None => false end) with false in X.
  2:{ destruct (selected s) as [c|] eqn:Es; [|reflexivity]. destruct (has_path cp c) eqn:E; [|reflexivity].
      destruct (selected_split _ _ Es) as (pre & post & E1 & _). exfalso. apply (Hn c); [|auto]. rewrite E1. apply in_elt. }
  destruct (first_with cp (s_buffers s)) as [i|] eqn:Ei.
  { destruct (first_bound _ _ _ Ei) as (x & Hx & Px). apply nth_error_In in Hx. now destruct (Hn x Hx (Hp x Px)). }
  unfold load in X.
  assert (Ef : exists b, from_file al f p = Ok (ROk b) /\ b_path b = Some cp /\ buf_data b = Ok t /\ buf_modified b = false).
  { unfold from_file. rewrite Ht, Hc.
    assert (Vt : valid_text t).
    { unfold read_to_string in Ht. destruct (fs_read f p); [|discriminate]. now apply decode_strict_valid in Ht as [? _]. }
    destruct (new_ok al t Vt) as (g & Eg & Rg). rewrite Eg. cbn [bind]. eexists. split; [reflexivity|]. split; [reflexivity|].
    split; [|reflexivity]. unfold buf_data. cbn [b_data]. apply to_string_ok in Rg. now rewrite app_nil_r in Rg. }
  destruct Ef as (b & Ef & Hpb & Hd & Hm). rewrite Ef in X. cbn [bind] in X. destruct X as (w' & X & S').
  destruct (put_split s b) as (pre & post & E1 & E2 & _). destruct (sim_shows _ _ S') as [V' O'].
  exists w', pre, (stamp s b), post. rewrite O', E1, E2. destruct V' as (_ & _ & Vc' & _).
  rewrite Vc', put_selected by now apply (sim_sel_ok w). rewrite stamp_path. unfold buf_data. rewrite stamp_data.
  split; [assumption|]. split; [reflexivity|]. split; [reflexivity|]. split; [reflexivity|]. split; [assumption|].
  split; [assumption|]. unfold stamp. now destruct (b_syntax b).
Qed.

Lemma failing_open al f w p e w' : open_buffer al f w p = Ok (RErr e, w') -> w' = w.
Proof.
  unfold open_buffer, select_buffer_by_path.
  assert (L : forall w1 : workspace, (let* r := from_file al f p in
    match r with RErr e => Ok (RErr e, w1) | ROk b => let* w2 := add_buffer al w1 b in Ok (ROk tt, w2) end) = Ok (RErr e, w') -> w' = w1).
  { intros w1. destruct (from_file al f p) as [[b|e']|]; cbn [bind]; try discriminate.
    - destruct (add_buffer al w1 b); discriminate.
    - intros E. now injection E. }
  destruct (fs_canon f p) as [cp|]; [|apply L]. destruct (path_is _ cp); [discriminate|].
  destruct (find_index _ (w_buffers w)) as [i|] eqn:Ei; [|apply L].
  unfold select_buffer. intros E.
  assert (Li : i < length (w_buffers w)).
  { assert (G : forall (g : buffer -> bool) l j, find_index g l = Some j -> j < length l).
    { intros g l. induction l as [|x l IH]; intros j; cbn [find_index length]; [discriminate|].
      destruct (g x); [intros H; injection H as <-; lia|]. destruct (find_index g l) as [k|]; [|discriminate].
      intros H. injection H as <-. specialize (IH k eq_refl). lia. }
    now apply G in Ei. }
  exfalso.
  destruct (w_current w) as [c|].
  - destruct (w_index w) as [j|]; [|discriminate]. destruct (get (w_buffers w) j) as [x|]; [|discriminate]. cbn [bind] in E.
    destruct (upd (w_buffers w) j c) as [bs|] eqn:Eu; [|discriminate]. apply upd_length in Eu. cbn [bind w_buffers w_path w_next_id w_syntaxes] in E.
    destruct (nth_error bs i) as [t|] eqn:En; [|apply nth_error_None in En; lia].
    destruct (buffer_new al) as [bl|]; [|discriminate]. cbn [bind] in E. destruct (upd bs i bl); discriminate.
  - cbn [bind] in E. destruct (nth_error (w_buffers w) i) as [t|] eqn:En; [|apply nth_error_None in En; lia].
    destruct (buffer_new al) as [bl|]; [|discriminate]. cbn [bind] in E. destruct (upd (w_buffers w) i bl); discriminate.
Qed.

(** Why an open fails. *)
Lemma open_fails_when brk al f w p : reachable_workspace brk any w f ->
  ((exists cp, fs_canon f p = Some cp /\ ((exists b, In b (open_buffers w) /\ b_path b = Some cp) \/ read_to_string f p <> None)) ->
   exists w', open_buffer al f w p = Ok (ROk tt, w')) /\
  ((forall cp, fs_canon f p = Some cp -> (forall b, In b (open_buffers w) -> b_path b <> Some cp) /\ read_to_string f p = None) ->
   exists w', open_buffer al f w p = Ok (RErr IoError, w')).
Proof.
  intros R. split.
  - intros (cp & Hc & [(b & Ib & Hb)|Ht]).
    + destruct (reopen brk w f p cp b al R Hc Ib Hb) as (w' & _ & E & _). eauto.
    + destruct (Exists_dec (fun b => b_path b = Some cp) (open_buffers w)) as [Ex|Nx].
      { intros b. destruct (b_path b) as [q|]; [|now right]. destruct (path_eq_dec q cp) as [->|N]; [now left|right; congruence]. }
      * apply Exists_exists in Ex as (b & Ib & Hb). destruct (reopen brk w f p cp b al R Hc Ib Hb) as (w' & _ & E & _). eauto.
      * destruct (read_to_string f p) as [t|] eqn:Et; [|now destruct Ht].
        destruct (open_new brk w f p cp al t R Hc Et) as (w' & pre & b & post & E & _); [|eauto].
        intros b Ib Hb. apply Nx, Exists_exists. eauto.
  - intros H. destruct (reach_sim _ _ _ _ R) as (s & Sm & _). destruct (sim_shows _ _ Sm) as [_ O].
    pose proof (open_sim al f w s p Sm) as X. unfold spec_open, load, from_file in X.
    destruct (fs_canon f p) as [cp|] eqn:Ec.
    + destruct (H cp eq_refl) as [Hn Hr]. rewrite O in Hn.
      assert (Hp : forall x, has_path cp x = true -> b_path x = Some cp).
      { intros x. unfold has_path. destruct (b_path x) as [q|]; [|discriminate]. now destruct (path_eq_dec q cp) as [->|]. }
      replace (match selected s with Some b => has_path cp b | None => false end) with false in X.
      2:{ destruct (selected s) as [c|] eqn:Es; [|reflexivity]. destruct (has_path cp c) eqn:E; [|reflexivity].
          destruct (selected_split _ _ Es) as (pre & post & E1 & _). exfalso. apply (Hn c); [|auto]. rewrite E1. apply in_elt. }
      destruct (first_with cp (s_buffers s)) as [i|] eqn:Ei.
      { destruct (first_bound _ _ _ Ei) as (x & Hx & Px). apply nth_error_In in Hx. now destruct (Hn x Hx (Hp x Px)). }
      rewrite Hr in X. cbn [bind] in X. destruct X as (w' & X & _). eauto.
    + destruct (read_to_string f p) as [t|] eqn:Et; cbn [bind] in X.
      * assert (Vt : valid_text t).
        { unfold read_to_string in Et. destruct (fs_read f p); [|discriminate]. now apply decode_strict_valid in Et as [? _]. }
        destruct (new_ok al t Vt) as (g & Eg & _). rewrite Eg in X. cbn [bind] in X. destruct X as (w' & X & _). eauto.
      * destruct X as (w' & X & _). eauto.
Qed.

Lemma paths_changed brk al f s s' c : alloc_ok al -> wcall_ok brk c -> only_opens c -> Forall wfb (s_buffers s) ->
  changed brk al f s s' c -> NoDup (map b_path (s_buffers s)) -> NoDup (map b_path (s_buffers s')).
Proof.
  intros Ha Hc Hk W Ch N.
  revert Hc Hk. destruct Ch as [c' _ E E3|c' pre b post b' o f' X E1 E2 E3|pre b post E1 E2 E3|b pre post E1 E2 E3
    |p cp b pre post X Hcp Hn E1 E2 E3|pre b post E1 E2 E3]; intros Hc Hk.
  - now rewrite E.
  - rewrite E1 in N, W. rewrite E2. rewrite !map_app in *. cbn [map] in *.
    apply Forall_app in W as [_ W]. inversion_clear W.
    destruct (bexec_fields _ _ _ _ _ _ _ _ Ha Hc H X) as (_ & P & _).
    destruct c'; try (now rewrite P).
  - rewrite E1 in N. rewrite E2. now rewrite !map_app in *.
  - destruct Hk.
  - rewrite E1 in N, Hn. rewrite E2. rewrite map_app in *. cbn [map]. rewrite stamp_path. apply nodup_mid; [assumption|].
    destruct (from_file_canon _ _ _ _ X) as (cp' & Hc' & Hp & _). rewrite Hp. replace cp' with cp by congruence.
    rewrite <- map_app. intros I. apply in_map_iff in I as (x & Hx & Ix). rewrite Forall_forall in Hn.
    specialize (Hn x Ix). unfold has_path in Hn. rewrite Hx in Hn. now destruct (path_eq_dec cp cp).
  - rewrite E1 in N. rewrite E2. rewrite !map_app in *. cbn [map] in *. now apply NoDup_remove_1 in N.
Qed.
Lemma no_duplicates brk w f : reachable_workspace brk only_opens w f -> NoDup (map b_path (open_buffers w)).
Proof.
  intros R. destruct (reach_inv brk only_opens (fun s => NoDup (map b_path (s_buffers s)))) with (w := w) (f := f) as (s & S & W & N); try assumption.
  - constructor.
  - intros. eapply paths_changed; eassumption.
  - now destruct (sim_shows _ _ S) as [_ ->].
Qed.

(** ** C43 *)

Lemma sim_view w s w' s' : sim w s -> sim w' s' -> s' = s -> same_view w w'.
Proof.
  intros S S' ->. destruct (sim_shows _ _ S) as [(V1 & V2 & V3 & V4 & _) O]. destruct (sim_shows _ _ S') as [(U1 & U2 & U3 & U4 & _) O'].
  unfold same_view. unfold current_buffer_index in *. repeat split; congruence.
Qed.
Lemma turn_turn s a b : turn (turn s a) b = turn s (a + b).
Proof.
  unfold turn. destruct (s_selected s) as [i|] eqn:E; [|now rewrite E]. cbn [select s_selected s_buffers]. unfold select. cbn.
  f_equal. f_equal. destruct (length (s_buffers s)) as [|n] eqn:En; [cbn; lia|]. rewrite Nat.add_mod_idemp_l by lia. f_equal. lia.
Qed.
Lemma turn_all s : sel_ok s -> turn s (length (s_buffers s)) = s.
Proof.
  unfold turn, sel_ok. destruct (s_selected s) as [i|] eqn:E; [|reflexivity]. intros L. unfold select. destruct s. cbn in *. f_equal.
  rewrite E. f_equal. replace (i + length s_buffers) with (i + 1 * length s_buffers) by lia. rewrite Nat.mod_add by lia. now apply Nat.mod_small.
Qed.
Lemma turn_length s k : length (s_buffers (turn s k)) = length (s_buffers s).
Proof. unfold turn. now destruct (s_selected s). Qed.

Lemma next_then_previous brk w f al al' : reachable_workspace brk any w f ->
  exists w1 w2, next_buffer al w = Ok w1 /\ previous_buffer al' w1 = Ok w2 /\ same_view w w2.
Proof.
  intros R. destruct (reach_sim _ _ _ _ R) as (s & Sm & _).
  destruct (next_sim al _ _ Sm) as (w1 & E1 & S1). destruct (previous_sim al' _ _ S1) as (w2 & E2 & S2).
  exists w1, w2. split; [assumption|]. split; [assumption|]. eapply sim_view; try eassumption.
  pose proof (sim_sel_ok _ _ Sm) as So.
  rewrite turn_length, turn_turn. destruct (s_selected s) as [i|] eqn:E; [|unfold turn; now rewrite E].
  transitivity (turn s (length (s_buffers s))); [|now apply turn_all].
  f_equal. unfold sel_ok in So. rewrite E in So. lia.
Qed.
Lemma previous_then_next brk w f al al' : reachable_workspace brk any w f ->
  exists w1 w2, previous_buffer al w = Ok w1 /\ next_buffer al' w1 = Ok w2 /\ same_view w w2.
Proof.
  intros R. destruct (reach_sim _ _ _ _ R) as (s & Sm & _).
  destruct (previous_sim al _ _ Sm) as (w1 & E1 & S1). destruct (next_sim al' _ _ S1) as (w2 & E2 & S2).
  exists w1, w2. split; [assumption|]. split; [assumption|]. eapply sim_view; try eassumption.
  pose proof (sim_sel_ok _ _ Sm) as So.
  rewrite turn_turn. destruct (s_selected s) as [i|] eqn:E; [|unfold turn; now rewrite E].
  transitivity (turn s (length (s_buffers s))); [|now apply turn_all].
  f_equal. unfold sel_ok in So. rewrite E in So. lia.
Qed.

Lemma nexts_sim als : forall w s, sim w s -> exists w', nexts als w = Ok w' /\ sim w' (turn s (length als)).
Proof.
  induction als as [|al als IH]; intros w s Sm; cbn [nexts length].
  - exists w. split; [reflexivity|]. pose proof (sim_sel_ok _ _ Sm) as So. unfold turn, sel_ok in *.
    destruct (s_selected s) as [i|] eqn:E; [|assumption]. rewrite Nat.add_0_r, Nat.mod_small by assumption.
    unfold select. destruct s. cbn in *. now rewrite <- E.
  - destruct (next_sim al _ _ Sm) as (w1 & E1 & S1). rewrite E1. cbn [bind]. destruct (IH _ _ S1) as (w' & E & S').
    exists w'. split; [assumption|]. now rewrite turn_turn in S'.
Qed.

Lemma nexts_cycle brk w f als : reachable_workspace brk any w f -> length als = length (open_buffers w) ->
  exists w', nexts als w = Ok w' /\ same_view w w'.
Proof.
  intros R L. destruct (reach_sim _ _ _ _ R) as (s & Sm & _). destruct (sim_shows _ _ Sm) as [_ O]. rewrite O in L.
  destruct (nexts_sim als _ _ Sm) as (w' & E & S'). exists w'. split; [assumption|]. eapply sim_view; try eassumption.
  rewrite L. apply turn_all. now apply (sim_sel_ok w).
Qed.

(** Each buffer is met once on the way round. *)
Lemma nexts_visit brk w f j b : reachable_workspace brk any w f -> nth_error (open_buffers w) j = Some b ->
  exists k, k < length (open_buffers w) /\
    (forall als, length als = k -> exists w', nexts als w = Ok w' /\ open_buffers w' = open_buffers w /\
        current_buffer_index w' = Some j /\ w_current w' = Some b) /\
    (forall als w', length als < length (open_buffers w) -> nexts als w = Ok w' ->
        current_buffer_index w' = Some j -> length als = k).
Proof.
  intros R Hj. destruct (reach_sim _ _ _ _ R) as (s & Sm & _). destruct (sim_shows _ _ Sm) as [_ O]. rewrite O in *.
  pose proof (sim_sel_ok _ _ Sm) as So. unfold sel_ok in So.
  destruct (s_selected s) as [i|] eqn:Ei; [|rewrite So in Hj; now destruct j].
  assert (Lj : j < length (s_buffers s)) by (apply nth_error_Some; congruence).
  set (n := length (s_buffers s)) in *.
  exists ((n + j - i) mod n). split; [apply Nat.mod_upper_bound; lia|]. split.
  - intros als L. destruct (nexts_sim als _ _ Sm) as (w' & E & S'). destruct (sim_shows _ _ S') as [V' O'].
    destruct V' as (_ & _ & Vc & Vi & _). exists w'. split; [assumption|].
    assert (Es : turn s (length als) = select s j).
    { unfold turn. rewrite Ei. f_equal. fold n. rewrite L, Nat.add_mod_idemp_r by lia.
      replace (i + (n + j - i)) with (j + 1 * n) by lia. rewrite Nat.mod_add by lia. now apply Nat.mod_small. }
    rewrite O', Vc, Vi, Es. unfold selected. cbn. auto.
  - intros als w' L E H. destruct (nexts_sim als _ _ Sm) as (w1 & E1 & S'). rewrite E in E1. injection E1 as <-.
    destruct (sim_shows _ _ S') as [(_ & _ & _ & Vi & _) _]. rewrite Vi in H. unfold turn in H. rewrite Ei in H. cbn in H. fold n in H.
    injection H as H. set (a := length als) in *.
    destruct (Nat.lt_ge_cases (i + a) n) as [G|G].
    + rewrite Nat.mod_small in H by lia. replace (n + j - i) with (a + 1 * n) by lia. rewrite Nat.mod_add, Nat.mod_small by lia. reflexivity.
    + replace (i + a) with (i + a - n + 1 * n) in H by lia. rewrite Nat.mod_add, Nat.mod_small in H by lia.
      replace (n + j - i) with a by lia. now rewrite Nat.mod_small by lia.
Qed.

(** ** C44 *)

Lemma closing brk w f al : reachable_workspace brk any w f ->
  match current_buffer_index w with
  | None => close_current_buffer al w = Ok w
  | Some i => exists w' pre b post, close_current_buffer al w = Ok w' /\
      open_buffers w = pre ++ b :: post /\ length pre = i /\ w_current w = Some b /\
      open_buffers w' = pre ++ post /\
      (pre ++ post = [] -> current_buffer_index w' = None /\ w_current w' = None) /\
      (pre ++ post <> [] -> current_buffer_index w' = Some (i - 1) /\ w_current w' = nth_error (pre ++ post) (i - 1)
         /\ w_current w' <> None)
  end.
Proof.
  intros R. destruct (reach_sim _ _ _ _ R) as (s & Sm & _). destruct (sim_shows _ _ Sm) as [(_ & _ & Vc & Vi & _) O].
  rewrite Vi. destruct (s_selected s) as [i|] eqn:Ei.
  - pose proof (sim_sel_ok _ _ Sm) as So. unfold sel_ok in So. rewrite Ei in So.
    destruct (nth_error (s_buffers s) i) as [b|] eqn:Eb; [|apply nth_error_None in Eb; lia].
    destruct (split_at _ _ _ Eb) as (pre & post & E1 & L).
    destruct (close_sim al _ _ Sm) as (w' & E & S'). destruct (sim_shows _ _ S') as [(_ & _ & Uc & Ui & _) O'].
    exists w', pre, b, post. rewrite O, O', Vc, Uc, Ui. unfold selected at 1. rewrite Ei, Eb.
    unfold spec_close. rewrite Ei. unfold selected. cbn [s_buffers s_selected]. rewrite E1, <- L, firstn_pre, skipn_S_pre.
    split; [assumption|]. split; [reflexivity|]. split; [reflexivity|]. split; [reflexivity|]. split; [reflexivity|].
    split; [now intros ->|]. destruct (pre ++ post) as [|x r] eqn:Er; [now intros []|]. intros _.
    split; [reflexivity|]. split; [reflexivity|]. rewrite <- Er. apply nth_error_Some. rewrite app_length.
    destruct post; cbn; [|lia]. destruct pre; [discriminate|]. cbn. lia.
  - destruct Sm; [reflexivity|discriminate].
Qed.

(** ** C45 *)

Lemma paths_shown brk w f : reachable_workspace brk any w f ->
  Forall2 (shown (w_path w)) (map b_path (open_buffers w)) (buffer_paths w) /\
  match current_buffer_index w with
  | Some i => nth_error (buffer_paths w) i = Some (current_buffer_path w)
  | None => current_buffer_path w = None
  end.
Proof.
  intros R. destruct (reach_sim _ _ _ _ R) as (s & Sm & _). destruct (sim_shows _ _ Sm) as [(V1 & _ & Vc & Vi & Vp & Vs) O].
  rewrite O, V1. split; [assumption|]. rewrite Vi. destruct Sm as [|p pre bl post n b ss H]; [reflexivity|].
  cbn [s_selected]. unfold buffer_paths. cbn [w_index w_buffers].
  rewrite app_length. cbn [length]. rewrite seq_app. cbn [seq plus].
  assert (C : forall (a : list buffer) (x y : list nat) (c : list buffer), length x = length a ->
    combine (x ++ y) (a ++ c) = combine x a ++ combine y c).
  { induction a as [|d a IH]; intros [|m x] y c L; try discriminate; [reflexivity|].
    cbn. f_equal. apply IH. now injection L. }
  rewrite C by apply seq_length. rewrite map_app. cbn [combine map].
  rewrite nth_error_app2; rewrite map_length, combine_length, seq_length, Nat.min_id; [|lia].
  rewrite Nat.sub_diag. cbn [nth_error]. now rewrite Nat.eqb_refl.
Qed.

Lemma shown_join base p q : shown base (Some p) (Some q) -> absolute p -> join_path base q = p.
Proof.
  intros [(r & -> & E)|(N & E)] (x & Ex & Hx); injection E as ->.
  - destruct base as [|c base]; cbn [app] in *; [rewrite Ex; reflexivity|].
    injection Ex as -> Ex. subst x. unfold join_path. destruct r as [|[] r]; try reflexivity. destruct Hx. apply in_elt.
  - now rewrite Ex.
Qed.

(** ** C46 *)

Lemma syntax_changed brk al f s s' c : alloc_ok al -> wcall_ok brk c -> keeps_syntax c -> Forall wfb (s_buffers s) ->
  changed brk al f s s' c -> Forall (fun b => b_syntax b <> None) (s_buffers s) -> Forall (fun b => b_syntax b <> None) (s_buffers s').
Proof.
  intros Ha Hc Hk W Ch F.
  revert Hc Hk. destruct Ch as [c' _ E E3|c' pre b post b' o f' X E1 E2 E3|pre b post E1 E2 E3|b pre post E1 E2 E3
    |p cp b pre post X Hcp Hn E1 E2 E3|pre b post E1 E2 E3]; intros Hc Hk.
  - now rewrite E.
  - rewrite E1 in F, W. rewrite E2. apply Forall_app in W as [_ W]. inversion_clear W.
    apply Forall_app in F as [F1 F2]. inversion_clear F2. apply Forall_app. split; [assumption|]. constructor; [|assumption].
    destruct (bexec_fields _ _ _ _ _ _ _ _ Ha Hc H X) as (_ & _ & P & _). rewrite P.
    destruct c'; try assumption. cbn in Hk. destruct s0; [discriminate|destruct Hk].
  - rewrite E1 in F. rewrite E2. apply Forall_app in F as [F1 F2]. inversion_clear F2. apply Forall_app. split; [assumption|].
    constructor; [discriminate|assumption].
  - rewrite E1 in F. rewrite E2. apply Forall_app in F as [F1 F2]. apply Forall_app. split; [assumption|].
    constructor; [apply stamp_syntax|assumption].
  - rewrite E1 in F. rewrite E2. apply Forall_app in F as [F1 F2]. apply Forall_app. split; [assumption|].
    constructor; [apply stamp_syntax|assumption].
  - rewrite E1 in F. rewrite E2. apply Forall_app in F as [F1 F2]. inversion_clear F2. now apply Forall_app.
Qed.
Lemma tokens_available brk w f : reachable_workspace brk keeps_syntax w f ->
  match w_current w with
  | None => open_buffers w = [] /\ current_buffer_tokens w = Ok (RErr EmptyWorkspace)
  | Some b => exists t y, buf_data b = Ok t /\ b_syntax b = Some y /\ current_buffer_tokens w = Ok (ROk (TS t y))
  end.
Proof.
  intros R. destruct (reach_inv brk keeps_syntax (fun s => Forall (fun b => b_syntax b <> None) (s_buffers s))) with (w := w) (f := f) as (s & Sm & W & F); try assumption.
  - constructor.
  - intros. eapply syntax_changed; eassumption.
  - destruct (sim_shows _ _ Sm) as [(_ & _ & Vc & _) O]. unfold current_buffer_tokens. rewrite O, Vc.
    destruct (selected s) as [b|] eqn:Es.
    + destruct (selected_split _ _ Es) as (pre & post & E1 & _). rewrite E1 in F, W.
      apply Forall_app in F as [_ F]. inversion_clear F. apply Forall_app in W as [_ W]. inversion_clear W.
      destruct (wfb_data_total b) as (t & Et & _); [assumption|]. destruct (b_syntax b) as [y|]; [|easy].
      exists t, y. rewrite Et. auto.
    + split; [|reflexivity]. now destruct (selected_none _ (sim_sel_ok _ _ Sm) Es).
Qed.

Lemma tokens_outcome brk w f : reachable_workspace brk any w f ->
  match w_current w with
  | None => open_buffers w = [] /\ current_buffer_tokens w = Ok (RErr EmptyWorkspace)
  | Some b => exists t, buf_data b = Ok t /\
      current_buffer_tokens w =
        Ok (match b_syntax b with Some y => ROk (TS t y) | None => RErr MissingSyntax end)
  end.
Proof.
  intros R. destruct (reach_inv brk any (fun _ => True)) with (w := w) (f := f) as (s & Sm & W & _); try easy.
  destruct (sim_shows _ _ Sm) as [(_ & _ & Vc & _) O]. unfold current_buffer_tokens. rewrite O, Vc.
  destruct (selected s) as [b|] eqn:Es.
  - destruct (selected_split _ _ Es) as (pre & post & E1 & _). rewrite E1 in W.
    apply Forall_app in W as [_ W]. inversion_clear W.
    destruct (wfb_data_total b) as (t & Et & _); [assumption|]. exists t. split; [assumption|].
    rewrite Et. now destruct (b_syntax b).
  - split; [|reflexivity]. now destruct (selected_none _ (sim_sel_ok _ _ Sm) Es).
Qed.

(** ** Choosing a syntax *)

Lemma added_syntax brk w f al b : reachable_workspace brk any w f ->
  exists w' b', add_buffer al w b = Ok w' /\ w_current w' = Some b' /\
    b_data b' = b_data b /\ b_path b' = b_path b /\ b_cursor b' = b_cursor b /\ b_history b' = b_history b /\
    b_syntax b' = match b_syntax b with Some y => Some y | None => Some (syntax_for (w_syntaxes w) b) end.
Proof.
  intros R. destruct (reach_sim _ _ _ _ R) as (s & Sm & _). destruct (sim_shows _ _ Sm) as [(_ & Vs & _) _].
  destruct (add_sim al w s b Sm) as (w' & E & S'). destruct (sim_shows _ _ S') as [(_ & _ & Vc & _) _].
  exists w', (stamp s b). rewrite Vc, put_selected by now apply (sim_sel_ok w). rewrite Vs. unfold stamp.
  destruct (b_syntax b) eqn:Eb; cbn; repeat (split; [easy|]); assumption || reflexivity.
Qed.
Lemma updated_syntax brk w f : reachable_workspace brk any w f ->
  match w_current w with
  | None => update_current_syntax w = (RErr EmptyWorkspace, w)
  | Some b => exists w', update_current_syntax w = (ROk tt, w') /\
      w_current w' = Some (set_syntax b (Some (syntax_for (w_syntaxes w) b)))
  end.
Proof.
  intros R. destruct (reach_sim _ _ _ _ R) as (s & Sm & _). destruct (sim_shows _ _ Sm) as [(_ & Vs & Vc & _) _]. rewrite Vc, Vs.
  destruct (selected s) as [b|] eqn:Es.
  - destruct (update_sim w s Sm) as (c & w' & Ec & E & S'); [congruence|]. rewrite Es in Ec. injection Ec as <-.
    exists w'. split; [assumption|]. destruct (sim_shows _ _ S') as [(_ & _ & Uc & _) _]. rewrite Uc.
    destruct (selected_split _ _ Es) as (pre & post & E1 & E2). unfold replace_selected, selected. rewrite E2. cbn [s_selected s_buffers].
    now rewrite E1, firstn_pre, skipn_S_pre, nth_pre.
  - destruct Sm as [|p pre bl post n b ss H]; [reflexivity|]. unfold selected in Es. cbn [s_selected s_buffers] in Es. rewrite nth_pre in Es. discriminate.
Qed.

(** The fields of a buffer that only assignments change. *)
Lemma only_assigned brk al c b f o b' f' : reachable_buffer brk b f -> alloc_ok al -> call_ok c ->
  bexec brk al c b f = Ok (o, b', f') ->
  b_id b' = match c with BSetId i => i | _ => b_id b end /\
  b_path b' = match c with BSetPath p => p | _ => b_path b end /\
  b_syntax b' = match c with BSetSyntax y => y | _ => b_syntax b end /\
  b_callback b' = match c with BSetCallback on => on | _ => b_callback b end.
Proof. intros R Ha Hc. apply bexec_fields; try assumption. now apply (reachable_wfb brk b f). Qed.

(** ** Taking the current buffer *)

Lemma taken_leaves_blank brk w f al : reachable_workspace brk any w f ->
  forall b, w_current w = Some b ->
  exists w' pre post blank, next_buffer al (take_current w) = Ok w' /\
    open_buffers w = pre ++ b :: post /\ open_buffers w' = pre ++ blank :: post /\
    b_path blank = None /\ b_id blank = None /\ buf_data blank = Ok [].
Proof.
  intros R. destruct (reach_sim _ _ _ _ R) as (s & Sm & _). destruct (sim_shows _ _ Sm) as [_ O]. rewrite O. clear R O.
  destruct Sm as [p n ss|p pre bl post n c ss H]; cbn [w_current]; [discriminate|].
  intros b Hb. injection Hb as <-. unfold next_buffer, take_current. cbn [w_index w_buffers w_path w_next_id w_syntaxes].
  set (m := length (pre ++ bl :: post)).
  assert (Lp : length pre < m) by (unfold m; rewrite app_length; cbn; lia).
  unfold usub. destruct (Nat.leb_spec 1 m) as [_|?]; [|lia]. cbn [bind].
  assert (G : forall j, j < m -> exists w', (let* (_, w') := select_buffer al (WS p (pre ++ bl :: post) n None (Some (length pre)) ss) j in Ok w') = Ok w'
     /\ open_buffers w' = pre ++ bl :: post).
  { intros j Lj. destruct (check_out al p (pre ++ bl :: post) n (Some (length pre)) ss j Lj) as (w' & E & S'). rewrite E. cbn [bind].
    exists w'. split; [reflexivity|]. now destruct (sim_shows _ _ S') as [_ ->]. }
  destruct H as (H1 & H2 & H3 & _).
  destruct (Nat.eqb_spec (length pre) (m - 1)) as [E|E].
  - destruct (G 0) as (w' & E' & O'); [lia|]. exists w', pre, post, bl. rewrite E'. auto 8.
  - destruct (G (length pre + 1)) as (w' & E' & O'); [lia|]. exists w', pre, post, bl. rewrite E'. auto 8.
Qed.
