(** A workspace behaves like the plain list of WorkspaceSpec.v. *)
From Verif Require Import Base Utf8 Utf8Proofs Grapheme GraphemeProofs Position GapBuffer
  GapBufferProofs Cursor PathModel Buffer Spec CursorSpec Calls CursorCalls TextProofs UaxProofs HalvesProofs TextFacts
  GapProps CursorProofs OpProofs BufferCalls Timeline TimelineProofs AnyTextProofs BufferProps
  BufferIoProps BufferFacts Token Workspace WorkspaceSpec.

(** ** Lists *)

Lemma split_at {A} (l : list A) i x : nth_error l i = Some x ->
  exists a b, l = a ++ x :: b /\ length a = i.
Proof. intros H. apply nth_error_split in H as (a & b & E & L). eauto. Qed.
Lemma firstn_pre {A} (a b : list A) : firstn (length a) (a ++ b) = a.
Proof. rewrite firstn_app, Nat.sub_diag, firstn_all. cbn. apply app_nil_r. Qed.
Lemma skipn_pre {A} (a b : list A) : skipn (length a) (a ++ b) = b.
Proof. now rewrite skipn_app, Nat.sub_diag, skipn_all. Qed.
Lemma skipn_S_pre {A} (a b : list A) x : skipn (S (length a)) (a ++ x :: b) = b.
Proof.
  replace (a ++ x :: b) with ((a ++ [x]) ++ b) by now rewrite <- app_assoc.
  replace (S (length a)) with (length (a ++ [x])) by (rewrite app_length; cbn; lia). apply skipn_pre.
Qed.
Lemma firstn_S_pre {A} (a b : list A) x : firstn (S (length a)) (a ++ x :: b) = a ++ [x].
Proof.
  replace (a ++ x :: b) with ((a ++ [x]) ++ b) by now rewrite <- app_assoc.
  replace (S (length a)) with (length (a ++ [x])) by (rewrite app_length; cbn; lia). apply firstn_pre.
Qed.
Lemma nth_pre {A} (a b : list A) x : nth_error (a ++ x :: b) (length a) = Some x.
Proof. rewrite nth_error_app2, Nat.sub_diag by lia. reflexivity. Qed.

Definition is_blank (b : buffer) : Prop :=
  b_path b = None /\ b_id b = None /\ buf_data b = Ok [] /\ exists al, buffer_new al = Ok b.
Lemma buffer_new_blank al : exists b, buffer_new al = Ok b /\ is_blank b.
Proof.
  unfold buffer_new. destruct (new_ok al []) as (g & E & R); [constructor|]. rewrite E. cbn [bind].
  eexists. split; [reflexivity|]. split; [reflexivity|]. split; [reflexivity|].
  split; [apply to_string_ok in R; exact R|]. exists al. unfold buffer_new. now rewrite E.
Qed.

(** ** The simulation: the workspace holds the list with a pathless buffer in
    place of the selected one, which it keeps aside. *)
Inductive sim : workspace -> shelf -> Prop :=
| sim_empty p n ss : sim (WS p [] n None None ss) (Shelf p [] None n ss)
| sim_some p pre blank post n b ss : is_blank blank ->
  sim (WS p (pre ++ blank :: post) n (Some b) (Some (length pre)) ss)
      (Shelf p (pre ++ b :: post) (Some (length pre)) n ss).

Lemma sim_at p pre blank post n b ss i : is_blank blank -> length pre = i ->
  sim (WS p (pre ++ blank :: post) n (Some b) (Some i) ss) (Shelf p (pre ++ b :: post) (Some i) n ss).
Proof. intros H <-. now constructor. Qed.

(** Checking out from a complete list. *)
Lemma check_out al p bs n ix ss j : j < length bs ->
  exists w', select_buffer al (WS p bs n None ix ss) j = Ok (true, w') /\ sim w' (Shelf p bs (Some j) n ss).
Proof.
  intros H. destruct (nth_error bs j) as [t|] eqn:E; [|now apply nth_error_None in E; lia].
  destruct (split_at _ _ _ E) as (a & b & -> & L). destruct (buffer_new_blank al) as (bl & Eb & Hb).
  unfold select_buffer. cbn [w_current w_buffers bind w_path w_next_id w_syntaxes]. rewrite E, Eb. cbn [bind].
  rewrite upd_app by auto. cbn [bind]. eexists. split; [reflexivity|]. now apply sim_at.
Qed.
(** With a buffer checked out, it goes back first. *)
Lemma check_in al p pre blank post n b ss j :
  j < length (pre ++ b :: post) -> exists w',
  select_buffer al (WS p (pre ++ blank :: post) n (Some b) (Some (length pre)) ss) j = Ok (true, w')
  /\ sim w' (Shelf p (pre ++ b :: post) (Some j) n ss).
Proof.
  intros H. destruct (check_out al p (pre ++ b :: post) n (Some (length pre)) ss j H) as (w' & E & S).
  exists w'. split; [|assumption]. rewrite <- E. unfold select_buffer.
  cbn [w_current w_index w_buffers w_path w_next_id w_syntaxes].
  rewrite get_app, upd_app by auto. cbn [bind w_current w_index w_buffers w_path w_next_id w_syntaxes].
  destruct (nth_error (pre ++ b :: post) j) eqn:X; [reflexivity|]. apply nth_error_None in X. lia.
Qed.

Lemma select_sim al w s j : sim w s -> s_selected s <> None -> j < length (s_buffers s) ->
  exists w', select_buffer al w j = Ok (true, w') /\ sim w' (select s j).
Proof.
  intros [p n ss|p pre blank post n b ss Hb] H L; [now destruct H|]. cbn [s_buffers] in L.
  apply check_in; assumption.
Qed.

(** ** Each call *)

Lemma update_sim w s : sim w s -> selected s <> None ->
  exists b w', selected s = Some b /\ update_current_syntax w = (ROk tt, w')
    /\ sim w' (replace_selected s (set_syntax b (Some (syntax_for (s_syntaxes s) b)))).
Proof.
  intros [p n ss|p pre blank post n b ss Hb] H; [now destruct H|].
  unfold selected, replace_selected. cbn [s_selected s_buffers s_path s_given s_syntaxes].
  rewrite nth_pre, firstn_pre, skipn_S_pre. eexists. eexists. split; [reflexivity|].
  unfold update_current_syntax. cbn [w_current w_buffers w_path w_next_id w_syntaxes w_index].
  split; [reflexivity|].
  assert (E : (match (match (match buf_file_extension b with Some e => Some e | None => buf_file_name b end) with
              | Some ex => ss_find ss ex | None => None end) with
              | Some s => Some s | None => Some (ss_plain ss) end) = Some (syntax_for ss b)).
  { unfold syntax_for. destruct (buf_file_extension b) as [e|]; [now destruct (ss_find ss e)|].
    destruct (buf_file_name b) as [m|]; [now destruct (ss_find ss m)|reflexivity]. }
  rewrite E. now constructor.
Qed.

Lemma add_sim al w s b : sim w s -> exists w', add_buffer al w b = Ok w' /\ sim w' (put s b).
Proof.
  intros S. unfold add_buffer.
  assert (X : exists bs, let i := match s_selected s with Some i => Datatypes.S i | None => 0 end in
    vec_insert (w_buffers w) (match w_index w with Some i => i + 1 | None => 0 end) (set_id b (Some (w_next_id w))) = Ok bs /\
    exists w', select_buffer al (WS (w_path w) bs (w_next_id w + 1) (w_current w) (w_index w) (w_syntaxes w))
      (match w_index w with Some i => i + 1 | None => 0 end) = Ok (true, w')
    /\ sim w' (Shelf (s_path s) (firstn i (s_buffers s) ++ set_id b (Some (s_given s)) :: skipn i (s_buffers s)) (Some i)
                     (Datatypes.S (s_given s)) (s_syntaxes s))).
  { destruct S as [p n ss|p pre blank post n c ss Hb]; cbn [w_index w_buffers w_current w_path w_next_id w_syntaxes
      s_selected s_buffers s_path s_given s_syntaxes].
    - eexists. split; [reflexivity|]. rewrite Nat.add_1_r. cbn [firstn skipn app].
      apply check_out. cbn. lia.
    - unfold vec_insert. rewrite !Nat.add_1_r, firstn_S_pre, skipn_S_pre, firstn_S_pre, skipn_S_pre.
      destruct (Nat.leb_spec (Datatypes.S (length pre)) (length (pre ++ blank :: post))) as [_|L];
        [|rewrite app_length in L; cbn in L; lia].
      eexists. split; [reflexivity|]. rewrite <- !app_assoc. cbn [app].
      apply check_in. rewrite app_length. cbn. lia. }
  destruct X as (bs & E & w' & E' & S'). rewrite E. cbn [bind]. rewrite E'. cbn [bind]. unfold put.
  set (i := match s_selected s with Some i => Datatypes.S i | None => 0 end) in *.
  set (pre := firstn i (s_buffers s)) in *. set (post := skipn i (s_buffers s)) in *.
  assert (Li : length pre = i).
  { unfold pre, i. apply firstn_length_le. destruct S; cbn; [lia|]. rewrite app_length. cbn. lia. }
  assert (C : w_current w' = Some (set_id b (Some (s_given s)))).
  { clear - S' Li. remember (Shelf _ _ _ _ _) as s' eqn:Es in S'. destruct S' as [|p pre' bl post' n c ss Hb]; [discriminate|].
    injection Es as _ Eb El _ _. cbn. f_equal.
    assert (L' : length pre' = length pre) by congruence.
    assert (N : nth_error (pre' ++ c :: post') (length pre') = nth_error (pre ++ set_id b (Some (s_given s)) :: post) (length pre)).
    { now rewrite Eb, L'. }
    rewrite !nth_pre in N. now injection N. }
  rewrite C. cbn [b_syntax set_id]. destruct (b_syntax b) as [y|] eqn:Ey; [now exists w'|].
  destruct (update_sim _ _ S') as (c & w2 & Ec & Eu & S2).
  { unfold selected. cbn [s_selected s_buffers]. rewrite <- Li, nth_pre. discriminate. }
  rewrite Eu. cbn [snd]. exists w2. split; [reflexivity|].
  unfold selected in Ec. cbn [s_selected s_buffers] in Ec. rewrite <- Li, nth_pre in Ec. injection Ec as <-.
  unfold replace_selected in S2. cbn [s_selected s_buffers s_path s_given s_syntaxes] in S2.
  rewrite <- Li, firstn_pre, skipn_S_pre, Li in S2. exact S2.
Qed.

Lemma path_is_has cp b : path_is (b_path b) cp = has_path cp b.
Proof. unfold path_is, has_path, path_eqb. now destruct (b_path b). Qed.
Lemma find_first cp bs : find_index (fun b => path_is (b_path b) cp) bs = first_with cp bs.
Proof.
  induction bs as [|b bs IH]; cbn [find_index first_with]; [reflexivity|].
  rewrite path_is_has, IH. destruct (has_path cp b); [reflexivity|]. now destruct (first_with cp bs).
Qed.
Lemma first_skip cp pre b c post : has_path cp b = false -> has_path cp c = false ->
  first_with cp (pre ++ b :: post) = first_with cp (pre ++ c :: post).
Proof.
  intros Hb Hc. induction pre as [|d pre IH]; cbn [app first_with]; [now rewrite Hb, Hc|now rewrite IH].
Qed.
Lemma first_bound cp bs i : first_with cp bs = Some i -> exists b, nth_error bs i = Some b /\ has_path cp b = true.
Proof.
  revert i. induction bs as [|b bs IH]; intros i; cbn [first_with]; [discriminate|].
  destruct (has_path cp b) eqn:E; [intros H; injection H as <-; exists b; now split|].
  destruct (first_with cp bs) as [j|]; [|discriminate]. intros H. injection H as <-.
  destruct (IH j eq_refl) as (x & Hx). now exists x.
Qed.
Lemma first_none cp bs : first_with cp bs = None -> Forall (fun b => has_path cp b = false) bs.
Proof.
  induction bs as [|b bs IH]; cbn [first_with]; [constructor|].
  destruct (has_path cp b) eqn:E; [discriminate|]. destruct (first_with cp bs) as [j|]; [discriminate|]. auto.
Qed.

Lemma load_sim al f w s p : sim w s ->
  match load al f s p with
  | Ok (WResult r, s') => exists w', (let* r := from_file al f p in
      match r with RErr e => Ok (RErr e, w) | ROk b => let* w2 := add_buffer al w b in Ok (ROk tt, w2) end) = Ok (r, w')
      /\ sim w' s'
  | Ok _ => False
  | Panic => (let* r := from_file al f p in
      match r with RErr e => Ok (RErr e, w) | ROk b => let* w2 := add_buffer al w b in Ok (ROk tt, w2) end) = Panic
  end.
Proof.
  intros S. unfold load. destruct (from_file al f p) as [[b|e]|]; cbn [bind]; [| |reflexivity].
  - destruct (add_sim al w s b S) as (w' & E & S'). rewrite E. cbn [bind]. eauto.
  - eauto.
Qed.

Lemma open_sim al f w s p : sim w s ->
  match spec_open al f s p with
  | Ok (WResult r, s') => exists w', open_buffer al f w p = Ok (r, w') /\ sim w' s'
  | Ok _ => False
  | Panic => open_buffer al f w p = Panic
  end.
Proof.
  intros S. unfold spec_open, open_buffer, select_buffer_by_path. pose proof (load_sim al f w s p S) as L.
  destruct (fs_canon f p) as [cp|]; [|exact L].
  assert (Hsel : match w_current w with Some b => b_path b | None => None end
               = match selected s with Some b => b_path b | None => None end).
  { destruct S as [|p0 pre blank post n b ss Hb]; [reflexivity|]. unfold selected. cbn. now rewrite nth_pre. }
  rewrite Hsel. destruct (selected s) as [b|] eqn:Es.
  - rewrite path_is_has. destruct (has_path cp b) eqn:Hp; [cbn [bind]; eauto|].
    rewrite find_first.
    assert (F : first_with cp (w_buffers w) = first_with cp (s_buffers s)).
    { destruct S as [|p0 pre blank post n c ss Hb]; [reflexivity|]. cbn [w_buffers s_buffers].
      unfold selected in Es. cbn [s_selected s_buffers] in Es. rewrite nth_pre in Es. injection Es as ->.
      apply first_skip; [|assumption]. unfold has_path. destruct Hb as [Hb _]. now rewrite Hb. }
    rewrite F. destruct (first_with cp (s_buffers s)) as [i|] eqn:Ei; [|exact L].
    destruct (first_bound _ _ _ Ei) as (x & Hx & _).
    destruct (select_sim al w s i S) as (w' & E & S').
    { unfold selected in Es. now destruct (s_selected s). }
    { apply nth_error_Some. congruence. }
    rewrite E. cbn [bind]. eauto.
  - destruct S as [p0 n ss|p0 pre blank post n c ss Hb].
    + cbn. exact L.
    + unfold selected in Es. cbn [s_selected s_buffers] in Es. rewrite nth_pre in Es. discriminate.
Qed.

Lemma close_sim al w s : sim w s -> exists w', close_current_buffer al w = Ok w' /\ sim w' (spec_close s).
Proof.
  intros [p n ss|p pre blank post n b ss Hb]; unfold close_current_buffer, spec_close.
  - eexists. split; [reflexivity|]. constructor.
  - cbn [w_index w_buffers w_path w_next_id w_syntaxes s_selected s_buffers s_path s_given s_syntaxes].
    unfold vec_remove. destruct (Nat.ltb_spec (length pre) (length (pre ++ blank :: post))) as [_|L];
      [|rewrite app_length in L; cbn in L; lia].
    rewrite !firstn_pre, !skipn_S_pre. cbn [bind]. destruct (pre ++ post) as [|c r] eqn:E.
    + eexists. split; [reflexivity|]. constructor.
    + destruct (check_out al p (c :: r) n (Some (length pre)) ss (length pre - 1)) as (w' & E' & S').
      { rewrite <- E, app_length. destruct post; cbn; [|lia]. destruct pre; [discriminate|]. cbn. lia. }
      rewrite E'. cbn [bind]. eauto.
Qed.

Lemma next_sim al w s : sim w s -> exists w', next_buffer al w = Ok w' /\ sim w' (turn s 1).
Proof.
  unfold next_buffer. intros [p n ss|p pre blank post n b ss Hb].
  - cbn. eexists. split; [reflexivity|]. constructor.
  - cbn [w_index w_buffers]. unfold turn. cbn [s_selected s_buffers]. unfold usub.
    set (m := length (pre ++ b :: post)).
    assert (Lm : length (pre ++ blank :: post) = m) by (unfold m; rewrite !app_length; reflexivity).
    assert (Lp : length pre < m) by (unfold m; rewrite app_length; cbn; lia).
    rewrite Lm. destruct (Nat.leb_spec 1 m) as [_|?]; [|lia]. cbn [bind].
    destruct (Nat.eqb_spec (length pre) (m - 1)) as [E|E].
    + destruct (check_in al p pre blank post n b ss 0) as (w' & E' & S'); [fold m; lia|].
      rewrite E'. cbn [bind]. replace ((length pre + 1) mod m) with 0; [eauto|].
      rewrite E. replace (m - 1 + 1) with m by lia. symmetry. apply Nat.mod_same. lia.
    + destruct (check_in al p pre blank post n b ss (length pre + 1)) as (w' & E' & S'); [fold m; lia|].
      rewrite E'. cbn [bind]. rewrite Nat.mod_small by lia. eauto.
Qed.
Lemma previous_sim al w s : sim w s ->
  exists w', previous_buffer al w = Ok w' /\ sim w' (turn s (length (s_buffers s) - 1)).
Proof.
  unfold previous_buffer. intros [p n ss|p pre blank post n b ss Hb].
  - cbn. eexists. split; [reflexivity|]. constructor.
  - cbn [w_index w_buffers]. unfold turn. cbn [s_selected s_buffers]. unfold usub.
    set (m := length (pre ++ b :: post)).
    assert (Lm : length (pre ++ blank :: post) = m) by (unfold m; rewrite !app_length; reflexivity).
    assert (Lp : length pre < m) by (unfold m; rewrite app_length; cbn; lia).
    rewrite Lm. destruct (Nat.ltb_spec 0 (length pre)) as [E|E].
    + destruct (check_in al p pre blank post n b ss (length pre - 1)) as (w' & E' & S'); [fold m; lia|].
      rewrite E'. cbn [bind]. replace ((length pre + (m - 1)) mod m) with (length pre - 1); [eauto|].
      replace (length pre + (m - 1)) with (length pre - 1 + 1 * m) by lia.
      rewrite Nat.mod_add, Nat.mod_small by lia. reflexivity.
    + destruct (Nat.leb_spec 1 m) as [_|?]; [|lia]. cbn [bind].
      destruct (check_in al p pre blank post n b ss (m - 1)) as (w' & E' & S'); [fold m; lia|].
      rewrite E'. cbn [bind]. replace (length pre + (m - 1)) with (m - 1) by lia. rewrite Nat.mod_small by lia. eauto.
Qed.

Lemma edit_sim brk al c w s f : sim w s ->
  match spec_wcall brk al (WEdit c) s f with
  | Ok (o, s', f') => exists w', wexec brk al (WEdit c) w f = Ok (o, w', f') /\ sim w' s'
  | Panic => wexec brk al (WEdit c) w f = Panic
  end.
Proof.
  intros [p n ss|p pre blank post n b ss Hb]; cbn [spec_wcall wexec w_current].
  - cbn. eexists. split; [reflexivity|]. constructor.
  - unfold selected. cbn [s_selected s_buffers]. rewrite nth_pre.
    destruct (bexec brk al c b f) as [[[o b'] f']|]; cbn [bind]; [|reflexivity].
    eexists. split; [reflexivity|]. unfold replace_selected. cbn [s_selected s_buffers s_path s_given s_syntaxes].
    rewrite firstn_pre, skipn_S_pre. now constructor.
Qed.

Lemma wexec_sim brk al c w s f : sim w s ->
  match spec_wcall brk al c s f with
  | Ok (o, s', f') => exists w', wexec brk al c w f = Ok (o, w', f') /\ sim w' s'
  | Panic => wexec brk al c w f = Panic
  end.
Proof.
  intros S. destruct c as [b|p| | | |c| |p|ss|f']; [..|].
  - cbn [spec_wcall wexec]. destruct (add_sim al w s b S) as (w' & E & S'). rewrite E. cbn [bind]. eauto.
  - cbn [spec_wcall wexec]. pose proof (open_sim al f w s p S) as X.
    destruct (spec_open al f s p) as [[[|r|] s']|]; cbn [bind]; try easy.
    + destruct X as (w' & E & S'). rewrite E. cbn [bind]. eauto.
    + now rewrite X.
  - cbn [spec_wcall wexec]. destruct (close_sim al w s S) as (w' & E & S'). rewrite E. cbn [bind]. eauto.
  - cbn [spec_wcall wexec]. destruct (next_sim al w s S) as (w' & E & S'). rewrite E. cbn [bind]. eauto.
  - cbn [spec_wcall wexec]. destruct (previous_sim al w s S) as (w' & E & S'). rewrite E. cbn [bind]. eauto.
  - now apply edit_sim.
  - cbn [spec_wcall wexec]. destruct (selected s) as [b|] eqn:Es.
    + destruct (update_sim w s S) as (c & w' & Ec & Eu & S'); [congruence|]. rewrite Eu.
      rewrite Es in Ec. injection Ec as <-. eauto.
    + destruct S as [|p pre blank post n c ss Hb]; [cbn; eexists; split; [reflexivity|constructor]|].
      unfold selected in Es. cbn [s_selected s_buffers] in Es. rewrite nth_pre in Es. discriminate.
  - cbn [spec_wcall wexec]. eexists. split; [reflexivity|]. destruct S; now constructor.
  - cbn [spec_wcall wexec]. eexists. split; [reflexivity|]. destruct S; now constructor.
  - cbn [spec_wcall wexec]. eauto.
Qed.

Lemma wrun_sim brk cs : forall w s f, sim w s ->
  match spec_wrun brk cs s f with
  | Ok (os, s', f') => exists w', wrun brk cs w f = Ok (os, w', f') /\ sim w' s'
  | Panic => wrun brk cs w f = Panic
  end.
Proof.
  induction cs as [|[al c] cs IH]; intros w s f S; cbn [spec_wrun wrun]; [eauto|].
  pose proof (wexec_sim brk al c w s f S) as X. destruct (spec_wcall brk al c s f) as [[[o s1] f1]|]; cbn [bind].
  - destruct X as (w1 & E & S1). rewrite E. cbn [bind]. pose proof (IH w1 s1 f1 S1) as Y.
    destruct (spec_wrun brk cs s1 f1) as [[[os s2] f2]|]; cbn [bind].
    + destruct Y as (w2 & E2 & S2). rewrite E2. cbn [bind]. eauto.
    + now rewrite Y.
  - now rewrite X.
Qed.

(** ** What is seen *)

Lemma strip_prefix_spec base : forall p,
  match strip_prefix p base with
  | Some r => p = base ++ r
  | None => forall r, p <> base ++ r
  end.
Proof.
  induction base as [|c base IH]; intros p; [now destruct p|].
  destruct p as [|d p]; [discriminate|]. cbn [strip_prefix]. unfold comp_eqb. destruct (comp_eq_dec c d) as [<-|N].
  - specialize (IH p). destruct (strip_prefix p base); [now rewrite IH|].
    intros r E. injection E as E. now apply (IH r).
  - intros r E. injection E as -> _. now destruct N.
Qed.
Lemma relative_shown w b : shown (w_path w) (b_path b) (relative_path w b).
Proof.
  unfold shown, relative_path. destruct (b_path b) as [p|]; [|reflexivity].
  pose proof (strip_prefix_spec (w_path w) p) as X. destruct (strip_prefix p (w_path w)) as [r|]; eauto.
Qed.

Lemma sim_shows w s : sim w s -> shows w s /\ open_buffers w = s_buffers s.
Proof.
  intros [p n ss|p pre blank post n b ss Hb].
  - split; [|reflexivity]. unfold shows. cbn. repeat split. constructor.
  - split.
    + unfold shows, selected. cbn [w_path w_syntaxes w_current s_path s_syntaxes s_selected s_buffers].
      rewrite nth_pre. repeat split.
      * apply (relative_shown (WS p (pre ++ blank :: post) n (Some b) (Some (length pre)) ss) b).
      * unfold buffer_paths. cbn [w_index w_buffers].
        set (v := WS p (pre ++ blank :: post) n (Some b) (Some (length pre)) ss).
        rewrite app_length. cbn [length]. rewrite seq_app. cbn [seq plus].
        assert (C : forall (a : list buffer) (x y : list nat) (c : list buffer), length x = length a ->
          combine (x ++ y) (a ++ c) = combine x a ++ combine y c).
        { induction a as [|d a IH]; intros [|m x] y c L; try discriminate; [reflexivity|].
          cbn. f_equal. apply IH. now injection L. }
        rewrite C by apply seq_length. cbn [combine]. rewrite !map_app. cbn [map].
        apply Forall2_app; [|constructor].
        -- assert (G : forall k a, k + length a <= length pre ->
             Forall2 (shown p) (map b_path a) (map (fun '(i, b0) => if length pre =? i then current_buffer_path v else relative_path v b0) (combine (seq k (length a)) a))).
           { intros k a. revert k. induction a as [|d a IH]; intros k L; cbn; [constructor|]. cbn in L. constructor; [|apply IH; lia].
             destruct (Nat.eqb_spec (length pre) k); [lia|]. apply (relative_shown v d). }
           apply G. lia.
        -- rewrite Nat.eqb_refl. apply (relative_shown v b).
        -- assert (G : forall k a, length pre < k ->
             Forall2 (shown p) (map b_path a) (map (fun '(i, b0) => if length pre =? i then current_buffer_path v else relative_path v b0) (combine (seq k (length a)) a))).
           { intros k a. revert k. induction a as [|d a IH]; intros k L; cbn; [constructor|]. constructor; [|apply IH; lia].
             destruct (Nat.eqb_spec (length pre) k); [lia|]. apply (relative_shown v d). }
           apply G. lia.
    + unfold open_buffers. cbn [w_index w_current w_buffers s_buffers]. now rewrite firstn_pre, skipn_S_pre.
Qed.
