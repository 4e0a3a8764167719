(** Lemmas behind the buffer properties. *)
From Verif Require Import Base Utf8 Utf8Proofs Grapheme GraphemeProofs Position GapBuffer
  GapBufferProofs Cursor PathModel Buffer Spec CursorSpec CursorCalls Calls TextProofs HalvesProofs TextFacts GapProps
  CursorProofs OpProofs BufferCalls Timeline TimelineProofs AnyTextProofs.

(** ** Timelines *)

Lemma edit_step brk c cur file o tl : real_edit c (tl_text tl) ->
  tl_step brk c cur file o tl = tl_edit tl (edited brk c cur (tl_text tl)).
Proof.
  destruct c; cbn; try contradiction; try reflexivity. intros H. unfold tl_replace.
  now destruct (list_eq_dec _ _ _).
Qed.

Lemma undo_edit tl t : group tl = None ->
  tl_undo (tl_edit tl t) = TL (past tl) (now tl) [(t, false)] None (synced tl).
Proof. intros G. unfold tl_edit. rewrite G. reflexivity. Qed.

(** ** One edit *)

Lemma undo_redo_one brk b f tl c al al1 al2 :
  session brk b f tl -> group tl = None -> real_edit c (tl_text tl) ->
  legal brk c (c_pos (b_cursor b)) (file_of b f) tl ->
  alloc_ok al -> alloc_ok al1 -> alloc_ok al2 ->
  let t' := edited brk c (c_pos (b_cursor b)) (tl_text tl) in
  exists o b1 f1 b2 b3,
    bexec brk al c b f = Ok (o, b1, f1) /\ buf_data b1 = Ok t' /\
    buf_undo brk al1 b1 = Ok b2 /\ buf_data b2 = Ok (tl_text tl) /\
    buf_redo brk al2 b2 = Ok b3 /\ buf_data b3 = Ok t'.
Proof.
  intros Hs G He Hl Ha Ha1 Ha2 t'.
  destruct (session_progress brk al c b f tl Hs Ha Hl) as (o & b1 & f1 & E & S1).
  rewrite (edit_step _ _ _ _ _ _ He) in S1. fold t' in S1. pose proof (session_inv _ _ _ _ S1) as I1.
  destruct (undo_inv brk al1 b1 _ Ha1 I1) as (b2 & E2 & I2). rewrite (undo_edit _ _ G) in I2.
  destruct (redo_inv brk al2 b2 _ Ha2 I2) as (b3 & E3 & I3); [intros s; discriminate|].
  cbn [tl_redo future] in I3.
  exists o, b1, f1, b2, b3. repeat (split; [eassumption|]).
  split; [apply session_text in S1; rewrite S1; unfold tl_edit; rewrite G; reflexivity|].
  split; [assumption|]. split; [exact (bholds_data _ _ _ (inv_data _ _ _ I2))|].
  split; [assumption|]. exact (bholds_data _ _ _ (inv_data _ _ _ I3)).
Qed.

(** ** Many edits *)


Fixpoint iter {A} (n : nat) (f : A -> A) (x : A) : A :=
  match n with 0 => x | S n' => iter n' f (f x) end.
Lemma iter_S {A} n (f : A -> A) x : iter (S n) f x = f (iter n f x).
Proof. revert x. induction n as [|n IH]; intros x; [reflexivity|]. cbn [iter] in *. now rewrite IH. Qed.

Lemma undos_inv brk als : Forall alloc_ok als -> forall b tl, inv brk b tl ->
  exists b', undos brk als b = Ok b' /\ inv brk b' (iter (length als) tl_undo tl).
Proof.
  induction als as [|al als IH]; intros Ha b tl H; cbn [undos length iter]; [eauto|].
  inversion_clear Ha as [|? ? H1 H2]. destruct (undo_inv brk al b tl H1 H) as (b1 & -> & I1). cbn [bind]. now apply IH.
Qed.

Lemma redo_group tl : group (tl_redo tl) = group tl.
Proof. unfold tl_redo. now destruct (future tl). Qed.
Lemma redos_inv brk als : Forall alloc_ok als -> forall b tl, inv brk b tl -> no_edits_open tl ->
  exists b', redos brk als b = Ok b' /\ inv brk b' (iter (length als) tl_redo tl).
Proof.
  induction als as [|al als IH]; intros Ha b tl H Hn; cbn [redos length iter]; [eauto|].
  inversion_clear Ha as [|? ? H1 H2]. destruct (redo_inv brk al b tl H1 H Hn) as (b1 & -> & I1). cbn [bind].
  apply IH; try assumption. unfold no_edits_open. now rewrite redo_group.
Qed.

Lemma neutral_step brk c cur file o tl : neutral c = true -> tl_step brk c cur file o tl = tl.
Proof. destruct c; cbn; congruence. Qed.
Lemma ioc_step brk c cur file o tl : inserts_or_cuts c = true ->
  tl_step brk c cur file o tl = tl_edit tl (edited brk c cur (tl_text tl)).
Proof. destruct c; cbn; try discriminate; reflexivity. Qed.

(** After some edits: the timeline that as many undos lead back to. *)
Lemma steps_undone brk cs b f tl b' f' tl' : steps brk cs b f tl b' f' tl' -> group tl = None ->
  forallb (fun c => inserts_or_cuts c || neutral c) cs = true ->
  let n := length (filter inserts_or_cuts cs) in
  group tl' = None /\ n <= length (past tl') /\
  exists fut, iter n tl_undo tl' = TL (past tl) (now tl) fut None (synced tl).
Proof.
  induction 1 as [b f tl|al c cs b f tl o b1 f1 b2 f2 tl2 Ha Hl E Hst IH]; intros G Hc; cbn [filter length].
  - split; [assumption|]. split; [lia|]. exists (future tl). destruct tl; cbn in *. now rewrite G.
  - cbn [forallb] in Hc. apply andb_true_iff in Hc as [Hc Hcs].
    destruct (inserts_or_cuts c) eqn:Ec.
    + rewrite (ioc_step _ _ _ _ _ _ Ec) in *. set (t := edited _ _ _ _) in *.
      assert (G1 : group (tl_edit tl t) = None) by (unfold tl_edit; now rewrite G).
      destruct (IH G1 Hcs) as (G2 & L & fut & Ei). split; [assumption|].
      rewrite filter_length_le || idtac.
      assert (Ep : past (tl_edit tl t) = now tl :: past tl) by (unfold tl_edit; now rewrite G).
      cbn [length]. rewrite iter_S, Ei, Ep. split.
      * (* the past grew *)
        enough (X : length (past tl2) >= length (filter inserts_or_cuts cs) + length (past (tl_edit tl t))) by (rewrite Ep in X; cbn [length] in X; lia).
        clear -Ei G2 L. revert Ei. set (tl1 := tl_edit tl t). clearbody tl1. clear tl t.
        assert (X : forall n tl2, group tl2 = None -> n <= length (past tl2) ->
                    length (past (iter n tl_undo tl2)) + n = length (past tl2)).
        { induction n as [|n IHn]; intros x Gx Lx; cbn [iter]; [lia|].
          destruct (past x) as [|s ps] eqn:Epx; [cbn in Lx; lia|].
          assert (Ex : tl_undo x = TL ps s (now x :: future x) None (synced x)).
          { unfold tl_undo. now rewrite Gx, Epx. }
          rewrite Ex. specialize (IHn (TL ps s (now x :: future x) None (synced x)) eq_refl).
          cbn [past length] in *. lia. }
        intros Ei. specialize (X _ _ G2 L). rewrite Ei in X. cbn [past] in X. lia.
      * exists (now (tl_edit tl t) :: fut). unfold tl_undo. cbn [group past now future synced].
        unfold tl_edit. now rewrite G.
    + cbn [orb] in Hc. rewrite (neutral_step _ _ _ _ _ _ Hc) in *. now apply IH.
Qed.

Lemma redo_undo tl : group tl = None -> past tl <> [] -> tl_redo (tl_undo tl) = tl.
Proof.
  intros G Hp. unfold tl_undo. rewrite G. destruct tl as [ps nw fs gr sy]. cbn in *. subst gr.
  destruct ps; [contradiction|]. reflexivity.
Qed.
Lemma redos_undos n : forall tl, group tl = None -> n <= length (past tl) ->
  iter n tl_redo (iter n tl_undo tl) = tl.
Proof.
  induction n as [|n IH]; intros tl G L; [reflexivity|].
  rewrite (iter_S n tl_redo). cbn [iter].
  assert (Hp : past tl <> []) by (destruct (past tl); [cbn in L; lia|discriminate]).
  rewrite IH.
  - now apply redo_undo.
  - unfold tl_undo. rewrite G. now destruct (past tl).
  - unfold tl_undo. rewrite G. destruct (past tl); cbn in *; lia.
Qed.

(** [modified()] is the negation of the present's flag. *)
Lemma inv_modified_base brk b tl : inv brk b tl -> buf_modified b = negb (snd (base_of tl)).
Proof.
  intros [H1 H2 H3 H4 H5 H6]. unfold buf_modified, hist_at_mark. f_equal.
  specialize (H5 (length (past tl)) (base_of tl)). unfold states in H5.
  rewrite nth_error_app2, rev_length, Nat.sub_diag in H5 by (rewrite rev_length; lia).
  rewrite (H5 eq_refl), <- (back_length _ _ _ _ H2). reflexivity.
Qed.
Lemma inv_modified brk b tl : inv brk b tl -> no_edits_open tl ->
  buf_modified b = negb (snd (now tl)).
Proof. intros H Hn. now rewrite (inv_modified_base _ _ _ H), (no_edits_base _ Hn). Qed.

Lemma many_undone brk cs b f tl b' f' tl' als als' :
  session brk b f tl -> group tl = None -> steps brk cs b f tl b' f' tl' ->
  forallb (fun c => inserts_or_cuts c || neutral c) cs = true ->
  length als = length (filter inserts_or_cuts cs) -> Forall alloc_ok als ->
  length als' = length (filter inserts_or_cuts cs) -> Forall alloc_ok als' ->
  exists b1 b2, undos brk als b' = Ok b1 /\ buf_data b1 = buf_data b
    /\ buf_modified b1 = buf_modified b
    /\ redos brk als' b1 = Ok b2 /\ buf_data b2 = buf_data b' /\ buf_modified b2 = buf_modified b'.
Proof.
  intros Hs G Hst Hc L1 A1 L2 A2.
  pose proof (session_inv _ _ _ _ Hs) as I0.
  pose proof (session_inv _ _ _ _ (steps_session _ _ _ _ _ _ _ _ Hst Hs)) as I'.
  destruct (steps_undone _ _ _ _ _ _ _ _ Hst G Hc) as (G' & L & fut & Ei).
  destruct (undos_inv brk als A1 b' tl' I') as (b1 & E1 & I1). rewrite L1, Ei in I1.
  assert (N1 : no_edits_open (TL (past tl) (now tl) fut None (synced tl))) by (intros s; discriminate).
  destruct (redos_inv brk als' A2 b1 _ I1 N1) as (b2 & E2 & I2). rewrite L2, <- Ei, (redos_undos _ _ G' L) in I2.
  exists b1, b2. split; [assumption|].
  rewrite (bholds_data _ _ _ (inv_data _ _ _ I1)), (bholds_data _ _ _ (inv_data _ _ _ I0)).
  split; [reflexivity|].
  assert (N0 : no_edits_open tl) by (intros s; rewrite G; discriminate).
  assert (N' : no_edits_open tl') by (intros s; rewrite G'; discriminate).
  rewrite (inv_modified _ _ _ I1 N1), (inv_modified _ _ _ I0 N0). split; [reflexivity|].
  split; [assumption|].
  rewrite (bholds_data _ _ _ (inv_data _ _ _ I2)), (bholds_data _ _ _ (inv_data _ _ _ I')).
  split; [reflexivity|]. now rewrite (inv_modified _ _ _ I2 N'), (inv_modified _ _ _ I' N').
Qed.

(** ** Groups *)

Lemma group_steps brk cs b f tl b' f' tl' : steps brk cs b f tl b' f' tl' -> group tl <> None ->
  forallb (fun c => edits c || neutral c) cs = true ->
  past tl' = past tl /\ future tl' = future tl /\ synced tl' = synced tl /\
  (forall s, group tl = Some (Some s) -> group tl' = Some (Some s)) /\
  (group tl = Some None ->
     group tl' = Some (Some (now tl)) \/ (group tl' = Some None /\ now tl' = now tl /\ existsb inserts_or_cuts cs = false)).
Proof.
  induction 1 as [b f tl|al c cs b f tl o b1 f1 b2 f2 tl2 Ha Hl E Hst IH]; intros G Hc.
  - repeat split; auto.
  - cbn [forallb existsb] in *. apply andb_true_iff in Hc as [Hc Hcs].
    set (tl1 := tl_step brk c (c_pos (b_cursor b)) (file_of b f) o tl) in *.
    assert (X : past tl1 = past tl /\ future tl1 = future tl /\ synced tl1 = synced tl /\
      ((group tl1 = Some (Some (match group tl with Some (Some s) => s | _ => now tl end))) \/
       (tl1 = tl /\ inserts_or_cuts c = false))).
    { subst tl1. destruct (group tl) as [[s|]|] eqn:Eg; [| |contradiction];
      destruct c; cbn [edits neutral orb] in Hc; try discriminate; cbn [tl_step]; unfold tl_replace, tl_edit; rewrite ?Eg;
      try (destruct (list_eq_dec _ _ _)); cbn [past now future group synced inserts_or_cuts]; auto 10. }
    destruct X as (X1 & X2 & X3 & X4).
    assert (G1 : group tl1 <> None) by (destruct X4 as [X4|[X4 _]]; [rewrite X4; discriminate|now rewrite X4]).
    destruct (IH G1 Hcs) as (Y1 & Y2 & Y3 & Y4 & Y5).
    split; [congruence|]. split; [congruence|]. split; [congruence|]. split.
    + intros s Es. destruct X4 as [X4|[X4 _]]; [rewrite Es in X4; auto|rewrite X4 in *; auto].
    + intros Es. destruct X4 as [X4|[X4 X5]].
      * rewrite Es in X4. left. now apply Y4.
      * rewrite X4 in *. rewrite X5. cbn [orb]. auto.
Qed.

Lemma group_atomic brk b f tl cs b' f' tl' al1 al2 :
  session brk b f tl -> group tl = None ->
  steps brk cs (start_group b) f (tl_start tl) b' f' tl' ->
  forallb (fun c => edits c || neutral c) cs = true ->
  existsb inserts_or_cuts cs = true \/ buf_data b' <> buf_data b ->
  alloc_ok al1 -> alloc_ok al2 ->
  (* ended, then undone and redone *)
  (exists b1 b2, buf_data (end_group b') = buf_data b' /\
     buf_undo brk al1 (end_group b') = Ok b1 /\ buf_data b1 = buf_data b /\
     buf_modified b1 = buf_modified b /\
     buf_redo brk al2 b1 = Ok b2 /\ buf_data b2 = buf_data b') /\
  (* undone while still open *)
  (exists b1, buf_undo brk al1 b' = Ok b1 /\ buf_data b1 = buf_data b /\
     b_group b1 = None /\ buf_modified b1 = buf_modified b).
Proof.
  intros Hs G Hst Hc Hor A1 A2.
  pose proof (session_inv _ _ _ _ Hs) as I0.
  assert (Ss : session brk (start_group b) f (tl_start tl)).
  { exact (session_step brk al1 BStartGroup b f _ _ _ tl Hs A1 (conj I I) eq_refl). }
  pose proof (steps_session _ _ _ _ _ _ _ _ Hst Ss) as S'.
  pose proof (session_inv _ _ _ _ S') as I'.
  assert (Gs : group (tl_start tl) = Some None) by (unfold tl_start; now rewrite G).
  destruct (group_steps _ _ _ _ _ _ _ _ Hst ltac:(congruence) Hc) as (P1 & P2 & P3 & _ & P5).
  assert (Es : past (tl_start tl) = past tl /\ now (tl_start tl) = now tl /\ future (tl_start tl) = future tl
    /\ synced (tl_start tl) = synced tl) by (unfold tl_start; rewrite G; auto).
  destruct Es as (Q1 & Q2 & Q3 & Q4). rewrite Q1 in P1. rewrite Q3 in P2. rewrite Q4 in P3.
  assert (G' : group tl' = Some (Some (now tl))).
  { rewrite Q2 in P5. destruct (P5 Gs) as [?|(_ & En & Ex)]; [assumption|]. destruct Hor as [Hor|Hor]; [congruence|].
    exfalso. apply Hor. rewrite (bholds_data _ _ _ (inv_data _ _ _ I')), (bholds_data _ _ _ (inv_data _ _ _ I0)).
    unfold tl_text. now rewrite En. }
  assert (N0 : no_edits_open tl) by (intros s; rewrite G; discriminate).
  split.
  - pose proof (end_inv _ _ _ I') as I1. unfold tl_end in I1. rewrite G', P1, P3 in I1.
    destruct (undo_inv brk al1 _ _ A1 I1) as (b1 & E1 & I2). cbn [tl_undo group past now future synced] in I2.
    assert (N2 : no_edits_open (TL (past tl) (now tl) [now tl'] None (synced tl))) by (intros s; discriminate).
    destruct (redo_inv brk al2 _ _ A2 I2 N2) as (b2 & E2 & I3). cbn [tl_redo future past now] in I3.
    exists b1, b2. rewrite (bholds_data _ _ _ (inv_data _ _ _ I1)), (bholds_data _ _ _ (inv_data _ _ _ I')),
      (bholds_data _ _ _ (inv_data _ _ _ I2)), (bholds_data _ _ _ (inv_data _ _ _ I0)), (bholds_data _ _ _ (inv_data _ _ _ I3)),
      (inv_modified _ _ _ I2 N2), (inv_modified _ _ _ I0 N0).
    auto 8.
  - destruct (undo_inv brk al1 _ _ A1 I') as (b1 & E1 & I2). unfold tl_undo in I2. rewrite G' in I2.
    assert (N2 : no_edits_open (TL (past tl') (now tl) (future tl') None (synced tl'))) by (intros s; discriminate).
    exists b1. rewrite (bholds_data _ _ _ (inv_data _ _ _ I2)), (bholds_data _ _ _ (inv_data _ _ _ I0)),
      (inv_modified _ _ _ I2 N2), (inv_modified _ _ _ I0 N0).
    split; [assumption|]. split; [reflexivity|]. split; [|reflexivity].
    destruct I2 as [_ _ _ I2 _ _]. unfold group_ok in I2. cbn [group] in I2. now destruct (b_group b1) as [[|? ?]|].
Qed.

(** An empty group leaves no trace (any text). *)
Lemma neutral_exec brk al c b f o b' f' : neutral c = true -> bexec brk al c b f = Ok (o, b', f') ->
  b_data b' = b_data b /\ b_history b' = b_history b /\ b_group b' = b_group b.
Proof.
  destruct c; cbn [neutral bexec]; try discriminate; intros _ E; try (now injection E as <- <- <-).
  destruct (cexec brk (b_data b) m (b_cursor b)); [|discriminate]. cbn [bind] in E. now injection E as <- <- <-.
Qed.
Lemma neutral_run brk cs : forall b f os b' f', forallb (fun ac => neutral (snd ac)) cs = true ->
  brun brk cs b f = Ok (os, b', f') ->
  b_data b' = b_data b /\ b_history b' = b_history b /\ b_group b' = b_group b.
Proof.
  induction cs as [|[al c] cs IH]; intros b f os b' f' Hn E; cbn [brun forallb snd] in *.
  - now injection E as <- <- <-.
  - apply andb_true_iff in Hn as [H1 H2]. destruct (bexec brk al c b f) as [[[o b1] f1]|] eqn:E1; [|discriminate].
    cbn [bind] in E. destruct (brun brk cs b1 f1) as [[[os' b2] f2]|] eqn:E2; [|discriminate]. cbn [bind] in E.
    injection E as <- <- <-. destruct (neutral_exec _ _ _ _ _ _ _ _ H1 E1) as (X1 & X2 & X3).
    destruct (IH _ _ _ _ _ H2 E2) as (Y1 & Y2 & Y3). repeat split; congruence.
Qed.
Lemma empty_group brk cs b f os b' f' : b_group b = None -> forallb (fun ac => neutral (snd ac)) cs = true ->
  brun brk cs (start_group b) f = Ok (os, b', f') ->
  b_data (end_group b') = b_data b /\ b_history (end_group b') = b_history b /\ b_group (end_group b') = b_group b.
Proof.
  intros G Hn E. destruct (neutral_run _ _ _ _ _ _ _ Hn E) as (X1 & X2 & X3).
  unfold start_group in *. rewrite G in *. cbn in *. unfold end_group. rewrite X3. cbn. now rewrite X1, X2.
Qed.

(** ** A new edit discards the redo future (any text) *)

Lemma set_history_id b : set_history b (b_history b) = b.
Proof. now destruct b. Qed.
Lemma redo_nothing brk al b : h_next (b_history b) = [] -> buf_redo brk al b = Ok b.
Proof.
  intros H. unfold buf_redo, hist_next. rewrite H. now rewrite set_history_id.
Qed.

Lemma stored_edit brk al b op b' : alloc_ok al -> wfb b -> op_valid op -> b_group b = None ->
  (let* (op', b') := op_run brk al op b in Ok (store b' op')) = Ok b' ->
  h_next (b_history b') = [] /\ buf_modified b' = true
  /\ exists op', h_previous (b_history b') = op' :: h_previous (b_history b).
Proof.
  intros Hal W V G E. pose proof (op_run_step brk al op Hal V b (wfb_data _ W)) as X.
  destruct (op_run brk al op b) as [[op' b1]|]; [|discriminate]. destruct X as [[_ (_ & _ & R3 & R4 & _) _] _].
  cbn [bind] in E. injection E as <-. unfold store. rewrite R4, G, R3. cbn. split; [reflexivity|].
  split; [|eauto].
  unfold buf_modified, hist_at_mark. cbn [b_history set_history hist_add h_mark h_previous length].
  destruct (h_mark (b_history b)) as [k|]; [|reflexivity].
  destruct (Nat.leb_spec (S (length (h_previous (b_history b)))) k) as [L|L]; [reflexivity|].
  apply negb_true_iff, Nat.eqb_neq. lia.
Qed.

Lemma bexec_edit brk al c b f o b' f' t : alloc_ok al -> call_ok c -> wfb b -> b_group b = None ->
  buf_data b = Ok t -> real_edit c t -> bexec brk al c b f = Ok (o, b', f') ->
  h_next (b_history b') = [] /\ buf_modified b' = true
  /\ exists op', h_previous (b_history b') = op' :: h_previous (b_history b).
Proof.
  intros Hal Hc W G Et He E. destruct c; cbn [real_edit bexec call_ok] in *; try contradiction.
  - unfold buf_insert in E. destruct (let* (op', b') := _ in _) as [b1|] eqn:E1; [|discriminate].
    cbn [bind] in E. injection E as <- <- <-. eapply stored_edit; try exact E1; assumption.
  - unfold buf_delete in E.
    destruct (in_bounds_wf brk (b_data b) (Pos (line (c_pos (b_cursor b))) (offset (c_pos (b_cursor b)) + 1)) (wfb_data _ W)) as (k & Ek).
    rewrite Ek in E. cbn [bind] in E. unfold buf_delete_range in E.
    destruct (let* (op', b') := _ in _) as [b1|] eqn:E1; [|discriminate].
    cbn [bind] in E. injection E as <- <- <-. eapply stored_edit; try exact E1; try assumption.
    split; [exact I|eauto].
  - unfold buf_delete_range in E.
    destruct (let* (op', b') := _ in _) as [b1|] eqn:E1; [|discriminate].
    cbn [bind] in E. injection E as <- <- <-. eapply stored_edit; try exact E1; try assumption.
    split; [exact I|eauto].
  - unfold buf_replace in E. rewrite Et in E. cbn [bind] in E.
    destruct (list_N_eqb content t) eqn:El; [now apply list_N_eqb_eq in El|].
    destruct (let* (op', b') := op_run _ _ _ _ in _) as [b1|] eqn:E1; [|discriminate].
    cbn [bind] in E. injection E as <- <- <-. eapply stored_edit; try exact E1; try assumption.
    split; [|assumption]. destruct (wfb_data_total b W) as (t0 & Et0 & V0). congruence.
Qed.

Lemma edit_discards_future brk b f al c t o b' f' al' : reachable_buffer brk b f -> alloc_ok al -> call_ok c ->
  b_group b = None -> buf_data b = Ok t -> real_edit c t -> bexec brk al c b f = Ok (o, b', f') ->
  buf_redo brk al' b' = Ok b'.
Proof.
  intros R Hal Hc G Et He E. apply redo_nothing.
  eapply bexec_edit; try eassumption. now apply reachable_wfb in R.
Qed.
Lemma edit_modifies brk b f al c t o b' f' : reachable_buffer brk b f -> alloc_ok al -> call_ok c ->
  b_group b = None -> buf_data b = Ok t -> real_edit c t -> bexec brk al c b f = Ok (o, b', f') ->
  buf_modified b' = true.
Proof.
  intros R Hal Hc G Et He E.
  eapply bexec_edit; try eassumption. now apply reachable_wfb in R.
Qed.

(** ** The modified flag *)

Lemma unmodified_is_synced brk b f tl : session brk b f tl -> no_edits_open tl ->
  buf_modified b = false -> exists t, synced tl = Some t /\ buf_data b = Ok t.
Proof.
  intros Hs Hn Hm. pose proof (session_inv _ _ _ _ Hs) as I0.
  rewrite (inv_modified _ _ _ I0 Hn) in Hm. apply negb_false_iff in Hm.
  exists (tl_text tl). split; [|now apply session_text in Hs].
  destruct I0 as [_ _ _ _ _ H6]. apply H6; [|assumption]. unfold states. rewrite (no_edits_base _ Hn).
  apply in_or_app. right. now left.
Qed.
Lemma modified_flag brk b f tl : session brk b f tl -> no_edits_open tl ->
  buf_modified b = negb (snd (now tl)).
Proof. intros Hs Hn. eapply inv_modified; [eapply session_inv; eassumption|assumption]. Qed.

(** While a group with edits is open, [modified()] answers for the state before
    the group. *)
Lemma modified_in_group brk b f tl s : session brk b f tl -> group tl = Some (Some s) ->
  buf_modified b = negb (snd s).
Proof.
  intros Hs Hg. rewrite (inv_modified_base _ _ _ (session_inv _ _ _ _ Hs)). unfold base_of. now rewrite Hg.
Qed.

Lemma undos_stuck brk al b n : buf_undo brk al b = Ok b -> undos brk (repeat al n) b = Ok b.
Proof. intros E. induction n as [|n IH]; cbn [repeat undos]; [reflexivity|]. rewrite E. exact IH. Qed.
