(** Proofs about the shared storage. *)
From Verif Require Import Base Utf8 Utf8Proofs Grapheme Position GapBuffer Cursor PathModel Buffer
  ClusterSpec GraphemeProofs GapBufferProofs Spec Calls TextProofs UaxProofs HalvesProofs
  TextFacts GapProps CursorSpec CursorCalls CursorProofs BufferCalls Timeline OpProofs TimelineProofs
  AnyTextProofs Shared SharedSpec.

(** ** Heaps *)

Lemma put_length h : forall r c, length (put h r c) = length h.
Proof. induction h as [|x h IH]; intros [|r] c; cbn; auto. Qed.
Lemma nth_put h : forall r c, r < length h -> nth_error (put h r c) r = Some c.
Proof. induction h as [|x h IH]; intros [|r] c H; cbn in *; try lia; [reflexivity|]. apply IH. lia. Qed.
Lemma nth_put_other h : forall r r' c, r <> r' -> nth_error (put h r c) r' = nth_error h r'.
Proof.
  induction h as [|x h IH]; intros [|r] [|r'] c H; cbn; try reflexivity; [lia|]. apply IH. lia.
Qed.
Lemma put_put h : forall r c c', put (put h r c) r c' = put h r c'.
Proof. induction h as [|x h IH]; intros [|r] c c'; cbn; [reflexivity..|]. now rewrite IH. Qed.
Lemma put_same h : forall r c, nth_error h r = Some c -> put h r c = h.
Proof.
  induction h as [|x h IH]; intros [|r] c H; cbn in *; try discriminate; [now injection H as ->|].
  now rewrite IH.
Qed.
Lemma nth_lt {A} (l : list A) i x : nth_error l i = Some x -> i < length l.
Proof. intros H. apply nth_error_Some. congruence. Qed.
Lemma Forall_put (P : cell -> Prop) h : forall r c, Forall P h -> P c -> Forall P (put h r c).
Proof.
  induction h as [|x h IH]; intros [|r] c H Hc; cbn; try constructor; inversion_clear H; auto.
Qed.

(** A statement with a borrow that leaves the heap alone. *)
Lemma reading_ok {A} (k : gapbuf -> M A) m h r g : nth_error h r = Some (Cell g Free) ->
  (forall h', k g h' = let* x := m in Ok (x, h')) ->
  reading r k h = let* x := m in Ok (x, h).
Proof.
  intros E K. unfold reading, mbind, borrow. rewrite E. cbn [bind]. rewrite K.
  destruct m as [x|]; cbn [bind]; [|reflexivity]. unfold end_borrow.
  rewrite nth_put by now apply nth_lt in E. cbn [bind ret]. now rewrite put_put, put_same.
Qed.
Lemma reading_lift {A} (f : gapbuf -> res A) h r g : nth_error h r = Some (Cell g Free) ->
  reading r (fun g => lift (f g)) h = let* x := f g in Ok (x, h).
Proof. intros E. now apply (reading_ok _ (f g) h r g). Qed.
Lemma writing_lift (f : gapbuf -> res gapbuf) h r g : nth_error h r = Some (Cell g Free) ->
  writing r (fun g => lift (f g)) h = let* g' := f g in Ok (tt, put h r (Cell g' Free)).
Proof.
  intros E. unfold writing, mbind, borrow_mut, lift. rewrite E. cbn [bind].
  destruct (f g) as [g'|]; cbn [bind]; [|reflexivity]. unfold end_borrow_mut.
  rewrite nth_put by now apply nth_lt in E. now rewrite put_put.
Qed.

(** ** Cursor methods act on the storage the cursor refers to *)

Section Sim.
Variable brk : brk_rule.

Definition on (r : ref) (c : cursor) : rcursor := RCur r c.

Lemma rmove_to_sim r c p h g : nth_error h r = Some (Cell g Free) ->
  rmove_to brk (on r c) p h = let* (k, c') := move_to brk g c p in Ok (k, on r c', h).
Proof.
  intros E. unfold rmove_to, mbind. cbn [rc_data on]. rewrite (reading_lift _ _ _ _ E). unfold move_to.
  destruct (in_bounds brk g p) as [[|]|]; reflexivity.
Qed.

Lemma rmove_to_line_sim r c n h g : nth_error h r = Some (Cell g Free) ->
  rmove_to_line brk (on r c) n h = let* c' := move_to_line brk g c n in Ok (on r c', h).
Proof.
  intros E. unfold rmove_to_line, move_to_line. cbn [rc_at on]. unfold mbind at 1.
  change (RCur r c) with (on r c). rewrite (rmove_to_sim _ _ _ _ _ E).
  destruct (move_to brk g c (Pos n (c_sticky c))) as [[k c1]|]; cbn [bind]; [|reflexivity].
  destruct k; [reflexivity|]. unfold mbind at 1. cbn [rc_data on].
  rewrite (reading_ok _ (let* s := gb_to_string g in Ok (line_length_or_zero brk s n)) _ _ _ E).
  2:{ intros h'. unfold mbind, lift, ret. now destruct (gb_to_string g). }
  destruct (gb_to_string g) as [s|]; cbn [bind]; [|reflexivity]. unfold mbind.
  change (RCur r c1) with (on r c1). rewrite (rmove_to_sim _ _ _ _ _ E).
  destruct (move_to brk g c1 _) as [[k c2]|]; reflexivity.
Qed.

Lemma rmove_sim m r c h g : nth_error h r = Some (Cell g Free) ->
  rmove brk m (on r c) h = let* c' := cexec brk g m c in Ok (on r c', h).
Proof.
  intros E.
  assert (T : forall c p, mbind (rmove_to brk (on r c) p) (fun '(_, c') => ret c') h
              = let* (_, c') := move_to brk g c p in Ok (on r c', h)).
  { intros c0 p. unfold mbind. rewrite (rmove_to_sim _ _ _ _ _ E). now destruct (move_to brk g c0 p) as [[k c1]|]. }
  assert (T' : forall c p, mbind (rmove_to brk (on r c) p) (fun '(_, c') => ret c') h
              = let* c' := (let* (_, c') := move_to brk g c p in Ok c') in Ok (on r c', h)).
  { intros c0 p. rewrite T. now destruct (move_to brk g c0 p) as [[k c1]|]. }
  destruct m; cbn [rmove cexec].
  - apply T'.
  - unfold rmove_up, move_up. cbn [rc_at on]. destruct (line (c_pos c) =? 0); [reflexivity|].
    unfold mbind, lift. destruct (usub (line (c_pos c)) 1) as [n|]; cbn [bind]; [|reflexivity].
    now apply rmove_to_line_sim.
  - now apply rmove_to_line_sim.
  - unfold rmove_left, move_left. cbn [rc_at on]. destruct (offset (c_pos c) =? 0); [reflexivity|].
    unfold mbind at 1, lift. destruct (usub (offset (c_pos c)) 1) as [n|]; cbn [bind]; [|reflexivity].
    apply T'.
  - apply T'.
  - apply T'.
  - unfold rmove_to_end_of_line, move_to_end_of_line. unfold mbind at 1. cbn [rc_data rc_at on].
    rewrite (reading_lift _ _ _ _ E). destruct (gb_to_string g) as [s|]; cbn [bind]; [|reflexivity].
    destruct (nth_error (str_lines s) (line (c_pos c))) as [l|]; [|reflexivity]. apply T'.
  - unfold rmove_to_last_line, move_to_last_line. unfold mbind at 1. cbn [rc_data rc_at on].
    rewrite (reading_ok _ (let* s := gb_to_string g in Ok (last_line_loop (graphemes brk s) 0 0)) _ _ _ E).
    2:{ intros h'. unfold mbind, lift, ret. now destruct (gb_to_string g). }
    destruct (gb_to_string g) as [s|]; cbn [bind]; [|reflexivity].
    destruct (last_line_loop (graphemes brk s) 0 0) as [ln len]. apply T'.
  - unfold rmove_to_first_line, move_to_first_line. unfold mbind at 1. cbn [rc_data rc_at on].
    rewrite (reading_ok _ (let* s := gb_to_string g in
      Ok (match nth_error (str_lines s) 0 with Some l => length (graphemes brk l) | None => 0 end)) _ _ _ E).
    2:{ intros h'. unfold mbind, lift, ret. now destruct (gb_to_string g). }
    destruct (gb_to_string g) as [s|]; cbn [bind]; [|reflexivity]. apply T'.
Qed.

(** ** Buffers *)

Definition sound (h : heap) : Prop := Forall (fun c => c_lease c = Free /\ wf (c_gap c)) h.
Definition placed (h : heap) (b : rbuffer) : Prop :=
  rb_data b < length h /\ rc_data (rb_cursor b) < length h /\
  match rb_callback b with Some r => r < length h | None => True end.

Lemma sound_nth h r : sound h -> r < length h ->
  exists g, nth_error h r = Some (Cell g Free) /\ wf g.
Proof.
  intros H L. destruct (nth_error h r) as [[g l]|] eqn:E; [|apply nth_error_None in E; lia].
  unfold sound in H. rewrite Forall_forall in H. destruct (H _ (nth_error_In _ _ E)) as [Hl Hw]. cbn in *. subst l. eauto.
Qed.
Lemma sound_rest h : sound h -> at_rest h.
Proof. unfold sound, at_rest. apply Forall_impl. tauto. Qed.

(** What a step does to the heap and the references of a buffer. *)
Record evolves (h : heap) (b : rbuffer) (h' : heap) (b' : rbuffer) : Prop := Evolves {
  ev_length : length h <= length h';
  ev_frame : forall r, r < length h -> r <> rb_data b -> nth_error h' r = nth_error h r;
  ev_callback : rb_callback b' = rb_callback b;
  ev_place : (rb_data b' = rb_data b /\ rc_data (rb_cursor b') = rc_data (rb_cursor b)) \/
             (length h <= rb_data b' /\ rc_data (rb_cursor b') = rb_data b');
  ev_told : rb_callback b = Some (rb_data b) -> rb_data b' = rb_data b ->
    exists l, rb_log b' = rb_log b ++ l /\
      match rev l with
      | [] => nth_error h' (rb_data b) = nth_error h (rb_data b)
      | (_, t) :: _ => text_at h' (rb_data b) = Ok t
      end;
  ev_aside : forall r, rb_callback b = Some r -> r < length h -> r <> rb_data b ->
    exists l, rb_log b' = rb_log b ++ l /\ Forall (fun e => text_at h r = Ok (snd e)) l }.

Lemma evolves_refl h b : evolves h b h b.
Proof.
  split; [auto..| | |]; [left; auto| |].
  - intros _ _. exists []. now rewrite app_nil_r.
  - intros r _ _ _. exists []. now rewrite app_nil_r.
Qed.
Lemma evolves_trans h b h1 b1 h2 b2 : rb_data b < length h ->
  evolves h b h1 b1 -> evolves h1 b1 h2 b2 -> evolves h b h2 b2.
Proof.
  intros L [A1 A2 A3 A4 A5 A6] [B1 B2 B3 B4 B5 B6]. split.
  - lia.
  - intros r Hr Hn. rewrite B2; [now apply A2|lia|]. destruct A4 as [[-> _]|[A4 _]]; [assumption|lia].
  - congruence.
  - destruct A4 as [[A4 A4']|[A4 A4']], B4 as [[B4 B4']|[B4 B4']].
    + left. split; congruence.
    + right. split; [lia|assumption].
    + right. split; [lia|congruence].
    + right. split; [lia|assumption].
  - intros C D. assert (D1 : rb_data b1 = rb_data b).
    { destruct A4 as [[A4 _]|[A4 _]]; [assumption|]. destruct B4 as [[B4 _]|[B4 _]]; lia. }
    destruct (A5 C D1) as (l1 & E1 & F1). rewrite D1 in B5.
    destruct (B5 ltac:(congruence) D) as (l2 & E2 & F2).
    exists (l1 ++ l2). split; [now rewrite E2, E1, app_assoc|]. rewrite rev_app_distr.
    destruct (rev l2) as [|[p t] l2']; cbn [app]; [|assumption].
    destruct (rev l1) as [|[p t] l1']; [congruence|]. unfold text_at in *. now rewrite F2.
  - intros r C Lr Hn. destruct (A6 r C Lr Hn) as (l1 & E1 & F1).
    destruct (B6 r ltac:(congruence) ltac:(lia)) as (l2 & E2 & F2).
    { destruct A4 as [[-> _]|[A4 _]]; [assumption|lia]. }
    exists (l1 ++ l2). split; [now rewrite E2, E1, app_assoc|]. apply Forall_app. split; [assumption|].
    revert F2. apply Forall_impl. unfold text_at. intros e. now rewrite A2.
Qed.

Lemma seen_some h b : rb_data b < length h -> exists v, seen h b = Some v.
Proof.
  intros L. unfold seen. destruct (nth_error h (rb_data b)) eqn:E; [eauto|]. apply nth_error_None in E. lia.
Qed.

(** Telling the callback. *)
Lemma rnotify_sim h b p v : sound h -> placed h b -> seen h b = Some v ->
  exists b', rnotify reader b p h = Ok (b', h) /\ seen h b' = Some (notify v p) /\
    rb_data b' = rb_data b /\ rb_cursor b' = rb_cursor b /\ rb_callback b' = rb_callback b /\
    (forall r, rb_callback b = Some r -> exists t, text_at h r = Ok t /\ rb_log b' = rb_log b ++ [(p, t)]).
Proof.
  intros S (P1 & P2 & P3) V. unfold rnotify. destruct (rb_callback b) as [r|] eqn:Ec.
  - destruct (sound_nth h r S P3) as (g & E & W). destruct (to_string_total _ W) as (t & Et).
    unfold reader, mbind, borrow_mut, lift, ret. rewrite E. cbn [bind]. rewrite Et. cbn [bind].
    unfold end_borrow_mut. rewrite nth_put by assumption. cbn [bind]. rewrite put_put, (put_same _ _ _ E).
    eexists. split; [reflexivity|]. split.
    { unfold seen in *. cbn [rb_data]. destruct (nth_error h (rb_data b)); [|discriminate].
      injection V as <-. unfold notify. cbn. rewrite Ec, map_app. reflexivity. }
    repeat (split; [now rewrite ?Ec|]). intros r' [= <-]. exists t. split; [|reflexivity].
    unfold text_at. now rewrite E.
  - exists b. split; [reflexivity|]. split; [|repeat (split; [assumption || reflexivity|]); discriminate].
    rewrite V. f_equal. unfold seen in V. destruct (nth_error h (rb_data b)); [|discriminate].
    injection V as <-. unfold notify. cbn. now rewrite Ec.
Qed.

(** An edit in place followed by the notification. *)
Lemma edit_sim h b p v g' : sound h -> placed h b -> seen h b = Some v -> wf g' ->
  let h' := put h (rb_data b) (Cell g' Free) in
  exists b', rnotify reader b p h' = Ok (b', h') /\ seen h' b' = Some (notify (set_data v g') p) /\
    sound h' /\ placed h' b' /\ evolves h b h' b' /\ rb_cursor b' = rb_cursor b.
Proof.
  intros S P V W h'.
  assert (S' : sound h') by (apply Forall_put; [assumption|now split]).
  assert (P' : placed h' b) by (unfold placed, h' in *; now rewrite put_length).
  assert (V' : seen h' b = Some (set_data v g')).
  { unfold seen in *. unfold h'. destruct P as [P _]. rewrite nth_put by assumption.
    destruct (nth_error h (rb_data b)); [|discriminate]. injection V as <-. reflexivity. }
  destruct (rnotify_sim h' b p _ S' P' V') as (b' & E1 & E2 & E3 & E4 & E5 & E6).
  exists b'. split; [assumption|]. split; [assumption|]. split; [assumption|].
  split. { destruct P' as (Q1 & Q2 & Q3). unfold placed. rewrite E3, E4, E5. auto. }
  split; [|assumption]. split.
  - unfold h'. now rewrite put_length.
  - intros r Hr Hn. unfold h'. apply nth_put_other; congruence.
  - assumption.
  - left. now rewrite E3, E4.
  - intros C _. destruct (E6 _ C) as (t & Et & El). exists [(p, t)]. now split.
  - intros r C _ Hn. destruct (E6 _ C) as (t & Et & El). exists [(p, t)]. split; [assumption|].
    constructor; [|constructor]. cbn. rewrite <- Et. unfold text_at, h'. rewrite nth_put_other by congruence. reflexivity.
Qed.

Lemma seen_data h b v g : seen h b = Some v -> nth_error h (rb_data b) = Some (Cell g Free) -> b_data v = g.
Proof. unfold seen. intros V E. rewrite E in V. now injection V as <-. Qed.

(** Replacing the storage. *)
Lemma rreplace_content_sim al s h b v : sound h -> placed h b -> seen h b = Some v -> valid_text s ->
  exists b' h' v', rreplace_content brk reader al s b h = Ok (b', h') /\ replace_content brk al s v = Ok v' /\
    seen h' b' = Some v' /\ sound h' /\ placed h' b' /\ evolves h b h' b' /\
    rb_data b' = length h /\ (forall r, r < length h -> nth_error h' r = nth_error h r) /\
    (forall r, rb_callback b = Some r -> exists t, text_at h r = Ok t /\ rb_log b' = rb_log b ++ [(Pos 0 0, t)]).
Proof.
  intros S P V Vs. unfold rreplace_content, replace_content.
  destruct (new_ok al s Vs) as (g & Eg & R). assert (W : wf g) by now exists s, [].
  unfold lift. unfold mbind at 1. rewrite Eg. cbn [bind]. unfold mbind at 1, new_cell at 1. cbn [bind].
  set (h1 := h ++ [Cell g Free]). set (r := length h).
  assert (E : nth_error h1 r = Some (Cell g Free)).
  { unfold h1, r. rewrite nth_error_app2, Nat.sub_diag by lia. reflexivity. }
  assert (S1 : sound h1). { apply Forall_app. split; [assumption|]. constructor; [now split|constructor]. }
  assert (Ep : c_pos (rc_at (rb_cursor b)) = c_pos (b_cursor v)).
  { unfold seen in V. destruct (nth_error h (rb_data b)); [|discriminate]. now injection V as <-. }
  rewrite Ep. change (rcursor_new r (Pos 0 0)) with (on r (cursor_new (Pos 0 0))).
  assert (X : forall c, exists b', rnotify reader (rset_cursor (rset_data b r) (on r c)) (Pos 0 0) h1 = Ok (b', h1) /\
    seen h1 b' = Some (notify (set_cursor (set_data v g) c) (Pos 0 0)) /\ sound h1 /\ placed h1 b' /\ evolves h b h1 b' /\
    rb_data b' = length h /\ (forall r, r < length h -> nth_error h1 r = nth_error h r) /\
    (forall r, rb_callback b = Some r -> exists t, text_at h r = Ok t /\ rb_log b' = rb_log b ++ [(Pos 0 0, t)])).
  { intros c. set (b1 := rset_cursor (rset_data b r) (on r c)).
    assert (L1 : length h1 = length h + 1) by (unfold h1; rewrite app_length; reflexivity).
    assert (P1 : placed h1 b1).
    { destruct P as (Q1 & Q2 & Q3). unfold placed, b1. cbn. rewrite L1.
      split; [unfold r; lia|]. split; [unfold r; lia|]. destruct (rb_callback b); [lia|exact I]. }
    assert (V1 : seen h1 b1 = Some (set_cursor (set_data v g) c)).
    { unfold seen in *. unfold b1. cbn [rb_data rset_data rset_cursor]. rewrite E.
      destruct (nth_error h (rb_data b)); [|discriminate]. injection V as <-. reflexivity. }
    destruct (rnotify_sim h1 b1 (Pos 0 0) _ S1 P1 V1) as (b' & E1 & E2 & E3 & E4 & E5 & E6).
    exists b'. split; [assumption|]. split; [assumption|]. split; [assumption|].
    split. { destruct P1 as (Q1 & Q2 & Q3). unfold placed. rewrite E3, E4, E5. auto. }
    assert (Fr : forall r, r < length h -> nth_error h1 r = nth_error h r).
    { intros r' Hr. unfold h1. now rewrite nth_error_app1. }
    assert (Tell : forall r, rb_callback b = Some r -> exists t, text_at h r = Ok t /\ rb_log b' = rb_log b ++ [(Pos 0 0, t)]).
    { intros r' C. destruct (E6 r' C) as (t & Et & El). exists t. split; [|assumption]. rewrite <- Et. unfold text_at.
      rewrite Fr; [reflexivity|]. destruct P as (_ & _ & P3). now rewrite C in P3. }
    split; [|split; [|now split]].
    2:{ now rewrite E3. }
    split.
    - lia.
    - intros r' Hr _. now apply Fr.
    - assumption.
    - right. rewrite E3, E4. cbn. unfold r. split; [lia|reflexivity].
    - intros _ D. rewrite E3 in D. cbn in D. destruct P as [P _]. unfold r in D. lia.
    - intros r' C _ _. destruct (Tell r' C) as (t & Et & El). exists [(Pos 0 0, t)]. split; [assumption|]. now constructor. }
  unfold mbind at 1. rewrite (rmove_to_sim _ _ _ _ _ E).
  destruct (move_to_bool brk g (cursor_new (Pos 0 0)) (c_pos (b_cursor v)) W) as (k & c1 & E1). rewrite E1. cbn [bind].
  destruct k; cbn [bind].
  - destruct (X c1) as (b' & X1 & X2 & X3 & X4 & X5). exists b', h1. eexists. unfold mbind, ret. cbn [bind].
    repeat (split; [eassumption || reflexivity|]). assumption.
  - unfold mbind. rewrite (rmove_to_sim _ _ _ _ _ E).
    destruct (move_to_bool brk g c1 (Pos (line (c_pos (b_cursor v))) 0) W) as (k2 & c2 & E2). rewrite E2.
    cbn [bind ret]. destruct (X c2) as (b' & X1 & X2 & X3 & X4 & X5). exists b', h1. eexists. unfold ret. cbn [bind].
    repeat (split; [eassumption || reflexivity|]). assumption.
Qed.

(** A step of the model with references against one without. *)
Record after (h : heap) (b : rbuffer) (h' : heap) (b' : rbuffer) (v' : buffer) : Prop := After {
  af_seen : seen h' b' = Some v';
  af_sound : sound h';
  af_placed : placed h' b';
  af_evolves : evolves h b h' b' }.

(** The parts of a buffer that matter to the heap. *)
Definition same_refs (b b' : rbuffer) : Prop :=
  rb_data b' = rb_data b /\ rc_data (rb_cursor b') = rc_data (rb_cursor b) /\
  rb_callback b' = rb_callback b /\ rb_log b' = rb_log b.
Lemma placed_same h b b' : same_refs b b' -> placed h b -> placed h b'.
Proof. intros (E1 & E2 & E3 & _) (P1 & P2 & P3). unfold placed. now rewrite E1, E2, E3. Qed.
Lemma after_same h b h1 b1 v1 b0 b2 v2 : same_refs b0 b -> same_refs b1 b2 ->
  after h b h1 b1 v1 -> seen h1 b2 = Some v2 -> after h b0 h1 b2 v2.
Proof.
  intros (A1 & A2 & A3 & A4) R [B1 B2 B3 [C1 C2 C3 C4 C5 C6]] V. split; [assumption..| |].
  - now apply (placed_same _ b1).
  - destruct R as (R1 & R2 & R3 & R4). split.
    + assumption.
    + rewrite <- A1. assumption.
    + congruence.
    + rewrite R1, R2, <- A1, <- A2. assumption.
    + rewrite R1, R4, <- A1, <- A3, <- A4. assumption.
    + rewrite R4, <- A1, <- A3, <- A4. assumption.
Qed.

Lemma op_run_sim al op : alloc_ok al -> op_valid op -> forall h b v,
  sound h -> placed h b -> seen h b = Some v ->
  match op_run brk al op v with
  | Ok (op', v') => exists b' h', rop_run brk reader al op b h = Ok ((op', b'), h') /\ after h b h' b' v'
  | Panic => rop_run brk reader al op b h = Panic
  end.
Proof.
  intros Hal. induction op as [d p|c r|s t|ops IH] using operation_induction; intros Hv h b v S P V.
  - destruct (sound_nth h (rb_data b) S (proj1 P)) as (g & E & W). pose proof (seen_data _ _ _ _ V E) as Ed.
    cbn [op_run rop_run]. unfold mbind. rewrite (writing_lift _ _ _ _ E).
    destruct (gb_insert_step brk al v d p Hal) as (g' & E' & St); [now rewrite Ed|assumption|].
    rewrite E'. rewrite Ed in E'. rewrite E'. cbn [bind].
    destruct (edit_sim h b p v g' S P V (st_wf _ _ St)) as (b' & B1 & B2 & B3 & B4 & B5 & _).
    unfold mbind. rewrite B1. cbn [bind]. exists b'. eexists. split; [reflexivity|]. now split.
  - destruct (sound_nth h (rb_data b) S (proj1 P)) as (g & E & W). pose proof (seen_data _ _ _ _ V E) as Ed.
    destruct Hv as [_ (p & q & ->)]. cbn [op_run rop_run]. unfold mbind. rewrite (reading_lift _ _ _ _ E).
    rewrite Ed. destruct (gb_read_valid brk g p q W) as (m & Em & _). rewrite Em. cbn [bind].
    rewrite (writing_lift _ _ _ _ E).
    pose proof (gb_delete_step brk v p q ltac:(now rewrite Ed)) as X. rewrite Ed in X.
    destruct (gb_delete brk g (range_new p q)) as [g'|]; cbn [bind]; [|reflexivity].
    destruct (edit_sim h b (r_start (range_new p q)) v g' S P V (st_wf _ _ X)) as (b' & B1 & B2 & B3 & B4 & B5 & _).
    rewrite B1. cbn [bind]. exists b'. eexists. split; [reflexivity|]. now split.
  - destruct Hv as [Vs Vt]. cbn [op_run rop_run].
    destruct (rreplace_content_sim al t h b v S P V Vt) as (b' & h' & v' & B1 & B2 & B3 & B4 & B5 & B6 & _).
    rewrite B2. cbn [bind]. unfold mbind. rewrite B1. exists b', h'. split; [reflexivity|]. now split.
  - change (op_run brk al (OpGroup ops) v) with (let* (ops', b') := go_run brk al ops v in Ok (OpGroup ops', b')).
    apply op_valid_group in Hv. cbn [rop_run].
    set (go := fix go (ops : list operation) (b : rbuffer) : M (list operation * rbuffer) := _).
    assert (X : match go_run brk al ops v with
                | Ok (ops', v') => exists b' h', go ops b h = Ok ((ops', b'), h') /\ after h b h' b' v'
                | Panic => go ops b h = Panic end).
    { revert h b v S P V. induction ops as [|o ops IHo]; intros h b v S P V; cbn [go_run].
      - exists b, h. split; [reflexivity|]. split; [assumption..|apply evolves_refl].
      - inversion_clear IH as [|? ? IH1 IH2]. inversion_clear Hv as [|? ? V1 V2].
        specialize (IH1 V1 h b v S P V). unfold go; fold go. unfold mbind.
        destruct (op_run brk al o v) as [[o' v1]|]; cbn [bind]; [|now rewrite IH1].
        destruct IH1 as (b1 & h1 & E1 & [A1 A2 A3 A4]). rewrite E1. cbn [bind].
        specialize (IHo IH2 V2 h1 b1 v1 A2 A3 A1). unfold mbind.
        destruct (go_run brk al ops v1) as [[ops' v2]|]; cbn [bind]; [|now rewrite IHo].
        destruct IHo as (b2 & h2 & E2 & [B1 B2 B3 B4]). rewrite E2. cbn [bind].
        exists b2, h2. split; [reflexivity|]. split; try assumption.
        eapply evolves_trans; [apply P|eassumption|eassumption]. }
    unfold mbind. destruct (go_run brk al ops v) as [[ops' v']|]; cbn [bind]; [|now rewrite X].
    destruct X as (b' & h' & E & A). rewrite E. exists b', h'. now split.
Qed.

Lemma op_reverse_sim al op : alloc_ok al -> op_valid op -> forall h b v,
  sound h -> placed h b -> seen h b = Some v ->
  match op_reverse brk al op v with
  | Ok v' => exists b' h', rop_reverse brk reader al op b h = Ok (b', h') /\ after h b h' b' v'
  | Panic => rop_reverse brk reader al op b h = Panic
  end.
Proof.
  intros Hal. induction op as [d p|c r|s t|ops IH] using operation_induction; intros Hv h b v S P V.
  - destruct (sound_nth h (rb_data b) S (proj1 P)) as (g & E & W). pose proof (seen_data _ _ _ _ V E) as Ed.
    cbn [op_reverse rop_reverse]. destruct (insert_end brk d p) as [e|].
    2:{ exists b, h. split; [reflexivity|]. split; [assumption..|apply evolves_refl]. }
    unfold mbind. rewrite (writing_lift _ _ _ _ E).
    pose proof (gb_delete_step brk v p e ltac:(now rewrite Ed)) as X. rewrite Ed in *.
    destruct (gb_delete brk g (range_new p e)) as [g'|]; cbn [bind]; [|reflexivity].
    destruct (edit_sim h b p v g' S P V (st_wf _ _ X)) as (b' & B1 & B2 & B3 & B4 & B5 & _).
    rewrite B1. exists b'. eexists. split; [reflexivity|]. now split.
  - destruct (sound_nth h (rb_data b) S (proj1 P)) as (g & E & W). pose proof (seen_data _ _ _ _ V E) as Ed.
    destruct Hv as [Vc (p & q & ->)]. cbn [op_reverse rop_reverse]. destruct c as [m|].
    2:{ exists b, h. split; [reflexivity|]. split; [assumption..|apply evolves_refl]. }
    unfold mbind. rewrite (writing_lift _ _ _ _ E).
    destruct (gb_insert_step brk al v m (r_start (range_new p q)) Hal) as (g' & E' & St); [now rewrite Ed|assumption|].
    rewrite E'. rewrite Ed in E'. rewrite E'. cbn [bind].
    destruct (edit_sim h b (r_start (range_new p q)) v g' S P V (st_wf _ _ St)) as (b' & B1 & B2 & B3 & B4 & B5 & _).
    rewrite B1. exists b'. eexists. split; [reflexivity|]. now split.
  - destruct Hv as [Vs Vt]. cbn [op_reverse rop_reverse].
    destruct (rreplace_content_sim al s h b v S P V Vs) as (b' & h' & v' & B1 & B2 & B3 & B4 & B5 & B6 & _).
    rewrite B2, B1. exists b', h'. split; [reflexivity|]. now split.
  - change (op_reverse brk al (OpGroup ops) v) with (go_rev brk al ops v).
    apply op_valid_group in Hv. cbn [rop_reverse].
    set (go := fix go (ops : list operation) (b : rbuffer) : M rbuffer := _).
    revert h b v S P V. induction ops as [|o ops IHo]; intros h b v S P V; cbn [go_rev].
    + exists b, h. split; [reflexivity|]. split; [assumption..|apply evolves_refl].
    + inversion_clear IH as [|? ? IH1 IH2]. inversion_clear Hv as [|? ? V1 V2].
      specialize (IHo IH2 V2 h b v S P V). unfold go; fold go. unfold mbind.
      destruct (go_rev brk al ops v) as [v1|]; cbn [bind]; [|now rewrite IHo].
      destruct IHo as (b1 & h1 & E1 & [A1 A2 A3 A4]). rewrite E1. cbn [bind].
      specialize (IH1 V1 h1 b1 v1 A2 A3 A1).
      destruct (op_reverse brk al o v1) as [v2|]; [|assumption].
      destruct IH1 as (b2 & h2 & E2 & [B1 B2 B3 B4]). exists b2, h2. split; [assumption|].
      split; try assumption. eapply evolves_trans; [apply P|eassumption|eassumption].
Qed.

(** The fields of the buffer that is seen. *)
Lemma seen_inv h b v : seen h b = Some v ->
  b_id v = rb_id b /\ b_path v = rb_path b /\ b_cursor v = rc_at (rb_cursor b) /\ b_history v = rb_history b /\
  b_group v = rb_group b /\ b_syntax v = rb_syntax b /\
  b_callback v = (match rb_callback b with Some _ => true | None => false end) /\ b_log v = map fst (rb_log b).
Proof.
  unfold seen. destruct (nth_error h (rb_data b)); [|discriminate]. intros [= <-]. now repeat split.
Qed.
Lemma seen_history h b v x : seen h b = Some v -> seen h (rset_history b x) = Some (set_history v x).
Proof. unfold seen. cbn. destruct (nth_error h (rb_data b)); [|discriminate]. now intros [= <-]. Qed.
Lemma seen_group h b v x : seen h b = Some v -> seen h (rset_group b x) = Some (set_group v x).
Proof. unfold seen. cbn. destruct (nth_error h (rb_data b)); [|discriminate]. now intros [= <-]. Qed.
Lemma seen_store h b v op : seen h b = Some v -> seen h (rstore b op) = Some (store v op).
Proof.
  intros V. unfold rstore, store. destruct (seen_inv _ _ _ V) as (_ & _ & _ & -> & -> & _).
  destruct (rb_group b); [now apply seen_group|now apply seen_history].
Qed.
Lemma store_refs b op : same_refs b (rstore b op).
Proof. unfold rstore. now destruct (rb_group b). Qed.

Lemma rdata_sim h b v : sound h -> placed h b -> seen h b = Some v ->
  rdata b h = let* t := buf_data v in Ok (t, h).
Proof.
  intros S P V. destruct (sound_nth h (rb_data b) S (proj1 P)) as (g & E & W).
  unfold rdata. rewrite (reading_lift _ _ _ _ E). unfold buf_data. now rewrite (seen_data _ _ _ _ V E).
Qed.

(** Running and storing. *)
Lemma redit_sim al op h b v : alloc_ok al -> op_valid op -> sound h -> placed h b -> seen h b = Some v ->
  match (let* (op', v') := op_run brk al op v in Ok (store v' op')) with
  | Ok v' => exists b' h', mbind (rop_run brk reader al op b) (fun '(op', b') => ret (rstore b' op')) h = Ok (b', h')
             /\ after h b h' b' v'
  | Panic => mbind (rop_run brk reader al op b) (fun '(op', b') => ret (rstore b' op')) h = Panic
  end.
Proof.
  intros Hal Hv S P V. pose proof (op_run_sim al op Hal Hv h b v S P V) as X. unfold mbind.
  destruct (op_run brk al op v) as [[op' v']|]; cbn [bind]; [|now rewrite X].
  destruct X as (b' & h' & E & A). rewrite E. cbn [bind]. unfold ret. eexists _, _. split; [reflexivity|].
  apply (after_same h b h' b' v'); [now repeat split|apply store_refs|assumption|].
  apply seen_store, A.
Qed.

Lemma rreplace_sim al s h b v : alloc_ok al -> valid_text s -> sound h -> placed h b -> seen h b = Some v -> wfb v ->
  match buf_replace brk al v s with
  | Ok v' => exists b' h', rreplace brk reader al b s h = Ok (b', h') /\ after h b h' b' v'
  | Panic => rreplace brk reader al b s h = Panic
  end.
Proof.
  intros Hal Hs S P V W. destruct (wfb_data_total v W) as (t & Et & Vt). unfold rreplace, buf_replace.
  unfold mbind at 1 4. rewrite (rdata_sim _ _ _ S P V), Et. cbn [bind]. destruct (list_N_eqb s t).
  - exists b, h. split; [reflexivity|]. split; [assumption..|apply evolves_refl].
  - unfold mbind at 1 3. rewrite (rdata_sim _ _ _ S P V), Et. cbn [bind].
    apply (redit_sim al (OpReplace t s) h b v Hal); try assumption. now split.
Qed.

Lemma after_id h b v : sound h -> placed h b -> seen h b = Some v -> after h b h b v.
Proof. intros S P V. split; try assumption. apply evolves_refl. Qed.
Lemma after_with h b b' v v' : sound h -> placed h b -> seen h b = Some v -> same_refs b b' ->
  seen h b' = Some v' -> after h b h b' v'.
Proof. intros S P V R V'. apply (after_same h b h b v b b'); try assumption; [now repeat split|now apply after_id]. Qed.

Lemma rundo_sim al h b v : alloc_ok al -> sound h -> placed h b -> seen h b = Some v -> wfb v ->
  match buf_undo brk al v with
  | Ok v' => exists b' h', rundo brk reader al b h = Ok (b', h') /\ after h b h' b' v'
  | Panic => rundo brk reader al b h = Panic
  end.
Proof.
  intros Hal S P V W. unfold rundo, buf_undo.
  destruct (seen_inv _ _ _ V) as (_ & _ & _ & Eh & Eg & _).
  assert (Run : forall op b1 v1, op_valid op -> same_refs b b1 -> seen h b1 = Some v1 ->
    match op_reverse brk al op v1 with
    | Ok v' => exists b' h', rop_reverse brk reader al op b1 h = Ok (b', h') /\ after h b h' b' v'
    | Panic => rop_reverse brk reader al op b1 h = Panic
    end).
  { intros op b1 v1 Hv R V1.
    pose proof (op_reverse_sim al op Hal Hv h b1 v1 S (placed_same _ _ _ R P) V1) as X.
    destruct (op_reverse brk al op v1) as [v'|]; [|assumption]. destruct X as (b' & h' & E & A).
    exists b', h'. split; [assumption|]. apply (after_same h b1 h' b' v'); try assumption; [now repeat split|apply A]. }
  assert (Hist : forall b0 v0, same_refs b b0 -> seen h b0 = Some v0 -> Forall op_valid (h_previous (b_history v0)) ->
    let '(op, b1) := (let '(op, x) := hist_previous (rb_history b0) in (op, rset_history b0 x)) in
    let '(op', v1) := (let '(op, x) := hist_previous (b_history v0) in (op, set_history v0 x)) in
    op = op' /\ same_refs b b1 /\ seen h b1 = Some v1 /\ match op with Some o => op_valid o | None => True end).
  { intros b0 v0 R V0 F. destruct (seen_inv _ _ _ V0) as (_ & _ & _ & E0 & _). rewrite <- E0.
    destruct (hist_previous (b_history v0)) as [op x] eqn:Ex. split; [reflexivity|]. split; [assumption|].
    split; [now apply seen_history|]. unfold hist_previous in Ex.
    destruct (h_previous (b_history v0)) as [|o l]; injection Ex as <- <-; [exact I|]. now inversion_clear F. }
  rewrite Eg. destruct (rb_group b) as [[|o ops]|] eqn:Er.
  - specialize (Hist (rset_group b None) (set_group v None) ltac:(now repeat split) (seen_group _ _ _ _ V) (wfb_prev _ W)).
    destruct (let '(op, x) := hist_previous (rb_history _) in _) as [op b1].
    destruct (let '(op, x) := hist_previous (b_history _) in _) as [op' v1].
    destruct Hist as (-> & R & V1 & Hv). destruct op' as [op|]; [now apply Run|].
    exists b1, h. split; [reflexivity|]. now apply (after_with h b b1 v).
  - apply Run; [|now repeat split|now apply seen_group]. pose proof (wfb_group _ W) as G. rewrite Eg in G.
    now apply op_valid_group.
  - specialize (Hist (rset_group b None) (set_group v None) ltac:(now repeat split) (seen_group _ _ _ _ V) (wfb_prev _ W)).
    destruct (let '(op, x) := hist_previous (rb_history _) in _) as [op b1].
    destruct (let '(op, x) := hist_previous (b_history _) in _) as [op' v1].
    destruct Hist as (-> & R & V1 & Hv). destruct op' as [op|]; [now apply Run|].
    exists b1, h. split; [reflexivity|]. now apply (after_with h b b1 v).
Qed.

Lemma rredo_sim al h b v : alloc_ok al -> sound h -> placed h b -> seen h b = Some v -> wfb v ->
  match buf_redo brk al v with
  | Ok v' => exists b' h', rredo brk reader al b h = Ok (b', h') /\ after h b h' b' v'
  | Panic => rredo brk reader al b h = Panic
  end.
Proof.
  intros Hal S P V W. unfold rredo, buf_redo. destruct (seen_inv _ _ _ V) as (_ & _ & _ & Eh & _). rewrite <- Eh.
  destruct (hist_next (b_history v)) as [op x] eqn:Ex. pose proof (seen_history _ _ _ x V) as V1.
  destruct op as [op|].
  - assert (Hv : op_valid op).
    { unfold hist_next in Ex. pose proof (wfb_next _ W) as F. destruct (h_next (b_history v)); [discriminate|].
      injection Ex as -> _. now inversion_clear F. }
    assert (R : same_refs b (rset_history b x)) by now repeat split.
    pose proof (op_run_sim al op Hal Hv h _ _ S (placed_same _ _ _ R P) V1) as X. unfold mbind.
    destruct (op_run brk al op (set_history v x)) as [[op' v']|]; cbn [bind]; [|now rewrite X].
    destruct X as (b' & h' & E & A). rewrite E. cbn [bind]. exists b', h'. split; [reflexivity|].
    apply (after_same h (rset_history b x) h' b' v'); try assumption; [now repeat split|apply A].
  - eexists _, h. split; [reflexivity|]. apply (after_with h b _ v); try assumption. now repeat split.
Qed.

(** A call of the buffer API.  Moving the cursor is on the storage the cursor
    refers to. *)
Definition call_after (c : bcall) (h : heap) (b : rbuffer) (h' : heap) (b' : rbuffer) (v' : buffer) : Prop :=
  match c with
  | BSetCallback k => h' = h /\ b' = rset_callback b (if k then Some (rc_data (rb_cursor b)) else None)
                      /\ seen h b' = Some v'
  | _ => after h b h' b' v'
  end.
Lemma pbuffer_sim al c f h b v : alloc_ok al -> call_ok c -> sound h -> placed h b -> seen h b = Some v -> wfb v ->
  match c with BMove _ => rc_data (rb_cursor b) = rb_data b | _ => True end ->
  match bexec brk al c v f with
  | Ok (o, v', f') => exists b' h', pbuffer brk reader al c b f h = Ok ((o, b', f'), h') /\ call_after c h b h' b' v'
  | Panic => pbuffer brk reader al c b f h = Panic
  end.
Proof.
  intros Hal Hc S P V W Hm. destruct (seen_inv _ _ _ V) as (I1 & I2 & I3 & I4 & I5 & I6 & I7 & I8).
  pose proof (fun b' v' => after_with h b b' v v' S P V) as Same.
  assert (Lift : forall (n : res buffer) (m : M rbuffer),
    match n with
    | Ok v' => exists b' h', m h = Ok (b', h') /\ after h b h' b' v'
    | Panic => m h = Panic
    end ->
    match (let* v' := n in Ok (BUnit, v', f)) with
    | Ok (o, v', f') => exists b' h', mbind m (fun b' => ret (BUnit, b', f)) h = Ok ((o, b', f'), h') /\ after h b h' b' v'
    | Panic => mbind m (fun b' => ret (BUnit, b', f)) h = Panic
    end).
  { intros n m X. unfold mbind. destruct n as [v'|]; cbn [bind]; [|now rewrite X].
    destruct X as (b' & h' & E & A). rewrite E. exists b', h'. now split. }
  destruct (sound_nth h (rb_data b) S (proj1 P)) as (g & E & Wg). pose proof (seen_data _ _ _ _ V E) as Ed.
  destruct c; cbn [bexec pbuffer call_after call_ok] in *.
  - apply Lift. unfold buf_insert, rinsert. rewrite I3. now apply redit_sim.
  - apply Lift. unfold buf_delete, rdelete, buf_delete_range, rdelete_range. rewrite I3, Ed.
    unfold mbind at 1 3. rewrite (reading_lift _ _ _ _ E). destruct (in_bounds_wf brk g (Pos (line (c_pos (rc_at (rb_cursor b)))) (offset (c_pos (rc_at (rb_cursor b))) + 1)) Wg) as (k & Ek).
    rewrite Ek. cbn [bind]. apply redit_sim; try assumption. split; [exact I|eauto].
  - apply Lift. unfold buf_delete_range, rdelete_range. apply redit_sim; try assumption. split; [exact I|eauto].
  - apply Lift. now apply rreplace_sim.
  - apply Lift. now apply rundo_sim.
  - apply Lift. now apply rredo_sim.
  - eexists _, h. split; [reflexivity|]. unfold rstart_group, start_group. rewrite I5.
    destruct (rb_group b); apply Same; try assumption; [now repeat split..|now apply seen_group].
  - eexists _, h. split; [reflexivity|]. unfold rend_group, end_group. rewrite I5.
    destruct (rb_group b) as [[|o ops]|]; apply Same; try assumption; try now repeat split.
    + now apply seen_group.
    + cbn. rewrite I4. now apply (seen_history h (rset_group b None)), seen_group.
  - unfold mbind. replace (rb_cursor b) with (on (rb_data b) (b_cursor v)) by (rewrite I3; unfold on; rewrite <- Hm; now destruct (rb_cursor b)).
    rewrite (rmove_sim _ _ _ _ _ E), Ed. destruct (cexec brk g m (b_cursor v)) as [c'|]; cbn [bind]; [|reflexivity].
    eexists _, h. split; [reflexivity|]. apply Same; [now repeat split|].
    unfold seen in *. cbn. destruct (nth_error h (rb_data b)); [|discriminate]. now injection V as <-.
  - eexists _, h. split; [reflexivity|]. apply Same; [now repeat split|].
    unfold seen in *. cbn. destruct (nth_error h (rb_data b)); [|discriminate]. now injection V as <-.
  - unfold buf_save, rsave. rewrite I2. destruct (rb_path b) as [q|].
    2:{ eexists _, h. split; [reflexivity|]. now apply after_id. }
    destruct (outcome f q w); unfold mbind.
    + eexists _, h. split; [reflexivity|]. now apply after_id.
    + rewrite (rdata_sim _ _ _ S P V). destruct (buf_data v) as [t|]; cbn [bind]; [|reflexivity].
      eexists _, h. split; [reflexivity|]. now apply after_id.
    + rewrite (rdata_sim _ _ _ S P V). destruct (buf_data v) as [t|]; cbn [bind]; [|reflexivity].
      eexists _, h. split; [reflexivity|]. apply Same; [now repeat split|]. rewrite I4. now apply seen_history.
  - unfold buf_reload, rreload. rewrite I2. destruct (rb_path b) as [q|].
    2:{ eexists _, h. split; [reflexivity|]. now apply after_id. }
    destruct (read_to_string f q) as [s|] eqn:Ef.
    2:{ eexists _, h. split; [reflexivity|]. now apply after_id. }
    assert (Vs : valid_text s).
    { unfold read_to_string in Ef. destruct (fs_read f q); [|discriminate]. now apply decode_strict_valid in Ef as [? _]. }
    pose proof (rreplace_sim al s h b v Hal Vs S P V W) as X. unfold mbind.
    destruct (buf_replace brk al v s) as [v'|]; cbn [bind]; [|now rewrite X].
    destruct X as (b' & h' & Eb & A). rewrite Eb. cbn [bind]. eexists _, h'. split; [reflexivity|].
    apply (after_same h b h' b' v'); [now repeat split|now repeat split|assumption|].
    destruct (seen_inv _ _ _ (af_seen _ _ _ _ _ A)) as (_ & _ & _ & -> & _). apply seen_history, A.
  - eexists _, h. split; [reflexivity|]. apply Same; [now repeat split|].
    unfold seen in *. cbn. destruct (nth_error h (rb_data b)); [|discriminate]. now injection V as <-.
  - eexists _, h. split; [reflexivity|]. apply Same; [now repeat split|].
    unfold seen in *. cbn. destruct (nth_error h (rb_data b)); [|discriminate]. now injection V as <-.
  - eexists _, h. split; [reflexivity|]. apply Same; [now repeat split|].
    unfold seen in *. cbn. destruct (nth_error h (rb_data b)); [|discriminate]. now injection V as <-.
  - eexists _, h. split; [reflexivity|]. split; [reflexivity|]. split; [reflexivity|].
    unfold seen in *. cbn. destruct (nth_error h (rb_data b)); [|discriminate]. injection V as <-. now destruct on0.
  - eexists _, h. split; [reflexivity|]. now apply after_id.
Qed.

(** ** Programs *)

Record inv (p : program) : Prop := Inv {
  inv_sound : sound (pr_heap p);
  inv_placed : placed (pr_heap p) (pr_buffer p);
  inv_clones : Forall (fun c => rc_data c < length (pr_heap p)) (pr_cursors p);
  inv_view : exists v, buffer_of p = Some v /\ wfb v }.

Lemma Forall_replaced {A} (P : A -> Prop) l i x : Forall P l -> P x -> Forall P (firstn i l ++ x :: skipn (i + 1) l).
Proof.
  intros H Hx. apply Forall_app. split.
  - rewrite Forall_forall in *. intros y Hy. apply H. rewrite <- (firstn_skipn i l). apply in_or_app. now left.
  - constructor; [assumption|]. rewrite Forall_forall in *. intros y Hy. apply H.
    rewrite <- (firstn_skipn (i + 1) l). apply in_or_app. now right.
Qed.

(** Moving a cursor, whatever storage it refers to. *)
Lemma rmove_any m k h : sound h -> rc_data k < length h ->
  exists g c', nth_error h (rc_data k) = Some (Cell g Free) /\ cexec brk g m (rc_at k) = Ok c' /\
    rmove brk m k h = Ok (on (rc_data k) c', h).
Proof.
  intros S L. destruct (sound_nth h (rc_data k) S L) as (g & E & W).
  destruct (cexec_stays brk g m (rc_at k) W) as (c' & Ec & _). exists g, c'. split; [assumption|].
  split; [assumption|]. replace k with (on (rc_data k) (rc_at k)) at 1 by now destruct k.
  rewrite (rmove_sim _ _ _ _ _ E), Ec. reflexivity.
Qed.
Lemma seen_cursor h b v k : seen h b = Some v -> seen h (rset_cursor b k) = Some (set_cursor v (rc_at k)).
Proof. unfold seen. cbn. destruct (nth_error h (rb_data b)); [|discriminate]. now intros [= <-]. Qed.
Lemma wfb_cursor v c : wfb v -> wfb (set_cursor v c).
Proof. intros []. now split. Qed.

(** Calls on the storage. *)
Lemma pstorage_any al c r h : alloc_ok al -> match c with GInsert d _ => valid_text d | _ => True end ->
  sound h -> r < length h ->
  match pstorage brk al c r h with
  | Ok (_, h') => exists g', wf g' /\ h' = put h r (Cell g' Free)
  | Panic => ~ order_safe brk
  end.
Proof.
  intros Hal Hc S L. destruct (sound_nth h r S L) as (g & E & W).
  assert (Same : exists g', wf g' /\ h = put h r (Cell g' Free)) by (exists g; split; [assumption|now rewrite (put_same _ _ _ E)]).
  set (v := Buf None g None (Cur (Pos 0 0) 0) hist_new None None false []).
  unfold pstorage. destruct c; unfold mbind.
  - rewrite (writing_lift _ _ _ _ E). destruct (gb_insert_step brk al v data p Hal W Hc) as (g' & E' & St).
    cbn [b_data v] in E'. rewrite E'. cbn [bind]. exists g'. split; [apply (st_wf _ _ St)|reflexivity].
  - rewrite (writing_lift _ _ _ _ E). pose proof (gb_delete_step brk v p q W) as X. cbn [b_data v] in X.
    destruct (gb_delete brk g (range_new p q)) as [g'|]; cbn [bind]; [|assumption].
    exists g'. split; [apply (st_wf _ _ X)|reflexivity].
  - rewrite (reading_lift _ _ _ _ E). destruct (gb_read_valid brk g p q W) as (m & Em & _). now rewrite Em.
  - rewrite (reading_lift _ _ _ _ E). destruct (in_bounds_wf brk g p W) as (k & Ek). now rewrite Ek.
  - rewrite (reading_lift _ _ _ _ E). destruct (to_string_total g W) as (t & Et). now rewrite Et.
Qed.
Lemma pstorage_read al c r h : match c with GInsert _ _ | GDelete _ _ => False | _ => True end ->
  sound h -> r < length h -> exists o, pstorage brk al c r h = Ok (o, h).
Proof.
  intros Hc S L. destruct (sound_nth h r S L) as (g & E & W). unfold pstorage. destruct c; try easy; unfold mbind.
  - rewrite (reading_lift _ _ _ _ E). destruct (gb_read_valid brk g p q W) as (m & Em & _). rewrite Em. now eexists.
  - rewrite (reading_lift _ _ _ _ E). destruct (in_bounds_wf brk g p W) as (k & Ek). rewrite Ek. now eexists.
  - rewrite (reading_lift _ _ _ _ E). destruct (to_string_total g W) as (t & Et). rewrite Et. now eexists.
Qed.

Lemma clones_after (h h' : heap) ks : length h <= length h' ->
  Forall (fun c => rc_data c < length h) ks -> Forall (fun c => rc_data c < length h') ks.
Proof. intros L. apply Forall_impl. lia. Qed.

Lemma call_after_parts c h b h' b' v' : sound h -> placed h b -> call_after c h b h' b' v' ->
  seen h' b' = Some v' /\ sound h' /\ placed h' b' /\ length h <= length h'.
Proof.
  intros S P A.
  assert (X : after h b h' b' v' -> seen h' b' = Some v' /\ sound h' /\ placed h' b' /\ length h <= length h').
  { intros [A1 A2 A3 [A4 _ _ _ _ _]]. auto. }
  destruct c; try exact (X A).
  destruct A as (-> & -> & A). destruct P as (P1 & P2 & P3). unfold placed. cbn.
  split; [assumption|]. split; [assumption|]. split; [|auto]. split; [assumption|]. split; [assumption|].
  now destruct on0.
Qed.

Lemma pexec_any al c p : alloc_ok al -> pcall_ok c -> inv p ->
  match pexec brk al c p with
  | Ok (_, p') => inv p'
  | Panic => ~ order_safe brk
  end.
Proof.
  intros Hal Hc [S P K (v & V & W)]. destruct p as [b ks h f]. unfold buffer_of in V.
  cbn [pr_buffer pr_cursors pr_heap pr_disk] in *.
  destruct c; cbn [pexec pcall_ok] in *; cbn [pr_buffer pr_cursors pr_heap pr_disk] in *.
  - destruct (match c with BMove _ => true | _ => false end) eqn:Em.
    + destruct c; try discriminate. cbn [pbuffer]. unfold mbind.
      destruct (rmove_any m (rb_cursor b) h S (proj1 (proj2 P))) as (g & c' & E & Ec & Er). rewrite Er. cbn [bind ret].
      split; cbn; try assumption. exists (set_cursor v c'). split; [now apply (seen_cursor h b v (on (rc_data (rb_cursor b)) c'))|now apply wfb_cursor].
    + pose proof (pbuffer_sim al c f h b v Hal Hc S P V W) as X.
      specialize (X ltac:(destruct c; try exact I; discriminate)).
      pose proof (bexec_any brk al c v f Hal Hc W) as Y.
      destruct (bexec brk al c v f) as [[[o v'] f']|]; [|now rewrite X].
      destruct X as (b' & h' & E & A). rewrite E. cbn [bind].
      destruct (call_after_parts _ _ _ _ _ _ S P A) as (A1 & A2 & A3 & A4).
      split; cbn; try assumption; [now apply (clones_after h)|]. exists v'. split; [assumption|apply Y].
  - split; cbn; try assumption; [|now exists v]. apply Forall_app. split; [assumption|]. constructor; [apply P|constructor].
  - destruct (nth_error ks i) as [k|] eqn:Ek; [|split; cbn; try assumption; now exists v].
    pose proof (proj1 (Forall_forall _ _) K k (nth_error_In _ _ Ek)) as Lk. cbn in Lk.
    destruct (rmove_any m k h S Lk) as (g & c' & E & Ec & Er). rewrite Er. cbn [bind].
    split; cbn; try assumption; [|now exists v]. now apply Forall_replaced.
  - destruct (nth_error ks i) as [k|] eqn:Ek; [|split; cbn; try assumption; now exists v].
    pose proof (proj1 (Forall_forall _ _) K k (nth_error_In _ _ Ek)) as Lk. cbn in Lk.
    split; cbn; try assumption.
    + destruct P as (P1 & P2 & P3). split; [assumption|]. split; assumption.
    + exists (set_cursor v (rc_at k)). split; [now apply seen_cursor|now apply wfb_cursor].
  - destruct (nth_error ks i) as [k|] eqn:Ek; [|split; cbn; try assumption; now exists v].
    pose proof (proj1 (Forall_forall _ _) K k (nth_error_In _ _ Ek)) as Lk. cbn in Lk.
    pose proof (pstorage_any al c (rc_data k) h Hal ltac:(destruct c; try exact I; assumption) S Lk) as X.
    destruct (pstorage brk al c (rc_data k) h) as [[o h']|]; cbn [bind]; [|assumption].
    destruct X as (g' & Wg & ->). split; cbn.
    + apply Forall_put; [assumption|now split].
    + unfold placed in *. now rewrite put_length.
    + now rewrite put_length.
    + unfold buffer_of. cbn. destruct (Nat.eq_dec (rc_data k) (rb_data b)) as [->|Hn].
      * exists (set_data v g'). split; [|destruct W; now split]. unfold seen in *. rewrite nth_put by apply P.
        destruct (nth_error h (rb_data b)); [|discriminate]. now injection V as <-.
      * exists v. split; [|assumption]. unfold seen. rewrite nth_put_other by assumption. exact V.
Qed.

Lemma prun_any cs : forall p, inv p ->
  Forall (fun ac => alloc_ok (fst ac) /\ pcall_ok (snd ac)) cs ->
  match prun brk cs p with Ok (_, p') => inv p' | Panic => ~ order_safe brk end.
Proof.
  induction cs as [|[al c] cs IH]; intros p H F; cbn [prun]; [assumption|].
  inversion_clear F as [|? ? [Fa Fc] F']. cbn [fst snd] in *. pose proof (pexec_any al c p Fa Fc H) as X.
  destruct (pexec brk al c p) as [[o p1]|]; cbn [bind]; [|assumption]. specialize (IH p1 X F').
  destruct (prun brk cs p1) as [[os p2]|]; cbn [bind]; assumption.
Qed.

(** Starting. *)
Lemma starts_facts f p : starts f p -> exists v, buffer_of p = Some v /\ fresh_buffer f v /\ inv p /\
  rc_data (rb_cursor (pr_buffer p)) = rb_data (pr_buffer p) /\ rb_callback (pr_buffer p) = None /\
  h_previous (rb_history (pr_buffer p)) = [] /\ h_next (rb_history (pr_buffer p)) = [] /\ rb_group (pr_buffer p) = None.
Proof.
  destruct p as [b ks h f0]. intros (E1 & E2 & E3). cbn [pr_buffer pr_cursors pr_heap pr_disk] in *. subst ks f0.
  assert (X : exists g v, h = [Cell g Free] /\ wf g /\ seen h b = Some v /\ fresh_buffer f v /\ rb_data b = 0 /\
    rc_data (rb_cursor b) = 0 /\ rb_callback b = None /\ h_previous (rb_history b) = [] /\ h_next (rb_history b) = [] /\
    rb_group b = None).
  { destruct E3 as [(al & E)|(al & q & E)].
    - unfold rbuffer_new, mbind, lift, new_cell, ret in E. destruct (new_ok al [] ltac:(constructor)) as (g & Eg & R).
      rewrite Eg in E. cbn [bind] in E. injection E as <- <-. exists g. eexists. split; [reflexivity|].
      split; [eexists _, _; exact R|]. split; [reflexivity|]. split; [|now repeat split].
      left. exists al. unfold buffer_new. now rewrite Eg.
    - unfold rfrom_file, mbind, lift, new_cell, ret in E. destruct (read_to_string f q) as [s|] eqn:Ef; [|discriminate].
      assert (Vs : valid_text s).
      { unfold read_to_string in Ef. destruct (fs_read f q); [|discriminate]. now apply decode_strict_valid in Ef as [? _]. }
      destruct (new_ok al s Vs) as (g & Eg & R). rewrite Eg in E. cbn [bind] in E.
      destruct (fs_canon f q) as [cp|] eqn:Ecp; [|discriminate]. injection E as <- <-. exists g. eexists. split; [reflexivity|].
      split; [eexists _, _; exact R|]. split; [reflexivity|]. split; [|now repeat split].
      right. exists al, q. unfold from_file. now rewrite Ef, Eg, Ecp. }
  destruct X as (g & v & -> & W & V & F & X1 & X2 & X3 & X4 & X5 & X6). exists v.
  cbn [pr_buffer pr_heap]. split; [assumption|]. split; [assumption|]. split; [|now rewrite X1, X2].
  split; cbn.
  - constructor; [now split|constructor].
  - unfold placed. rewrite X1, X2, X3. cbn. lia.
  - constructor.
  - exists v. split; [assumption|]. now apply (fresh_wfb f).
Qed.

Lemma runs_inv ok p : reaches brk ok p -> inv p.
Proof.
  intros (f & p0 & cs & os & H0 & H & E). destruct (starts_facts _ _ H0) as (v & _ & _ & I0 & _).
  pose proof (prun_any cs p0 I0) as X. rewrite E in X. apply X.
  revert H. apply Forall_impl. tauto.
Qed.

(** No panic. *)
Lemma no_conflict ok p al c : order_safe brk -> reaches brk ok p -> alloc_ok al -> pcall_ok c ->
  exists o p', pexec brk al c p = Ok (o, p') /\ at_rest (pr_heap p').
Proof.
  intros Ho R Ha Hc. pose proof (pexec_any al c p Ha Hc (runs_inv _ _ R)) as X.
  destruct (pexec brk al c p) as [[o p']|]; [|easy]. exists o, p'. split; [reflexivity|]. apply sound_rest, X.
Qed.

(** Ordinary programs: the value model. *)
Definition tied (p : program) : Prop := rc_data (rb_cursor (pr_buffer p)) = rb_data (pr_buffer p).
Lemma call_after_tied c h b h' b' v' : call_after c h b h' b' v' ->
  rc_data (rb_cursor b) = rb_data b -> rc_data (rb_cursor b') = rb_data b'.
Proof.
  intros A H.
  assert (X : after h b h' b' v' -> rc_data (rb_cursor b') = rb_data b').
  { intros [_ _ _ [_ _ _ [[-> ->]|[_ X]] _ _]]; assumption. }
  destruct c; try now apply X. destruct A as (_ & -> & _). exact H.
Qed.

Lemma pexec_ordinary al c p v : alloc_ok al -> pcall_ok c -> ordinary c -> inv p -> tied p -> buffer_of p = Some v ->
  match c with
  | PBuffer k =>
    match bexec brk al k v (pr_disk p) with
    | Ok (o, v', f') => exists b' h', pexec brk al c p = Ok (PBout o, Prog b' (pr_cursors p) h' f') /\
        seen h' b' = Some v' /\ call_after k (pr_heap p) (pr_buffer p) h' b' v'
    | Panic => pexec brk al c p = Panic
    end
  | _ => exists o ks, pexec brk al c p = Ok (o, Prog (pr_buffer p) ks (pr_heap p) (pr_disk p)) /\
         match o with PBout _ => False | _ => True end
  end.
Proof.
  intros Hal Hc Ho [S P K (v' & V' & W)] T V. destruct p as [b ks h f]. unfold buffer_of, tied in *.
  cbn [pr_buffer pr_cursors pr_heap pr_disk] in *. rewrite V in V'. injection V' as <-.
  destruct c as [c| |i m|i|i c]; cbn [pexec pr_buffer pr_cursors pr_heap pr_disk]; cbn [pcall_ok ordinary] in *.
  - pose proof (pbuffer_sim al c f h b v Hal Hc S P V W ltac:(destruct c; try exact I; assumption)) as X.
    destruct (bexec brk al c v f) as [[[o v'] f']|]; [|now rewrite X].
    destruct X as (b' & h' & E & A). rewrite E. cbn [bind]. exists b', h'. split; [reflexivity|].
    split; [|assumption]. now destruct (call_after_parts _ _ _ _ _ _ S P A).
  - eexists _, _. split; [reflexivity|exact I].
  - destruct (nth_error ks i) as [k|] eqn:Ek; [|eexists _, _; split; [reflexivity|exact I]].
    pose proof (proj1 (Forall_forall _ _) K k (nth_error_In _ _ Ek)) as Lk. cbn in Lk.
    destruct (rmove_any m k h S Lk) as (g & c' & E & Ec & Er). rewrite Er. cbn [bind].
    eexists _, _. split; [reflexivity|exact I].
  - easy.
  - destruct (nth_error ks i) as [k|] eqn:Ek; [|eexists _, _; split; [reflexivity|exact I]].
    pose proof (proj1 (Forall_forall _ _) K k (nth_error_In _ _ Ek)) as Lk. cbn in Lk.
    destruct (pstorage_read al c (rc_data k) h) as (o & Eo); [now destruct c|assumption|assumption|].
    rewrite Eo. cbn [bind]. eexists _, _. split; [reflexivity|exact I].
Qed.

Lemma pexec_tied al c p o p' : alloc_ok al -> pcall_ok c -> ordinary c -> inv p -> tied p ->
  pexec brk al c p = Ok (o, p') -> tied p'.
Proof.
  intros Hal Hc Ho I0 T E. destruct (inv_view _ I0) as (v & V & W).
  pose proof (pexec_ordinary al c p v Hal Hc Ho I0 T V) as X. destruct c.
  - destruct (bexec brk al c v (pr_disk p)) as [[[o' v'] f']|]; [|congruence].
    destruct X as (b' & h' & E' & _ & A). rewrite E in E'. injection E' as -> ->. unfold tied. cbn.
    now apply (call_after_tied _ _ _ _ _ _ A).
  - destruct X as (o' & ks & E' & _). rewrite E in E'. injection E' as -> ->. exact T.
  - destruct X as (o' & ks & E' & _). rewrite E in E'. injection E' as -> ->. exact T.
  - easy.
  - destruct X as (o' & ks & E' & _). rewrite E in E'. injection E' as -> ->. exact T.
Qed.

Lemma prun_ordinary cs : forall p v, inv p -> tied p -> buffer_of p = Some v ->
  Forall (fun ac => alloc_ok (fst ac) /\ pcall_ok (snd ac) /\ ordinary (snd ac)) cs ->
  match brun brk (buffer_calls cs) v (pr_disk p) with
  | Ok (os, v', f') => exists os' p', prun brk cs p = Ok (os', p') /\ buffer_outs os' = os /\
      pr_disk p' = f' /\ buffer_of p' = Some v' /\ tied p' /\ inv p'
  | Panic => prun brk cs p = Panic
  end.
Proof.
  induction cs as [|[al c] cs IH]; intros p v I0 T V F; cbn [prun buffer_calls].
  { cbn. exists [], p. auto 8. }
  inversion_clear F as [|? ? [Fa [Fc Fo]] F']. cbn [fst snd] in *.
  pose proof (pexec_ordinary al c p v Fa Fc Fo I0 T V) as X.
  pose proof (pexec_any al c p Fa Fc I0) as Y.
  pose proof (fun o p' => pexec_tied al c p o p' Fa Fc Fo I0 T) as Z.
  assert (Other : forall o ks, pexec brk al c p = Ok (o, Prog (pr_buffer p) ks (pr_heap p) (pr_disk p)) ->
    match o with PBout _ => False | _ => True end ->
    match brun brk (buffer_calls cs) v (pr_disk p) with
    | Ok (os, v', f') => exists os' p', (let* (o, p1) := pexec brk al c p in let* (os, p2) := prun brk cs p1 in Ok (o :: os, p2)) = Ok (os', p') /\ buffer_outs os' = os /\
      pr_disk p' = f' /\ buffer_of p' = Some v' /\ tied p' /\ inv p'
    | Panic => (let* (o, p1) := pexec brk al c p in let* (os, p2) := prun brk cs p1 in Ok (o :: os, p2)) = Panic
    end).
  { intros o ks E Eo. rewrite E in *. cbn [bind]. specialize (IH _ v Y (Z _ _ eq_refl) V F'). cbn [pr_disk] in IH.
    destruct (brun brk (buffer_calls cs) v (pr_disk p)) as [[[os v'] f']|]; [|now rewrite IH].
    destruct IH as (os' & p' & E' & H1 & H2). rewrite E'. cbn [bind]. exists (o :: os'), p'.
    split; [reflexivity|]. split; [now destruct o|assumption]. }
  destruct c as [c| |i m|i|i c]; [|destruct X as (o & ks & E & Eo); exact (Other o ks E Eo)..].
  cbn [brun]. destruct (bexec brk al c v (pr_disk p)) as [[[o v'] f']|]; cbn [bind]; [|now rewrite X].
  destruct X as (b' & h' & E & V' & _). rewrite E in *. cbn [bind].
  specialize (IH _ v' Y (Z _ _ eq_refl) V' F'). cbn [pr_disk] in IH.
  destruct (brun brk (buffer_calls cs) v' f') as [[[os v2] f2]|]; cbn [bind]; [|now rewrite IH].
  destruct IH as (os' & p' & E' & <- & H2). rewrite E'. cbn [bind]. exists (PBout o :: os'), p'.
  split; [reflexivity|]. split; [reflexivity|assumption].
Qed.

(** ** Programs that do not replace the text *)

Fixpoint op_in_place (op : operation) : Prop :=
  match op with
  | OpReplace _ _ => False
  | OpGroup ops => (fix go ops := match ops with [] => True | o :: rest => op_in_place o /\ go rest end) ops
  | _ => True
  end.
Lemma op_in_place_group ops : op_in_place (OpGroup ops) <-> Forall op_in_place ops.
Proof.
  induction ops as [|o ops IH]; [split; constructor|]. cbn [op_in_place] in *. rewrite IH. split.
  - intros [H1 H2]. now constructor.
  - intros H. inversion_clear H. now split.
Qed.

Lemma rnotify_data b p h b' h' : rnotify reader b p h = Ok (b', h') -> rb_data b' = rb_data b.
Proof.
  unfold rnotify, mbind, ret. destruct (rb_callback b) as [r|]; [|now intros [= <- _]].
  destruct (reader r p (rb_log b) h) as [[t h1]|]; cbn [bind]; [|discriminate]. now intros [= <- _].
Qed.
Lemma op_run_in_place al op : op_in_place op -> forall v op' v', op_run brk al op v = Ok (op', v') -> op_in_place op'.
Proof.
  induction op as [d p|c r|s t|ops IH] using operation_induction; intros Hv v op' v' E.
  - cbn [op_run] in E. destruct (gb_insert brk al (b_data v) d p); [|discriminate]. now injection E as <- _.
  - cbn [op_run] in E. destruct (gb_read brk (b_data v) r); [|discriminate]. cbn [bind] in E.
    destruct (gb_delete brk (b_data v) r); [|discriminate]. now injection E as <- _.
  - easy.
  - change (op_run brk al (OpGroup ops) v) with (let* (ops', b') := go_run brk al ops v in Ok (OpGroup ops', b')) in E.
    destruct (go_run brk al ops v) as [[ops' v2]|] eqn:Eg; [|discriminate]. injection E as <- _.
    apply op_in_place_group in Hv. apply op_in_place_group. revert v ops' v2 Eg.
    induction ops as [|o ops IHo]; intros v ops' v2 Eg; cbn [go_run] in Eg; [injection Eg as <- _; constructor|].
    inversion_clear IH as [|? ? IH1 IH2]. inversion_clear Hv as [|? ? V1 V2].
    destruct (op_run brk al o v) as [[o' v1]|] eqn:E1; [|discriminate]. cbn [bind] in Eg.
    destruct (go_run brk al ops v1) as [[rest' v3]|] eqn:E2; [|discriminate]. injection Eg as <- _.
    constructor; [eapply IH1; eassumption|eapply IHo; eassumption].
Qed.

Lemma rop_run_data al op : op_in_place op -> forall b h op' b' h',
  rop_run brk reader al op b h = Ok ((op', b'), h') -> rb_data b' = rb_data b.
Proof.
  induction op as [d p|c r|s t|ops IH] using operation_induction; intros Hv b h op' b' h' E.
  - cbn [rop_run] in E. unfold mbind in E. destruct (writing _ _ h) as [[u h1]|]; cbn [bind] in E; [|discriminate].
    destruct (rnotify reader b p h1) as [[b1 h2]|] eqn:En; [|discriminate]. injection E as _ <- _. eapply rnotify_data; eassumption.
  - cbn [rop_run] in E. unfold mbind in E. destruct (reading _ _ h) as [[m h1]|]; cbn [bind] in E; [|discriminate].
    destruct (writing _ _ h1) as [[u h2]|]; cbn [bind] in E; [|discriminate].
    destruct (rnotify reader b (r_start r) h2) as [[b1 h3]|] eqn:En; [|discriminate]. injection E as _ <- _.
    eapply rnotify_data; eassumption.
  - easy.
  - cbn [rop_run] in E. unfold mbind at 1 in E.
    set (go := fix go (ops : list operation) (b : rbuffer) : M (list operation * rbuffer) := _) in E.
    destruct (go ops b h) as [[[ops' b2] h2]|] eqn:Eg; [|discriminate]. injection E as _ <- _.
    apply op_in_place_group in Hv. revert b h ops' b2 h2 Eg.
    induction ops as [|o ops IHo]; intros b h ops' b2 h2 Eg; [now injection Eg as _ <- _|].
    inversion_clear IH as [|? ? IH1 IH2]. inversion_clear Hv as [|? ? V1 V2].
    unfold go in Eg; fold go in Eg. unfold mbind in Eg.
    destruct (rop_run brk reader al o b h) as [[[o' b1] h1]|] eqn:E1; [|discriminate]. cbn [bind] in Eg.
    destruct (go ops b1 h1) as [[[rest' b3] h3]|] eqn:E2; [|discriminate]. injection Eg as _ <- _.
    rewrite (IHo IH2 V2 _ _ _ _ _ E2). eapply IH1; eassumption.
Qed.
Lemma rop_reverse_data al op : op_in_place op -> forall b h b' h',
  rop_reverse brk reader al op b h = Ok (b', h') -> rb_data b' = rb_data b.
Proof.
  induction op as [d p|c r|s t|ops IH] using operation_induction; intros Hv b h b' h' E.
  - cbn [rop_reverse] in E. destruct (insert_end brk d p); [|now injection E as <- _].
    unfold mbind in E. destruct (writing _ _ h) as [[u h1]|]; cbn [bind] in E; [|discriminate].
    eapply rnotify_data; eassumption.
  - cbn [rop_reverse] in E. destruct c; [|now injection E as <- _].
    unfold mbind in E. destruct (writing _ _ h) as [[u h1]|]; cbn [bind] in E; [|discriminate].
    eapply rnotify_data; eassumption.
  - easy.
  - cbn [rop_reverse] in E. set (go := fix go (ops : list operation) (b : rbuffer) : M rbuffer := _) in E.
    apply op_in_place_group in Hv. revert b h b' h' E.
    induction ops as [|o ops IHo]; intros b h b' h' E; [now injection E as <- _|].
    inversion_clear IH as [|? ? IH1 IH2]. inversion_clear Hv as [|? ? V1 V2].
    unfold go in E; fold go in E. unfold mbind in E.
    destruct (go ops b h) as [[b1 h1]|] eqn:E1; [|discriminate]. cbn [bind] in E.
    rewrite (IH1 V1 _ _ _ _ E). eapply (IHo IH2 V2); eassumption.
Qed.

(** The operations a buffer remembers. *)
Definition ops_in_place (h : history) (g : option (list operation)) : Prop :=
  Forall op_in_place (h_previous h) /\ Forall op_in_place (h_next h) /\
  match g with Some ops => Forall op_in_place ops | None => True end.

Lemma pbuffer_data al c f b h o b' f' h' : in_place (PBuffer c) -> ops_in_place (rb_history b) (rb_group b) ->
  pbuffer brk reader al c b f h = Ok ((o, b', f'), h') -> rb_data b' = rb_data b.
Proof.
  intros Hc (H1 & H2 & H3) E.
  assert (Edit : forall op h x, op_in_place op ->
    mbind (rop_run brk reader al op b) (fun '(op', b') => ret (rstore b' op')) h = Ok x -> rb_data (fst x) = rb_data b).
  { intros op h0 [b1 h1] Hop Ex. unfold mbind in Ex. destruct (rop_run brk reader al op b h0) as [[[op' b2] h2]|] eqn:Er; [|discriminate].
    injection Ex as <- _. cbn. rewrite (proj1 (store_refs b2 op')). eapply rop_run_data; eassumption. }
  destruct c; cbn [pbuffer in_place] in *; try easy; try unfold mbind at 1 in E; try (now injection E as _ <- _ _).
  - destruct (rinsert brk reader al b data h) as [[b1 h1]|] eqn:Ex; [|discriminate]. injection E as _ <- _ _.
    unfold rinsert in Ex. apply (Edit (OpInsert data (c_pos (rc_at (rb_cursor b)))) _ _ I Ex).
  - destruct (rdelete brk reader al b h) as [[b1 h1]|] eqn:Ex; [|discriminate]. injection E as _ <- _ _.
    unfold rdelete in Ex. unfold mbind at 1 in Ex. destruct (reading _ _ h) as [[k h2]|]; [|discriminate].
    cbn [bind] in Ex. unfold rdelete_range in Ex.
    set (r := range_new _ _) in Ex. apply (Edit (OpDelete None r) _ _ I Ex).
  - destruct (rdelete_range brk reader al b (range_new p q) h) as [[b1 h1]|] eqn:Ex; [|discriminate]. injection E as _ <- _ _.
    apply (Edit (OpDelete None (range_new p q)) _ _ I Ex).
  - destruct (rundo brk reader al b h) as [[b1 h1]|] eqn:Ex; [|discriminate]. injection E as _ <- _ _.
    unfold rundo in Ex. cbn [rb_history rset_group] in Ex.
    assert (Hist : let '(op, x) := hist_previous (rb_history b) in match op with Some o => op_in_place o | None => True end).
    { unfold hist_previous. destruct (h_previous (rb_history b)); [exact I|]. now inversion_clear H1. }
    destruct (hist_previous (rb_history b)) as [op x].
    assert (Fin : match op with Some op => rop_reverse brk reader al op (rset_history (rset_group b None) x)
                 | None => ret (rset_history (rset_group b None) x) end h = Ok (b1, h1) -> rb_data b1 = rb_data b).
    { destruct op as [op|]; [|now intros [= <- _]]. intros Ey. now apply rop_reverse_data in Ey. }
    destruct (rb_group b) as [[|o1 ops]|]; [exact (Fin Ex)| |exact (Fin Ex)].
    apply rop_reverse_data in Ex; [assumption|]. now apply op_in_place_group.
  - destruct (rredo brk reader al b h) as [[b1 h1]|] eqn:Ex; [|discriminate]. injection E as _ <- _ _.
    unfold rredo in Ex.
    assert (Hist : let '(op, x) := hist_next (rb_history b) in match op with Some o => op_in_place o | None => True end).
    { unfold hist_next. destruct (h_next (rb_history b)); [exact I|]. now inversion_clear H2. }
    destruct (hist_next (rb_history b)) as [[op|] x]; [|now injection Ex as <- _]. unfold mbind in Ex.
    destruct (rop_run brk reader al op (rset_history b x) h) as [[[op' b2] h2]|] eqn:Er; [|discriminate]. injection Ex as <- _.
    apply rop_run_data in Er; assumption.
  - unfold rstart_group in E. injection E as _ <- _ _. now destruct (rb_group b).
  - unfold rend_group in E. injection E as _ <- _ _. now destruct (rb_group b) as [[|]|].
  - destruct (rmove brk m (rb_cursor b) h) as [[k h1]|]; [|discriminate]. now injection E as _ <- _ _.
  - destruct (rsave f w b h) as [[[[r b1] f1] h1]|] eqn:Ex; [|discriminate]. injection E as _ <- _ _.
    unfold rsave in Ex. destruct (rb_path b); [|now injection Ex as _ <- _ _].
    destruct (outcome _ _ w); [now injection Ex as _ <- _ _|..]; unfold mbind in Ex;
      (destruct (rdata b h) as [[d h2]|]; [|discriminate]); now injection Ex as _ <- _ _.
Qed.

Lemma ops_store v op : ops_in_place (b_history v) (b_group v) -> op_in_place op ->
  ops_in_place (b_history (store v op)) (b_group (store v op)).
Proof.
  intros (H1 & H2 & H3) H. unfold store. destruct (b_group v) as [ops|] eqn:Eg; cbn; unfold ops_in_place.
  - split; [assumption|]. split; [assumption|]. apply Forall_app. split; [assumption|]. now constructor.
  - cbn. rewrite Eg. split; [now constructor|]. split; [constructor|exact I].
Qed.

Lemma bexec_ops al c f v o v' f' : alloc_ok al -> call_ok c -> in_place (PBuffer c) -> wfb v ->
  ops_in_place (b_history v) (b_group v) -> bexec brk al c v f = Ok (o, v', f') ->
  ops_in_place (b_history v') (b_group v').
Proof.
  intros Hal Hok Hc W H E. pose proof H as (H1 & H2 & H3).
  assert (Edit : forall op x, op_in_place op -> op_valid op ->
    (let* (op', v') := op_run brk al op v in Ok (store v' op')) = Ok x -> ops_in_place (b_history x) (b_group x)).
  { intros op x Hop Hv Ex. pose proof (op_run_step brk al op Hal Hv v (wfb_data _ W)) as X.
    destruct (op_run brk al op v) as [[op' v1]|] eqn:Er; [|discriminate]. injection Ex as <-.
    destruct X as [[_ (_ & _ & R3 & R4 & _) _] _].
    apply ops_store; [now rewrite R3, R4|]. eapply op_run_in_place; eassumption. }
  assert (Rng : forall p q, op_valid (OpDelete None (range_new p q))) by (intros; split; [exact I|eauto]).
  destruct c; cbn [bexec in_place call_ok] in *; try easy; try (now injection E as _ <- _).
  - destruct (buf_insert brk al v data) as [x|] eqn:Ex; [|discriminate]. injection E as _ <- _.
    unfold buf_insert in Ex. apply (Edit (OpInsert data (c_pos (b_cursor v))) x I Hok Ex).
  - destruct (buf_delete brk al v) as [x|] eqn:Ex; [|discriminate]. injection E as _ <- _.
    unfold buf_delete in Ex. destruct (in_bounds brk (b_data v) _) as [k|]; [|discriminate]. cbn [bind] in Ex.
    unfold buf_delete_range in Ex. set (r := range_new _ _) in Ex. apply (Edit (OpDelete None r) x I (Rng _ _) Ex).
  - destruct (buf_delete_range brk al v (range_new p q)) as [x|] eqn:Ex; [|discriminate]. injection E as _ <- _.
    unfold buf_delete_range in Ex. set (r := range_new _ _) in Ex. apply (Edit (OpDelete None r) x I (Rng _ _) Ex).
  - destruct (buf_undo brk al v) as [x|] eqn:Ex; [|discriminate]. injection E as _ <- _.
    assert (Run : forall op v1, op_valid op -> wf (b_data v1) -> op_reverse brk al op v1 = Ok x ->
      ops_in_place (b_history v1) (b_group v1) -> ops_in_place (b_history x) (b_group x)).
    { intros op v1 Hv Wd Er Hx. pose proof (op_reverse_step brk al op Hal Hv v1 Wd) as X. rewrite Er in X.
      destruct X as [_ (_ & _ & R3 & R4 & _) _]. now rewrite R3, R4. }
    unfold buf_undo in Ex.
    assert (Fin : (let '(op, h) := hist_previous (b_history v) in
       match op with Some op => op_reverse brk al op (set_history (set_group v None) h)
       | None => Ok (set_history (set_group v None) h) end) = Ok x -> ops_in_place (b_history x) (b_group x)).
    { unfold hist_previous. pose proof (wfb_prev _ W) as Wp. destruct (h_previous (b_history v)) as [|op l] eqn:Ep; intros Ey.
      - injection Ey as <-. cbn. split; [cbn; rewrite ?Ep; constructor|now split].
      - inversion_clear H1. inversion_clear Wp. apply Run in Ey; try assumption; [apply W|].
        cbn. split; [assumption|]. split; [now constructor|exact I]. }
    destruct (b_group v) as [[|o1 ops]|] eqn:Eg.
    + apply Fin. cbn [b_history set_group] in Ex. now destruct (hist_previous (b_history v)).
    + apply Run in Ex; try assumption; [|apply W|].
      * apply op_valid_group. pose proof (wfb_group _ W) as G. now rewrite Eg in G.
      * cbn. now split.
    + apply Fin. cbn [b_history set_group] in Ex. now destruct (hist_previous (b_history v)).
  - destruct (buf_redo brk al v) as [x|] eqn:Ex; [|discriminate]. injection E as _ <- _.
    unfold buf_redo, hist_next in Ex. pose proof (wfb_next _ W) as Wn. destruct (h_next (b_history v)) as [|op l] eqn:En.
    + injection Ex as <-. cbn. unfold ops_in_place. cbn. rewrite ?En. split; [assumption|]. split; [constructor|assumption].
    + inversion_clear H2. inversion_clear Wn as [|? ? Vo _].
      set (v1 := set_history v _) in Ex. pose proof (op_run_step brk al op Hal Vo v1 (wfb_data _ W)) as X.
      destruct (op_run brk al op v1) as [[op' v2]|] eqn:Er; [|discriminate]. injection Ex as <-.
      destruct X as [[_ (_ & _ & R3 & R4 & _) _] _]. rewrite R3, R4. unfold v1. cbn.
      split; [now constructor|]. now split.
  - injection E as _ <- _. unfold start_group. destruct (b_group v) eqn:Eg; [now rewrite Eg|].
    cbn. split; [assumption|]. split; [assumption|constructor].
  - injection E as _ <- _. unfold end_group. destruct (b_group v) as [[|o1 ops]|] eqn:Eg; cbn.
    + now split.
    + split; [|split; [constructor|exact I]]. cbn. constructor; [|assumption]. now apply op_in_place_group.
    + now rewrite Eg.
  - destruct (cexec brk (b_data v) m (b_cursor v)); [|discriminate]. now injection E as _ <- _.
  - destruct (buf_save f w v) as [[[r x] f1]|] eqn:Ex; [|discriminate]. injection E as _ <- _.
    unfold buf_save in Ex. destruct (b_path v); [|now injection Ex as _ <- _].
    destruct (outcome _ _ w); [now injection Ex as _ <- _|..]; (destruct (buf_data v); [|discriminate]); now injection Ex as _ <- _.
Qed.

Record steady (p : program) : Prop := Steady {
  sd_tied : tied p;
  sd_clones : Forall (fun k => rc_data k = rb_data (pr_buffer p)) (pr_cursors p);
  sd_callback : rb_callback (pr_buffer p) = None \/ rb_callback (pr_buffer p) = Some (rb_data (pr_buffer p));
  sd_ops : ops_in_place (rb_history (pr_buffer p)) (rb_group (pr_buffer p)) }.

Lemma pexec_steady al c p o p' : alloc_ok al -> pcall_ok c -> ordinary c -> in_place c -> inv p -> steady p ->
  pexec brk al c p = Ok (o, p') -> steady p' /\ rb_data (pr_buffer p') = rb_data (pr_buffer p).
Proof.
  intros Hal Hc Ho Hi I0 [T K C O] E. destruct (inv_view _ I0) as (v & V & W).
  pose proof (pexec_ordinary al c p v Hal Hc Ho I0 T V) as X.
  pose proof (pexec_tied al c p o p' Hal Hc Ho I0 T E) as T'.
  destruct p as [b ks h f]. destruct c as [c| |i m|i|i c].
  - cbn [pr_disk pr_heap pr_buffer pr_cursors] in *.
    destruct (bexec brk al c v f) as [[[o' v'] f']|] eqn:Ev; [|congruence].
    destruct X as (b' & h' & E' & V' & A). rewrite E in E'. injection E' as -> ->. cbn.
    assert (D : rb_data b' = rb_data b).
    { cbn [pexec pr_buffer pr_disk pr_heap pr_cursors] in E. destruct (pbuffer brk reader al c b f h) as [[[[o1 b1] f1] h1]|] eqn:Ep; [|discriminate].
      injection E as _ <- _ _. eapply pbuffer_data; eassumption. }
    split; [|assumption]. split; cbn.
    + exact T'.
    + now rewrite D.
    + rewrite D. assert (Y : after h b h' b' v' -> rb_callback b' = None \/ rb_callback b' = Some (rb_data b)).
      { intros [_ _ _ [_ _ -> _ _ _]]. exact C. }
      destruct c; try exact (Y A). destruct A as (_ & -> & _). cbn. unfold tied in T. cbn in T. rewrite T. destruct on0; auto.
    + unfold buffer_of in V. cbn in V. destruct (seen_inv _ _ _ V) as (_ & _ & _ & Eh & Eg & _). destruct (seen_inv _ _ _ V') as (_ & _ & _ & <- & <- & _).
      rewrite <- Eh, <- Eg in O. exact (bexec_ops al c f v _ _ _ Hal Hc Hi W O Ev).
  - cbn in E. injection E as _ <-. split; [|reflexivity]. split; cbn; try assumption.
    apply Forall_app. split; [assumption|]. constructor; [exact T|constructor].
  - cbn [pexec pr_buffer pr_disk pr_heap pr_cursors] in E. destruct (nth_error ks i) as [k|] eqn:Ek; [|injection E as _ <-; now split].
    pose proof (proj1 (Forall_forall _ _) (inv_clones _ I0) k (nth_error_In _ _ Ek)) as Lk. cbn in Lk.
    destruct (rmove_any m k h (inv_sound _ I0) Lk) as (g & c' & _ & _ & Er). rewrite Er in E. injection E as _ <-.
    split; [|reflexivity]. split; cbn; try assumption. apply Forall_replaced; [assumption|].
    exact (proj1 (Forall_forall _ _) K k (nth_error_In _ _ Ek)).
  - easy.
  - destruct X as (o' & ks' & E' & _). rewrite E in E'. injection E' as -> ->.
    cbn [pexec pr_buffer pr_disk pr_heap pr_cursors] in E. destruct (nth_error ks i) as [k|]; [|injection E as _ <-; now split].
    destruct (pstorage brk al c (rc_data k) h) as [[o1 h1]|]; [|discriminate]. cbn [bind] in E. injection E as _ <- _.
    split; [now split|reflexivity].
Qed.

Lemma prun_steady cs : forall p os p', inv p -> steady p ->
  Forall (fun ac => alloc_ok (fst ac) /\ pcall_ok (snd ac) /\ (ordinary (snd ac) /\ in_place (snd ac))) cs ->
  prun brk cs p = Ok (os, p') -> steady p'.
Proof.
  induction cs as [|[al c] cs IH]; intros p os p' I0 H F E; cbn [prun] in E; [now injection E as _ <-|].
  apply Forall_cons_iff in F as [(Fa & Fc & Fo & Fi) F']. cbn [fst snd] in *.
  pose proof (pexec_any al c p Fa Fc I0) as Y. destruct (pexec brk al c p) as [[o p1]|] eqn:E1; [|discriminate].
  cbn [bind] in E. destruct (prun brk cs p1) as [[os2 p2]|] eqn:E2; [|discriminate]. injection E as _ <-.
  eapply (IH p1); [assumption| |assumption|eassumption].
  now apply (pexec_steady al c p o p1 Fa Fc Fo Fi I0 H).
Qed.
Lemma runs_steady p : reaches brk (fun c => ordinary c /\ in_place c) p -> steady p.
Proof.
  intros (f & p0 & cs & os & H0 & H & E).
  destruct (starts_facts _ _ H0) as (v & _ & _ & I0 & X1 & X2 & X3 & X4 & X5).
  apply (prun_steady cs p0 os p I0); try assumption.
  split; try assumption; [|now left|].
  - destruct H0 as (-> & _). constructor.
  - unfold ops_in_place. now rewrite X3, X4, X5.
Qed.

(** ** The properties *)

Lemma value_model f p cs : starts f p ->
  Forall (fun ac => alloc_ok (fst ac) /\ pcall_ok (snd ac) /\ ordinary (snd ac)) cs ->
  exists v, buffer_of p = Some v /\ fresh_buffer f v /\
    match brun brk (buffer_calls cs) v f with
    | Ok (os, v', f') => exists os' p', prun brk cs p = Ok (os', p') /\ buffer_outs os' = os /\
        pr_disk p' = f' /\ buffer_of p' = Some v'
    | Panic => prun brk cs p = Panic
    end.
Proof.
  intros H0 F. destruct (starts_facts _ _ H0) as (v & V & Fr & I0 & T & _). exists v. split; [assumption|].
  split; [assumption|]. pose proof (prun_ordinary cs p v I0 T V F) as X.
  destruct H0 as (_ & Ed & _). rewrite Ed in X.
  destruct (brun brk (buffer_calls cs) v f) as [[[os v'] f']|]; [|assumption].
  destruct X as (os' & p' & E & X1 & X2 & X3 & _). now exists os', p'.
Qed.

Lemma buffer_calls_ok cs :
  Forall (fun ac => alloc_ok (fst ac) /\ pcall_ok (snd ac) /\ ordinary (snd ac)) cs ->
  Forall (fun ac => alloc_ok (fst ac) /\ call_ok (snd ac)) (buffer_calls cs).
Proof.
  induction cs as [|[al c] cs IH]; intros H; [constructor|]. apply Forall_cons_iff in H as [(Ha & Hc & _) H].
  destruct c; cbn; try now apply IH. constructor; [|now apply IH]. now split.
Qed.

Lemma ordinary_run p : reaches brk ordinary p -> tied p /\ exists v, buffer_of p = Some v /\ reachable_buffer brk v (pr_disk p).
Proof.
  intros (f & p0 & cs & os & H0 & F & E). destruct (starts_facts _ _ H0) as (v & V & Fr & I0 & T & _).
  pose proof (prun_ordinary cs p0 v I0 T V F) as X. rewrite E in X. destruct H0 as (_ & Ed & _). rewrite Ed in X.
  destruct (brun brk (buffer_calls cs) v f) as [[[os2 v2] f2]|] eqn:Eb; [|discriminate].
  destruct X as (os' & p' & Ex & X1 & X2 & X3 & X4 & X5). injection Ex as <- <-. split; [assumption|].
  exists v2. split; [assumption|]. rewrite X2. exists v, f, (buffer_calls cs), os2.
  split; [assumption|]. split; [|assumption]. now apply buffer_calls_ok.
Qed.

Lemma clone_moves p v i k m al : reaches brk (fun c => ordinary c /\ in_place c) p -> buffer_of p = Some v ->
  nth_error (pr_cursors p) i = Some k ->
  exists k' p', pexec brk al (PMove i m) p = Ok (PUnit, p') /\ nth_error (pr_cursors p') i = Some k' /\
    cexec brk (b_data v) m (rc_at k) = Ok (rc_at k') /\ buffer_of p' = Some v.
Proof.
  intros R V Ek. pose proof (runs_inv _ _ R) as I0. pose proof (runs_steady _ R) as Sd.
  pose proof (proj1 (Forall_forall _ _) (inv_clones _ I0) k (nth_error_In _ _ Ek)) as Lk.
  pose proof (proj1 (Forall_forall _ _) (sd_clones _ Sd) k (nth_error_In _ _ Ek)) as Dk. cbn in Lk, Dk.
  destruct (rmove_any m k (pr_heap p) (inv_sound _ I0) Lk) as (g & c' & E & Ec & Er).
  eexists _, _. cbn [pexec]. rewrite Ek, Er. cbn [bind]. split; [reflexivity|]. cbn [pr_cursors].
  assert (Li : i < length (pr_cursors p)) by (apply nth_error_Some; congruence).
  split.
  { rewrite nth_error_app2; rewrite firstn_length_le by lia; [|lia]. rewrite Nat.sub_diag. reflexivity. }
  cbn [rc_at on]. split; [|exact V]. rewrite <- Ec. f_equal. rewrite Dk in E. now apply (seen_data _ _ _ _ V).
Qed.

Lemma callback_sees p al c o p' : reaches brk (fun c => ordinary c /\ in_place c) p ->
  rb_callback (pr_buffer p) <> None -> alloc_ok al -> call_ok c -> in_place (PBuffer c) -> keeps_callback c ->
  pexec brk al (PBuffer c) p = Ok (o, p') ->
  exists l, rb_log (pr_buffer p') = rb_log (pr_buffer p) ++ l /\
    match rev l with
    | [] => ptext p' = ptext p
    | (_, t) :: _ => ptext p' = Ok t
    end.
Proof.
  intros R C Ha Hc Hi Hk E. pose proof (runs_inv _ _ R) as I0. pose proof (runs_steady _ R) as Sd.
  destruct (inv_view _ I0) as (v & V & W).
  pose proof (pexec_ordinary al (PBuffer c) p v Ha Hc I I0 (sd_tied _ Sd) V) as X. cbn beta iota in X.
  destruct (pexec_steady al (PBuffer c) p o p' Ha Hc I Hi I0 Sd E) as [_ D].
  destruct (bexec brk al c v (pr_disk p)) as [[[o' v'] f']|]; [|congruence].
  destruct X as (b' & h' & E' & V' & A). rewrite E in E'. injection E' as -> ->. cbn [pr_buffer] in D.
  assert (A' : after (pr_heap p) (pr_buffer p) h' b' v') by (destruct c; exact A || easy).
  destruct (sd_callback _ Sd) as [C'|C']; [congruence|].
  destruct (ev_told _ _ _ _ (af_evolves _ _ _ _ _ A') C' D) as (l & El & Tl). exists l. split; [assumption|].
  unfold ptext. cbn [pr_heap pr_buffer]. rewrite D. destruct (rev l) as [|[q t] l']; [|assumption].
  unfold text_at. now rewrite Tl.
Qed.

Lemma aside_calls p al c o p' : reaches brk ordinary p -> alloc_ok al -> pcall_ok c -> ordinary c -> aside c ->
  pexec brk al c p = Ok (o, p') -> buffer_of p' = buffer_of p /\ pr_disk p' = pr_disk p.
Proof.
  intros R Ha Hc Ho Hs E. destruct (inv_view _ (runs_inv _ _ R)) as (v & V & _).
  pose proof (pexec_ordinary al c p v Ha Hc Ho (runs_inv _ _ R) (proj1 (ordinary_run _ R)) V) as X.
  destruct c; [easy|..]; destruct X as (o' & ks & E' & _); rewrite E in E'; injection E' as -> ->; now split.
Qed.
End Sim.
