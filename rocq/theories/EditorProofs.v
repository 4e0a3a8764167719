(** Buffers are editors. *)
From Verif Require Import Base Utf8 Utf8Proofs Grapheme GraphemeProofs Position GapBuffer
  GapBufferProofs Cursor PathModel Buffer Spec CursorSpec CursorCalls Calls TextProofs HalvesProofs TextFacts GapProps
  CursorProofs UaxProofs OpProofs BufferCalls Timeline TimelineProofs AnyTextProofs BufferProps Editor.

(** The changes an operation stands for. *)
Fixpoint chs (op : operation) : list change :=
  match op with
  | OpInsert _ p => [Inserted p]
  | OpDelete c r => [Removed (r_start r) (match c with Some _ => true | None => false end)]
  | OpReplace o n => [Swapped o n]
  | OpGroup ops => (fix go ops := match ops with [] => [] | o :: r => chs o ++ go r end) ops
  end.
Lemma chs_group ops : chs (OpGroup ops) = flat_map chs ops.
Proof. cbn [chs]. induction ops as [|o r IH]; [reflexivity|]. cbn [flat_map]. now rewrite <- IH. Qed.

Definition adds (b : buffer) (ps : list position) : list position :=
  if b_callback b then b_log b ++ ps else b_log b.
Lemma adds_nil b : adds b [] = b_log b.
Proof. unfold adds. destruct (b_callback b); [apply app_nil_r|reflexivity]. Qed.

(** Cursor and announcements after running or reversing an operation. *)
Definition eff (b b' : buffer) (cur : spec_cursor) (ps : list position) : Prop :=
  view (b_cursor b') = cur /\ b_log b' = adds b ps /\ b_callback b' = b_callback b.
Lemma eff_refl b : eff b b (view (b_cursor b)) [].
Proof. split; [reflexivity|]. split; [now rewrite adds_nil|reflexivity]. Qed.
Lemma eff_at b g p : eff b (notify (set_data b g) p) (view (b_cursor b)) [p].
Proof. now repeat split. Qed.
Lemma eff_trans b b1 b2 c1 c2 p1 p2 : eff b b1 c1 p1 -> eff b1 b2 c2 p2 -> eff b b2 c2 (p1 ++ p2).
Proof.
  intros (V1 & L1 & K1) (V2 & L2 & K2). split; [assumption|]. split; [|congruence].
  rewrite L2. unfold adds in *. rewrite K1, L1. destruct (b_callback b); [|reflexivity]. now rewrite app_assoc.
Qed.

Lemma replace_eff brk al s b b' : valid_text s -> plain_newlines brk s ->
  replace_content brk al s b = Ok b' -> eff b b' (keep brk s (view (b_cursor b))) [origin].
Proof.
  intros V Hp. unfold replace_content. destruct (holds_new brk al s V) as (g & E & H). rewrite E. cbn [bind].
  rewrite !(move_to_plain brk g s (conj H Hp)). cbn [bind].
  assert (H0 : exists_at brk s (Pos 0 0) = true) by (apply exists_first, lines_pos).
  unfold keep, kept_cursor. cbn [view at_pos].
  destruct (exists_at brk s (c_pos (b_cursor b))); cbn [bind].
  - intros [= <-]. now repeat split.
  - rewrite !(move_to_plain brk g s (conj H Hp)). cbn [bind]. intros [= <-].
    destruct (exists_at brk s (Pos (line (c_pos (b_cursor b))) 0)); now repeat split.
Qed.

Notation redone brk := (fold_left (fun cur c => moved brk c cur)).

Lemma run_eff brk op s t : op_ok brk op s t -> forall al b op' b',
  op_run brk al op b = Ok (op', b') ->
  eff b b' (redone brk (chs op) (view (b_cursor b))) (flat_map said (chs op)).
Proof.
  intros H.
  refine (op_ok_mut brk (fun op s t _ => forall al b op' b', op_run brk al op b = Ok (op', b') ->
      eff b b' (redone brk (chs op) (view (b_cursor b))) (flat_map said (chs op)))
    (fun ops s t _ => forall al b ops' b', go_run brk al ops b = Ok (ops', b') ->
      eff b b' (redone brk (flat_map chs ops) (view (b_cursor b)))
        (flat_map said (flat_map chs ops))) _ _ _ _ _ _ _ _ op s t H); clear.
  - intros d p t _ _ _ al b op' b'. cbn [op_run]. destruct (gb_insert _ _ _ _ _); [|discriminate].
    intros [= <- <-]. apply eff_at.
  - intros d p a b0 _ _ _ _ _ al b op' b'. cbn [op_run]. destruct (gb_insert _ _ _ _ _); [|discriminate].
    intros [= <- <-]. apply eff_at.
  - intros p q a m b0 _ _ _ _ _ al b op' b'. cbn [op_run]. destruct (gb_read _ _ _); [|discriminate].
    cbn [bind]. destruct (gb_delete _ _ _); [|discriminate]. intros [= <- <-]. apply eff_at.
  - intros p q t _ _ al b op' b'. cbn [op_run]. destruct (gb_read _ _ _); [|discriminate].
    cbn [bind]. destruct (gb_delete _ _ _); [|discriminate]. intros [= <- <-]. apply eff_at.
  - intros s t Vs Vt Ps Pt al b op' b'. cbn [op_run].
    destruct (replace_content brk al t b) as [b1|] eqn:E; [|discriminate]. intros [= <- <-].
    exact (replace_eff _ _ _ _ _ Vt Pt E).
  - intros ops s t _ IH al b op' b'. rewrite chs_group.
    change (op_run brk al (OpGroup ops) b) with (let* (ops', b') := go_run brk al ops b in Ok (OpGroup ops', b')).
    destruct (go_run brk al ops b) as [[ops' b1]|] eqn:E; [|discriminate]. intros [= <- <-]. eapply IH; exact E.
  - intros t al b ops' b' [= <- <-]. apply eff_refl.
  - intros op ops s t u _ IH1 _ IH2 al b ops' b'. cbn [go_run].
    destruct (op_run brk al op b) as [[o1 b1]|] eqn:E1; [|discriminate]. cbn [bind].
    destruct (go_run brk al ops b1) as [[r1 b2]|] eqn:E2; [|discriminate]. intros [= <- <-].
    specialize (IH1 _ _ _ _ E1). specialize (IH2 _ _ _ _ E2).
    cbn [flat_map]. rewrite fold_left_app, flat_map_app. pose proof IH1 as (<- & _). eapply eff_trans; eassumption.
Qed.

Notation undone brk := (fold_right (moved_back brk)).
Lemma flat_map_rev_app (a b : list change) :
  flat_map said_back (rev (a ++ b)) = flat_map said_back (rev b) ++ flat_map said_back (rev a).
Proof. now rewrite rev_app_distr, flat_map_app. Qed.

Lemma reverse_eff brk op s t : op_ok brk op s t -> forall al b b',
  op_reverse brk al op b = Ok b' ->
  eff b b' (undone brk (view (b_cursor b)) (chs op)) (flat_map said_back (rev (chs op))).
Proof.
  intros H.
  refine (op_ok_mut brk (fun op s t _ => forall al b b', op_reverse brk al op b = Ok b' ->
      eff b b' (undone brk (view (b_cursor b)) (chs op)) (flat_map said_back (rev (chs op))))
    (fun ops s t _ => forall al b b', go_rev brk al ops b = Ok b' ->
      eff b b' (undone brk (view (b_cursor b)) (flat_map chs ops))
        (flat_map said_back (rev (flat_map chs ops)))) _ _ _ _ _ _ _ _ op s t H); clear.
  - intros d p t _ _ _ al b b'. cbn [op_reverse]. rewrite insert_end_from.
    destruct (gb_delete _ _ _); [|discriminate]. intros [= <-]. apply eff_at.
  - intros d p a b0 _ _ _ _ _ al b b'. cbn [op_reverse]. rewrite insert_end_from.
    destruct (gb_delete _ _ _); [|discriminate]. intros [= <-]. apply eff_at.
  - intros p q a m b0 _ _ _ _ _ al b b'. cbn [op_reverse].
    destruct (gb_insert _ _ _ _ _); [|discriminate]. intros [= <-]. apply eff_at.
  - intros p q t _ _ al b b'. cbn [op_reverse]. intros [= <-]. apply eff_refl.
  - intros s t Vs Vt Ps Pt al b b'. cbn [op_reverse]. apply replace_eff; assumption.
  - intros ops s t _ IH al b b' E. rewrite chs_group. exact (IH al b b' E).
  - intros t al b b' [= <-]. apply eff_refl.
  - intros op ops s t u _ IH1 _ IH2 al b b'. cbn [go_rev].
    destruct (go_rev brk al ops b) as [b1|] eqn:E1; [|discriminate]. cbn [bind]. intros E2.
    specialize (IH2 _ _ _ E1). specialize (IH1 _ _ _ E2).
    cbn [flat_map]. rewrite fold_right_app, flat_map_rev_app. pose proof IH2 as (<- & _). eapply eff_trans; eassumption.
Qed.

(** ** The invariant *)

Definition open_ops (b : buffer) : list operation := match b_group b with Some ops => ops | None => [] end.

Record einv (brk : brk_rule) (b : buffer) (f : fsys) (e : editor) : Prop := EInv {
  ei_inv : inv brk b (ed_time e);
  ei_undo : map chs (h_previous (b_history b)) = ed_undo e;
  ei_redo : map chs (h_next (b_history b)) = ed_redo e;
  ei_open : flat_map chs (open_ops b) = ed_open e;
  ei_cursor : view (b_cursor b) = ed_cursor e;
  ei_path : b_path b = ed_path e;
  ei_id : b_id b = ed_id e;
  ei_syntax : b_syntax b = ed_syntax e;
  ei_callback : b_callback b = ed_listening e;
  ei_log : b_log b = ed_heard e;
  ei_disk : f = ed_disk e }.

Lemma einv_file brk b f e : einv brk b f e -> file_of b f = ed_file e.
Proof. intros []. unfold file_of, ed_file. now rewrite ei_path0, ei_disk0. Qed.
Lemma einv_pos brk b f e : einv brk b f e -> c_pos (b_cursor b) = at_pos (ed_cursor e).
Proof. intros []. now rewrite <- ei_cursor0. Qed.

Lemma heard_adds brk b f e ps : einv brk b f e -> adds b ps = heard e ps.
Proof. intros []. unfold adds, heard. now rewrite ei_callback0, ei_log0. Qed.

Ltac ed_simp := cbn [ed_time ed_undo ed_redo ed_open ed_cursor ed_path ed_id ed_syntax ed_listening
  ed_heard ed_disk with_time with_cursor with_disk with_changes tell] in *.

Lemma group_shape brk b tl : inv brk b tl ->
  match group tl with
  | None => b_group b = None
  | Some None => b_group b = Some []
  | Some (Some _) => exists o ops, b_group b = Some (o :: ops)
  end.
Proof.
  intros [_ _ _ H _ _]. unfold group_ok in H.
  destruct (b_group b) as [[|o ops]|], (group tl) as [[s|]|]; try contradiction; eauto.
Qed.

(** Storing an edit. *)
Lemma store_einv brk b b1 f e op t c : einv brk b f e -> op_ok brk op (ed_text e) t ->
  bholds brk b1 t -> same_rest b b1 -> chs op = [c] ->
  eff b b1 (moved brk c (ed_cursor e)) (said c) ->
  einv brk (store b1 op) f (ed_edit brk e t c).
Proof.
  intros He Hop Hb R Ec (V & L & K). pose proof (ei_inv _ _ _ _ He) as Hi.
  pose proof (store_inv brk b b1 (ed_time e) op t Hi Hop Hb R) as Hi'.
  rewrite (heard_adds _ _ _ _ _ He) in L.
  pose proof (group_shape _ _ _ Hi) as G. destruct R as (R1 & R2 & R3 & R4 & R5 & R6).
  destruct He. unfold ed_edit, store in *. rewrite R4 in *.
  destruct (group (ed_time e)) as [[s|]|] eqn:Eg.
  - destruct G as (o & ops & G). rewrite G in *.
    split; ed_simp; unfold open_ops in *; cbn [b_id b_path b_cursor b_history b_group b_syntax b_callback b_log set_group set_history]; try congruence.
    + rewrite G in ei_open0. rewrite flat_map_app, ei_open0. cbn [flat_map]. now rewrite Ec.
    + unfold heard in *. cbn [ed_listening ed_heard]. assumption.
  - rewrite G in *.
    split; ed_simp; unfold open_ops in *; cbn [b_id b_path b_cursor b_history b_group b_syntax b_callback b_log set_group set_history]; try congruence.
    + rewrite G in ei_open0. rewrite flat_map_app, ei_open0. cbn [flat_map]. now rewrite Ec.
    + unfold heard in *. cbn [ed_listening ed_heard]. assumption.
  - rewrite G in *.
    split; ed_simp; unfold open_ops in *; cbn [b_id b_path b_cursor b_history b_group b_syntax b_callback b_log set_group set_history]; try congruence.
    + cbn [hist_add h_previous map]. rewrite R3, Ec. now f_equal.
    + reflexivity.
    + now rewrite R4.
    + unfold heard in *. cbn [ed_listening ed_heard]. assumption.
Qed.

Lemma replace_einv brk al b f e s : alloc_ok al -> einv brk b f e -> valid_text s -> plain_newlines brk s ->
  exists b', buf_replace brk al b s = Ok b' /\ einv brk b' f (ed_replace brk e s).
Proof.
  intros Hal H V Hs. pose proof (inv_data _ _ _ (ei_inv _ _ _ _ H)) as Hd. unfold buf_replace, ed_replace, ed_text in *.
  rewrite (bholds_data _ _ _ Hd). cbn [bind]. rewrite list_N_eqb_dec.
  destruct (list_eq_dec N.eq_dec s (tl_text (ed_time e))) as [->|Hne]; [eauto|].
  cbn [op_run]. destruct (replace_content_ok brk al s b V Hs) as (b1 & E & Hb1 & R). rewrite E. cbn [bind].
  eexists. split; [reflexivity|].
  eapply store_einv; try eassumption.
  - constructor; try assumption; [now apply bholds_valid in Hd|apply Hd].
  - reflexivity.
  - cbn [moved]. rewrite <- (ei_cursor _ _ _ _ H). exact (replace_eff _ _ _ _ _ V Hs E).
Qed.

Lemma removed_back brk t p q :
  (match spec_read brk t p q with Some _ => true | None => false end) = exists_at brk t p && exists_at brk t q.
Proof.
  unfold spec_read, exists_at, first_of, second_of. destruct (before q p);
    destruct (split_at brk t p) as [[? ?]|], (split_at brk t q) as [[? ?]|]; reflexivity.
Qed.

Lemma remove_einv brk al b f e p q : alloc_ok al -> einv brk b f e -> clean_call brk (GDelete p q) (ed_text e) ->
  exists_at brk (ed_text e) (second_of p q) = true \/ spec_delete brk (ed_text e) p q = ed_text e ->
  exists b', buf_delete_range brk al b (range_new p q) = Ok b' /\ einv brk b' f (ed_remove brk e p q).
Proof.
  intros Hal H Hc Hor. pose proof (inv_data _ _ _ (ei_inv _ _ _ _ H)) as Hd. fold (ed_text e) in Hd.
  unfold buf_delete_range, ed_remove.
  destruct (del_run brk al b p q _ Hd Hc None) as (b1 & E & H1 & R).
  rewrite E. cbn [bind]. eexists. split; [reflexivity|].
  pose proof (new_delete brk (ed_text e) p q (bholds_valid _ _ _ Hd) (proj2 Hd) Hc Hor) as Hop.
  eapply store_einv; try eassumption.
  - cbn [chs]. now rewrite removed_back, range_new_ordered.
  - cbn [op_run] in E. destruct (gb_read _ _ _); [|discriminate]. cbn [bind] in E.
    destruct (gb_delete _ _ _); [|discriminate]. injection E as _ <-.
    cbn [moved said]. rewrite <- (ei_cursor _ _ _ _ H). rewrite range_new_ordered. apply eff_at.
Qed.

(** Undoing. *)
Lemma undo_einv brk al b f e : alloc_ok al -> einv brk b f e ->
  exists b', buf_undo brk al b = Ok b' /\ einv brk b' f (ed_undo_step brk e).
Proof.
  intros Hal H. pose proof (ei_inv _ _ _ _ H) as Hi.
  destruct (undo_inv brk al b (ed_time e) Hal Hi) as (b' & E & Hi').
  exists b'. split; [assumption|]. pose proof (group_shape _ _ _ Hi) as G.
  assert (Heard : forall b1 ps, b_callback b1 = b_callback b -> b_log b1 = b_log b -> adds b1 ps = heard e ps).
  { intros b1 ps K L. rewrite <- (heard_adds _ _ _ _ ps H). unfold adds. now rewrite K, L. }
  assert (Hist : b_group b = None \/ b_group b = Some [] ->
    (group (ed_time e) = None \/ group (ed_time e) = Some None) ->
    einv brk b' f (match ed_undo e with
      | cs :: us => take_back brk (with_changes (with_time e (tl_undo (ed_time e))) us (cs :: ed_redo e) []) cs
      | [] => with_time e (tl_undo (ed_time e)) end)).
  { intros Gb Gt.
    assert (E' : (let '(op, b1) := (let '(op, h) := hist_previous (b_history b) in (op, set_history (set_group b None) h)) in
        match op with Some op => op_reverse brk al op b1 | None => Ok b1 end) = Ok b').
    { rewrite <- E. unfold buf_undo. destruct Gb as [-> | ->]; reflexivity. }
    clear E. destruct H. destruct Hi as [J1 J2 J3 J4 J5 J6].
    assert (Eo : ed_open e = []).
    { rewrite <- ei_open0. unfold open_ops. destruct Gb as [-> | ->]; reflexivity. }
    assert (Eb : fst (base_of (ed_time e)) = tl_text (ed_time e)).
    { unfold base_of. destruct Gt as [-> | ->]; reflexivity. }
    unfold hist_previous in E'. destruct (b_history b) as [prev next mk] eqn:Eh. cbn [h_previous h_next h_mark] in *.
    rewrite <- ei_undo0. destruct prev as [|op prev]; cbn [map].
    - injection E' as <-. split; ed_simp; cbn [set_history set_group b_history b_group b_cursor b_path b_id
        b_syntax b_callback b_log h_previous h_next open_ops]; try assumption. symmetry. exact Eo.
    - destruct (past (ed_time e)) as [|s ps] eqn:Ep; [contradiction|]. destruct J2 as [Hop _].
      rewrite Eb in Hop.
      set (b1 := set_history (set_group b None) {| h_previous := prev; h_next := op :: next; h_mark := mk |}) in *.
      destruct (op_ok_reverse _ _ _ _ Hop al b1 Hal J1) as (b2 & E2 & _ & (R1 & R2 & R3 & R4 & R5 & R6)).
      rewrite E' in E2. injection E2 as <-.
      pose proof (reverse_eff _ _ _ _ Hop _ _ _ E') as (V & L & K).
      rewrite (Heard b1) in L by reflexivity. change (view (b_cursor b1)) with (view (b_cursor b)) in V.
      unfold take_back. split; ed_simp.
      + exact Hi'.
      + now rewrite R3.
      + rewrite R3. cbn [b1 set_history b_history h_next map]. now f_equal.
      + unfold open_ops. now rewrite R4.
      + now rewrite V, ei_cursor0.
      + rewrite R2. exact ei_path0.
      + rewrite R1. exact ei_id0.
      + rewrite R5. exact ei_syntax0.
      + rewrite R6. exact ei_callback0.
      + exact L.
      + assumption. }
  unfold ed_undo_step.
  destruct (group (ed_time e)) as [[s|]|] eqn:Eg; [|apply Hist; auto..].
  destruct G as (o & ops & G). destruct H. destruct Hi as [J1 J2 J3 J4 J5 J6].
  unfold group_ok in J4. rewrite G, Eg in J4. destruct J4 as [Hops _].
  pose proof (ok_group brk _ _ _ Hops) as Hop.
  unfold buf_undo in E. rewrite G in E.
  destruct (op_ok_reverse _ _ _ _ Hop al (set_group b None) Hal J1) as (b2 & E2 & _ & (R1 & R2 & R3 & R4 & R5 & R6)).
  rewrite E in E2. injection E2 as <-.
  pose proof (reverse_eff _ _ _ _ Hop _ _ _ E) as (V & L & K).
  rewrite Heard in L by reflexivity. change (view (b_cursor (set_group b None))) with (view (b_cursor b)) in V.
  rewrite chs_group in V, L. unfold open_ops in ei_open0. rewrite G in ei_open0. rewrite ei_open0 in V, L.
  unfold take_back. split; ed_simp.
  - exact Hi'.
  - rewrite R3. exact ei_undo0.
  - rewrite R3. exact ei_redo0.
  - unfold open_ops. now rewrite R4.
  - now rewrite V, ei_cursor0.
  - rewrite R2. exact ei_path0.
  - rewrite R1. exact ei_id0.
  - rewrite R5. exact ei_syntax0.
  - rewrite R6. exact ei_callback0.
  - exact L.
  - assumption.
Qed.

Lemma redo_einv brk al b f e : alloc_ok al -> einv brk b f e -> no_edits_open (ed_time e) ->
  exists b', buf_redo brk al b = Ok b' /\ einv brk b' f (ed_redo_step brk e).
Proof.
  intros Hal H Hn. pose proof (ei_inv _ _ _ _ H) as Hi.
  destruct (redo_inv brk al b (ed_time e) Hal Hi Hn) as (b' & E & Hi').
  exists b'. split; [assumption|].
  assert (Heard : forall b1 ps, b_callback b1 = b_callback b -> b_log b1 = b_log b -> adds b1 ps = heard e ps).
  { intros b1 ps K L. rewrite <- (heard_adds _ _ _ _ ps H). unfold adds. now rewrite K, L. }
  pose proof H as H0. destruct H. destruct Hi as [J1 J2 J3 J4 J5 J6].
  rewrite (no_edits_base _ Hn) in J3.
  unfold buf_redo, hist_next in E. unfold ed_redo_step. rewrite <- ei_redo0.
  destruct (b_history b) as [prev next mk] eqn:Eh. cbn [h_previous h_next h_mark] in *.
  destruct next as [|op next]; cbn [map].
  - injection E as <-. destruct (future (ed_time e)) as [|s fs] eqn:Ef; [|contradiction].
    unfold tl_redo in Hi'. rewrite Ef in Hi'.
    split; cbn [set_history b_history b_group b_cursor b_path b_id
        b_syntax b_callback b_log h_previous h_next]; assumption.
  - destruct (future (ed_time e)) as [|s fs] eqn:Ef; [contradiction|]. destruct J3 as [Hop _].
    set (b1 := set_history b {| h_previous := op :: prev; h_next := next; h_mark := mk |}) in *.
    destruct (op_ok_run _ _ _ _ Hop al b1 Hal J1) as (op' & b2 & E2 & _ & (R1 & R2 & R3 & R4 & R5 & R6)).
    rewrite E2 in E. cbn [bind] in E. injection E as ->.
    pose proof (run_eff _ _ _ _ Hop _ _ _ _ E2) as (V & L & K).
    rewrite (Heard b1) in L by reflexivity. change (view (b_cursor b1)) with (view (b_cursor b)) in V.
    split; ed_simp.
    + exact Hi'.
    + rewrite R3. cbn [b1 set_history b_history h_previous map]. now f_equal.
    + now rewrite R3.
    + unfold open_ops. rewrite R4. exact ei_open0.
    + now rewrite V, ei_cursor0.
    + rewrite R2. exact ei_path0.
    + rewrite R1. exact ei_id0.
    + rewrite R5. exact ei_syntax0.
    + rewrite R6. exact ei_callback0.
    + exact L.
    + assumption.
Qed.

(** Changing the timeline and nothing else. *)
Lemma time_einv brk b b' f e tl : einv brk b f e -> inv brk b' tl ->
  h_previous (b_history b') = h_previous (b_history b) -> h_next (b_history b') = h_next (b_history b) ->
  open_ops b' = open_ops b -> b_cursor b' = b_cursor b -> b_path b' = b_path b -> b_id b' = b_id b ->
  b_syntax b' = b_syntax b -> b_callback b' = b_callback b -> b_log b' = b_log b ->
  einv brk b' f (with_time e tl).
Proof. intros [] Hi E1 E2 E3 E4 E5 E6 E7 E8 E9. split; ed_simp; congruence. Qed.

Lemma end_einv brk b f e : einv brk b f e -> einv brk (end_group b) f (ed_end_group e).
Proof.
  intros H. pose proof (ei_inv _ _ _ _ H) as Hi. pose proof (end_inv _ _ _ Hi) as Hi'.
  pose proof (group_shape _ _ _ Hi) as G. unfold ed_end_group, end_group in *.
  destruct (group (ed_time e)) as [[s|]|].
  - destruct G as (o & ops & G). rewrite G in *. destruct H. unfold open_ops in ei_open0. rewrite G in ei_open0.
    split; ed_simp; try assumption; cbn [set_history set_group b_history hist_add h_previous h_next map]; try reflexivity.
    rewrite chs_group. now f_equal.
  - rewrite G in *. eapply time_einv; try eassumption; try reflexivity. unfold open_ops. now rewrite G.
  - rewrite G in *. eapply time_einv; try eassumption; reflexivity.
Qed.

Lemma step_einv brk al c b f e : (forall t, plain_newlines brk t -> no_crlf t) -> alloc_ok al ->
  einv brk b f e -> ed_legal brk c e ->
  exists b' f', bexec brk al c b f = Ok (fst (ed_call brk c e), b', f')
    /\ einv brk b' f' (snd (ed_call brk c e)).
Proof.
  intros Hcr Hal H Hl. pose proof (ei_inv _ _ _ _ H) as Hi. pose proof (inv_data _ _ _ Hi) as Hd.
  fold (ed_text e) in Hd. pose proof (bholds_valid _ _ _ Hd) as V.
  pose proof (einv_pos _ _ _ _ H) as Ec. pose proof (einv_file _ _ _ _ H) as Ef.
  unfold ed_legal, legal in Hl. destruct Hl as [Hl Ha].
  destruct c; cbn [bexec ed_call clean_edit allowed edited fst snd] in *.
  - (* insert *)
    unfold buf_insert. rewrite Ec. destruct (ins_run brk al b (at_pos (ed_cursor e)) data _ Hal Hd Hl) as (b1 & E & H1 & R).
    rewrite E. cbn [bind]. do 2 eexists. split; [reflexivity|].
    eapply store_einv; [exact H|apply new_insert; [apply Hd|exact Hl]|exact H1|exact R|reflexivity|].
    cbn [op_run] in E. destruct (gb_insert _ _ _ _ _); [|discriminate]. injection E as <-.
    cbn [moved said]. rewrite <- (ei_cursor _ _ _ _ H). apply eff_at.
  - (* delete *)
    unfold buf_delete. rewrite (holds_in_bounds _ _ _ _ (proj1 Hd) (proj2 Hd)). cbn [bind].
    fold (char_end brk (ed_text e) (c_pos (b_cursor b))). rewrite Ec.
    destruct (remove_einv brk al b f e _ _ Hal H Hl (char_end_ok brk _ _ (proj2 Hd))) as (b' & E & H').
    fold (ed_text e) in E. rewrite E. cbn [bind]. eauto.
  - destruct (remove_einv brk al b f e _ _ Hal H Hl Ha) as (b' & E & H').
    rewrite E. cbn [bind]. eauto.
  - destruct Hl as [V' Hs]. destruct (replace_einv brk al b f e content Hal H V' Hs) as (b' & E & H').
    rewrite E. cbn [bind]. eauto.
  - destruct (undo_einv brk al b f e Hal H) as (b' & E & H'). rewrite E. cbn [bind]. eauto.
  - destruct (redo_einv brk al b f e Hal H Ha) as (b' & E & H'). rewrite E. cbn [bind]. eauto.
  - (* start *)
    do 2 eexists. split; [reflexivity|]. pose proof (start_inv _ _ _ Hi) as Hi'.
    eapply time_einv; try eassumption; unfold start_group, open_ops; destruct (b_group b) eqn:G; rewrite ?G; reflexivity.
  - do 2 eexists. split; [reflexivity|]. now apply end_einv.
  - (* cursor *)
    destruct (cexec_plain brk (b_data b) (ed_text e) Hd (Hcr _ (proj2 Hd)) m (b_cursor b)) as (c' & E & Vc).
    rewrite E. cbn [bind]. do 2 eexists. split; [reflexivity|].
    assert (Hi' : inv brk (set_cursor b c') (ed_time e)) by now apply (inv_transfer _ b).
    destruct H. split; ed_simp; try assumption. cbn [set_cursor b_cursor]. now rewrite Vc, ei_cursor0.
  - do 2 eexists. split; [reflexivity|].
    assert (Hi' : inv brk (set_cursor b (Cur p (c_sticky (b_cursor b)))) (ed_time e)) by now apply (inv_transfer _ b).
    destruct H. split; ed_simp; try assumption. cbn [set_cursor b_cursor view c_pos c_sticky].
    now rewrite <- ei_cursor0.
  - (* save *)
    pose proof H as H0. destruct H0. unfold buf_save. rewrite <- ei_path0. destruct (b_path b) as [p|] eqn:Ep; [|cbn [bind]; eauto].
    rewrite (bholds_data _ _ _ Hd). rewrite <- ei_disk0. destruct (outcome f p w); cbn [bind fst snd]; do 2 eexists; (split; [reflexivity|]).
    + exact H.
    + split; ed_simp; try assumption; congruence.
    + pose proof (sync_inv _ _ _ Hi Ha) as Hi'.
      split; ed_simp; try assumption; try (cbn [set_history b_path]; congruence).
  - (* reload *)
    pose proof H as H0. destruct H0. unfold buf_reload. rewrite <- Ef, <- ei_path0.
    unfold file_of in *. destruct (b_path b) as [p|] eqn:Ep; [|cbn [bind]; eauto].
    destruct (read_to_string f p) as [s|] eqn:Er; [|cbn [bind]; eauto].
    assert (V' : valid_text s).
    { unfold read_to_string in Er. destruct (fs_read f p); [|discriminate]. now apply decode_strict_valid in Er as [? _]. }
    destruct (replace_einv brk al b f e s Hal H V' (Hl s (eq_sym Ef))) as (b' & E & H').
    rewrite E. cbn [bind fst snd]. do 2 eexists. split; [reflexivity|].
    eapply time_einv; try exact H'; try reflexivity.
    apply sync_inv; [apply (ei_inv _ _ _ _ H')|]. intros x.
    unfold ed_replace, ed_edit, tl_edit. destruct (list_eq_dec _ _ _); rewrite ?Ha; ed_simp; try rewrite Ha; discriminate.
  - do 2 eexists. split; [reflexivity|]. assert (Hi' : inv brk (set_path b p) (ed_time e)) by now apply (inv_transfer _ b).
    destruct H. split; ed_simp; try assumption; reflexivity.
  - do 2 eexists. split; [reflexivity|]. assert (Hi' : inv brk (set_id b i) (ed_time e)) by now apply (inv_transfer _ b).
    destruct H. split; ed_simp; try assumption; reflexivity.
  - do 2 eexists. split; [reflexivity|]. assert (Hi' : inv brk (set_syntax b s) (ed_time e)) by now apply (inv_transfer _ b).
    destruct H. split; ed_simp; try assumption; reflexivity.
  - do 2 eexists. split; [reflexivity|]. assert (Hi' : inv brk (set_callback b on) (ed_time e)) by now apply (inv_transfer _ b).
    destruct H. split; ed_simp; try assumption; reflexivity.
  - do 2 eexists. split; [reflexivity|]. destruct H. split; ed_simp; try assumption; reflexivity.
Qed.

Lemma start_einv brk b e : ed_start brk b e -> einv brk b (ed_disk e) e.
Proof.
  intros [(al & E & ->)|(al & p & cp & t & E & Hp & Er & Ecp & ->)]; cbn [ed_new ed_open_file ed_disk] in *.
  - unfold buffer_new in E. destruct (holds_new brk al [] ltac:(constructor)) as (g & Eg & Hg).
    rewrite Eg in E. injection E as <-. split; try reflexivity.
    apply (fresh_inv brk _ [] false); try reflexivity; [exact Hg|]. intros x [].
  - unfold from_file in E. rewrite Er in E.
    assert (V : valid_text t).
    { unfold read_to_string in Er. destruct (fs_read _ p); [|discriminate]. now apply decode_strict_valid in Er as [? _]. }
    destruct (holds_new brk al t V) as (g & Eg & Hg). rewrite Eg in E. cbn [bind] in E. rewrite Ecp in E.
    injection E as <-. split; try reflexivity. now apply (fresh_inv brk _ t true).
Qed.

Lemma looks_einv brk b f e : einv brk b f e -> looks brk b e.
Proof.
  intros H. pose proof (ei_inv _ _ _ _ H) as Hi. pose proof (inv_data _ _ _ Hi) as Hd. fold (ed_text e) in Hd.
  destruct H. split; try assumption.
  - now apply bholds_data in Hd.
  - intros p q. destruct Hd as [Hh Hp]. unfold buf_read. now apply holds_read.
  - intros p. destruct Hd as [Hh Hp]. now apply holds_in_bounds.
  - unfold buf_line_count. rewrite (bholds_data _ _ _ Hd). cbn [bind]. f_equal.
    symmetry. apply lines_count.
  - rewrite (inv_modified_base _ _ _ Hi). reflexivity.
Qed.

Lemma run_einv brk cs : (forall t, plain_newlines brk t -> no_crlf t) -> forall b f e,
  einv brk b f e -> Forall (fun ac => alloc_ok (fst ac)) cs -> ed_legals brk (map snd cs) e ->
  exists b' f', brun brk cs b f = Ok (fst (ed_run brk (map snd cs) e), b', f')
    /\ einv brk b' f' (snd (ed_run brk (map snd cs) e)).
Proof.
  intros Hcr. induction cs as [|[al c] cs IH]; intros b f e H Ha Hl; cbn [brun map ed_run ed_legals snd fst] in *.
  - eauto.
  - inversion_clear Ha as [|? ? Hal Has]. destruct Hl as [Hl Hls]. cbn [fst] in Hal.
    destruct (step_einv brk al c b f e Hcr Hal H Hl) as (b1 & f1 & E1 & H1). rewrite E1. cbn [bind].
    destruct (ed_call brk c e) as [o e1]. cbn [fst snd] in *.
    destruct (IH b1 f1 e1 H1 Has Hls) as (b2 & f2 & E2 & H2). rewrite E2. cbn [bind].
    destruct (ed_run brk (map snd cs) e1) as [os e2]. cbn [fst snd] in *. eauto.
Qed.

Lemma buffer_is_editor cls cs b e : cls CR = GC_CR -> cls LF = GC_LF ->
  ed_start (uax29 cls) b e -> Forall (fun ac => alloc_ok (fst ac)) cs ->
  ed_legals (uax29 cls) (map snd cs) e ->
  exists b' f', brun (uax29 cls) cs b (ed_disk e) = Ok (fst (ed_run (uax29 cls) (map snd cs) e), b', f')
    /\ looks (uax29 cls) b' (snd (ed_run (uax29 cls) (map snd cs) e))
    /\ f' = ed_disk (snd (ed_run (uax29 cls) (map snd cs) e)).
Proof.
  intros HC HL Hs Ha Hl.
  destruct (run_einv (uax29 cls) cs (fun t => uax29_no_crlf cls t HC HL) b (ed_disk e) e
    (start_einv _ _ _ Hs) Ha Hl) as (b' & f' & E & H).
  exists b', f'. split; [assumption|]. split; [eapply looks_einv; exact H|apply (ei_disk _ _ _ _ H)].
Qed.
