(** Buffers are marked editors, for every text. *)
From Verif Require Import Base Utf8 Utf8Proofs Grapheme GraphemeProofs Position GapBuffer
  GapBufferProofs Cursor PathModel Buffer Spec CursorSpec CursorCalls Calls TextProofs HalvesProofs TextFacts GapProps
  CursorProofs UaxProofs OpProofs BufferCalls AnyTextProofs SearchProofs MarkSpec MarkProofs Editor MarkEditor.

(** ** Lines and widths *)

Lemma strip_suffix_lf l : strip_suffix LF (l ++ [LF]) = Some l.
Proof. unfold strip_suffix. now rewrite rev_unit, N.eqb_refl, rev_involutive. Qed.
Lemma strip_eol_chop l : strip_eol (l ++ [LF]) = chop l.
Proof.
  unfold strip_eol, chop. rewrite strip_suffix_lf. unfold strip_suffix. destruct (rev l) as [|c r]; [reflexivity|].
  destruct (N.eqb_spec c CR), (N.eq_dec c CR); congruence.
Qed.

Definition no_lf (l : text) : Prop := ~ In LF l.
Lemma strip_eol_last l : no_lf l -> strip_eol l = l.
Proof.
  intros H. unfold strip_eol, strip_suffix. destruct (rev l) as [|c r] eqn:E; [reflexivity|].
  destruct (N.eqb_spec c LF) as [->|]; [|reflexivity]. destruct H. apply in_rev. rewrite E. now left.
Qed.

(** The pieces of a text, each line with its newline. *)
Fixpoint pieces (ls : list text) : list text :=
  match ls with
  | [] => []
  | [l] => match l with [] => [] | _ => [l] end
  | l :: ls' => (l ++ [LF]) :: pieces ls'
  end.
Lemma pieces_lines t : split_inclusive t = pieces (lines_of t).
Proof.
  induction t as [|c t IH]; [reflexivity|]. cbn [split_inclusive lines_of].
  pose proof (lines_of_ne t) as Ne. destruct (lines_of t) as [|l ls] eqn:El; [contradiction|].
  destruct (N.eqb_spec LF c) as [<-|N].
  - destruct (N.eq_dec LF LF) as [_|X]; [|congruence]. rewrite IH. reflexivity.
  - destruct (N.eq_dec c LF) as [X|_]; [congruence|]. rewrite IH. destruct ls as [|l' ls].
    + cbn [pieces]. now destruct l.
    + reflexivity.
Qed.
Lemma lines_no_lf t : Forall no_lf (lines_of t).
Proof.
  induction t as [|c t IH]; cbn [lines_of]; [repeat constructor; intros []|].
  destruct (lines_of t) as [|l ls]; [constructor|]. destruct (N.eq_dec c LF).
  - constructor; [intros []|assumption].
  - inversion_clear IH as [|? ? H1 H2]. constructor; [|assumption]. intros [X|X]; [congruence|now apply H1].
Qed.
Lemma str_lines_seen t : str_lines t = seen (lines_of t).
Proof.
  unfold str_lines. rewrite pieces_lines. pose proof (lines_no_lf t) as H.
  induction (lines_of t) as [|l ls IH]; [reflexivity|]. inversion_clear H as [|? ? H1 H2]. specialize (IH H2).
  destruct ls as [|l' ls].
  - cbn [pieces seen]. destruct l as [|c l]; [reflexivity|]. cbn [map]. now rewrite strip_eol_last.
  - cbn [pieces seen] in *. cbn [map]. now rewrite strip_eol_chop, IH.
Qed.
Lemma nth_seen brk t k : seen_width brk t k =
  match nth_error (str_lines t) k with Some l => Some (length (graphemes brk l)) | None => None end.
Proof. unfold seen_width. rewrite str_lines_seen. now destruct (nth_error _ k). Qed.
Lemma length_seen brk t k : line_length_or_zero brk t k = width_or_zero brk t k.
Proof. unfold line_length_or_zero, width_or_zero. rewrite nth_seen. now destruct (nth_error _ k). Qed.

Lemma last_loop gs : forall p, last_line_loop gs (line p) (offset p) =
  let e := fold_left (fun p g => if list_eq_dec N.eq_dec g [LF] then Pos (line p + 1) 0
                        else Pos (line p) (offset p + 1)) gs p in (line e, offset e).
Proof.
  induction gs as [|g gs IH]; intros p; [reflexivity|]. cbn [last_line_loop fold_left].
  unfold is_lf, list_N_eqb. destruct (list_eq_dec N.eq_dec g [LF]).
  - apply (IH (Pos (line p + 1) 0)).
  - apply (IH (Pos (line p) (offset p + 1))).
Qed.

(** ** The cursor *)

Lemma move_to_has brk g m c p : msim g m ->
  move_to brk g c p = Ok (has brk m p, if has brk m p then Cur p (offset p) else c).
Proof. intros S. unfold move_to. rewrite (bounds_msim _ _ _ p S). fold (has brk m p). cbn [bind]. now destruct (has brk m p). Qed.

Lemma whole_msim g m : msim g m -> gb_to_string g = Ok (whole m).
Proof. intros [R _]. now apply to_string_ok. Qed.

Lemma move_line_has brk g m c k : msim g m -> exists c', move_to_line brk g c k = Ok c' /\
  view c' = if has brk m (Pos k (c_sticky c)) then SC (Pos k (c_sticky c)) (c_sticky c)
            else if has brk m (Pos k (width_or_zero brk (whole m) k))
                 then SC (Pos k (width_or_zero brk (whole m) k)) (c_sticky c) else view c.
Proof.
  intros S. unfold move_to_line. rewrite (move_to_has _ _ _ _ _ S). cbn [bind].
  destruct (has brk m (Pos k (c_sticky c))); [eexists; split; reflexivity|].
  rewrite (whole_msim _ _ S). cbn [bind]. rewrite length_seen, (move_to_has _ _ _ _ _ S). cbn [bind].
  eexists. split; [reflexivity|]. destruct (has brk m _); reflexivity.
Qed.

Lemma first_width brk t :
  match nth_error (str_lines t) 0 with Some l => length (graphemes brk l) | None => 0 end = width_or_zero brk t 0.
Proof. symmetry. unfold width_or_zero. rewrite nth_seen. now destruct (nth_error _ 0). Qed.
Lemma min_target n k w : (if n <? w then Pos k n else Pos k w) = Pos k (Nat.min w n).
Proof. destruct (Nat.ltb_spec n w); f_equal; lia. Qed.

Lemma move_msim brk g m v c : msim g m ->
  exists c', cexec brk g v c = Ok c' /\ view c' = m_move brk m v (view c).
Proof.
  intros S. pose proof (whole_msim _ _ S) as W.
  assert (T : forall p, exists c', (let* (_, c') := move_to brk g c p in Ok c') = Ok c' /\
     view c' = if has brk m p then go p else view c).
  { intros p. rewrite (move_to_has _ _ _ _ _ S). cbn [bind]. eexists. split; [reflexivity|]. now destruct (has brk m p). }
  destruct v; cbn [cexec m_move view at_pos wish].
  - apply T.
  - unfold move_up. destruct (Nat.eqb_spec (line (c_pos c)) 0) as [E|E].
    + exists c. now split.
    + unfold usub. destruct (Nat.leb_spec 1 (line (c_pos c))); [|lia]. cbn [bind]. now apply move_line_has.
  - now apply move_line_has.
  - unfold move_left. destruct (Nat.eqb_spec (offset (c_pos c)) 0) as [E|E].
    + exists c. now split.
    + unfold usub. destruct (Nat.leb_spec 1 (offset (c_pos c))); [|lia]. cbn [bind]. apply T.
  - apply T.
  - apply T.
  - unfold move_to_end_of_line. rewrite W. cbn [bind]. rewrite nth_seen.
    destruct (nth_error _ _) as [l|]; [apply T|]. exists c. now split.
  - unfold move_to_last_line. rewrite W. cbn [bind].
    pose proof (last_loop (graphemes brk (whole m)) (Pos 0 0)) as L. cbn [line offset] in L. rewrite L. cbn zeta.
    fold (text_ending brk (whole m)). rewrite min_target. apply T.
  - unfold move_to_first_line. rewrite W. cbn [bind]. rewrite first_width, min_target. apply T.
Qed.

(** ** Edits *)

Inductive prim : operation -> edit -> Prop :=
| prim_put d p : valid_text d -> prim (OpInsert d p) (Put d p)
| prim_cut p q c : match c with Some s => valid_text s | None => True end ->
    prim (OpDelete c (range_new p q)) (Cut p q c)
| prim_swap s t : valid_text s -> valid_text t -> prim (OpReplace s t) (Swap s t).
Inductive stands : operation -> list edit -> Prop :=
| stands_one o x : prim o x -> stands o [x]
| stands_group ops xs : Forall2 prim ops xs -> stands (OpGroup ops) xs.

Record dsim (b0 b : buffer) (d : desk) : Prop := DSim {
  ds_text : msim (b_data b) (d_text d);
  ds_cursor : view (b_cursor b) = d_cursor d;
  ds_rest : same_rest b0 b;
  ds_log : b_log b = if b_callback b0 then b_log b0 ++ d_said d else b_log b0 }.

Lemma dsim_notify b0 b d g m c p : dsim b0 b d -> msim g m ->
  dsim b0 (notify (set_cursor (set_data b g) c) p) (Desk m (view c) (d_said d ++ [p])).
Proof.
  intros [S C R L] M. split; [exact M|reflexivity|..].
  - eapply same_rest_trans; [exact R|]. now repeat split.
  - cbn [b_log notify set_cursor set_data b_callback d_said]. destruct R as (_ & _ & _ & _ & _ & ->). rewrite L.
    destruct (b_callback b0); [now rewrite app_assoc|reflexivity].
Qed.
Lemma dsim_data b0 b d g m p : dsim b0 b d -> msim g m ->
  dsim b0 (notify (set_data b g) p) (Desk m (d_cursor d) (d_said d ++ [p])).
Proof.
  intros D M. rewrite <- (ds_cursor _ _ _ D).
  replace (set_data b g) with (set_cursor (set_data b g) (b_cursor b)) by now destruct b.
  now apply dsim_notify.
Qed.

Lemma swap_msim brk al s b0 b d : valid_text s -> dsim b0 b d ->
  exists b', replace_content brk al s b = Ok b' /\ dsim b0 b' (swapped brk al s d).
Proof.
  intros V D. unfold replace_content. destruct (new_msim al s V) as (g & -> & S). cbn [bind].
  rewrite (move_to_has _ _ _ _ _ S). cbn [bind]. unfold swapped. rewrite <- (ds_cursor _ _ _ D). cbn [view at_pos].
  unfold kept_cursor. set (m := m_new al s) in *. destruct (has brk m (c_pos (b_cursor b))); cbn [bind].
  - eexists. split; [reflexivity|]. exact (dsim_notify _ _ _ _ _ (Cur _ _) _ D S).
  - rewrite (move_to_has _ _ _ _ _ S). cbn [bind].
    destruct (has brk m (Pos (line (c_pos (b_cursor b))) 0)).
    + eexists. split; [reflexivity|]. exact (dsim_notify _ _ _ _ _ (Cur _ _) _ D S).
    + eexists. split; [reflexivity|]. exact (dsim_notify _ _ _ _ _ (cursor_new (Pos 0 0)) _ D S).
Qed.

Lemma read_valid_m brk g m p q : msim g m ->
  match m_read brk p q m with Some s => valid_text s | None => True end.
Proof.
  intros S. destruct (gb_read_valid brk g p q) as (s & E & V).
  { destruct S as [R _]. now exists (ahead m), (behind m). }
  rewrite (read_msim _ _ _ _ _ S) in E. injection E as ->. exact V.
Qed.

Section Safe.
  Variables (brk : brk_rule) (al : allocator).
  Hypothesis Hos : order_safe brk.
  Hypothesis Hal : alloc_ok al.

  Lemma prim_run o x b0 b d : prim o x -> dsim b0 b d -> exists o' b',
    op_run brk al o b = Ok (o', b') /\ dsim b0 b' (make brk al d x) /\
    prim o' (match x with Cut p q _ => Cut p q (m_read brk p q (d_text d)) | _ => x end).
  Proof.
    intros P D. destruct P as [t p V|p q c V|s t Vs Vt]; cbn [op_run make].
    - destruct (insert_msim brk al _ _ t p Hal V (ds_text _ _ _ D)) as (g & -> & S). cbn [bind].
      do 2 eexists. split; [reflexivity|]. split; [now apply dsim_data|now constructor].
    - rewrite (read_msim _ _ _ _ _ (ds_text _ _ _ D)). cbn [bind].
      destruct (delete_msim brk _ _ p q Hos (ds_text _ _ _ D)) as (g & -> & S). cbn [bind].
      do 2 eexists. split; [reflexivity|]. split.
      + rewrite range_new_ordered. cbn [r_start]. now apply dsim_data.
      + constructor. eapply read_valid_m, ds_text, D.
    - destruct (swap_msim brk al t b0 b d Vt D) as (b' & -> & D'). cbn [bind].
      do 2 eexists. split; [reflexivity|]. split; [exact D'|now constructor].
  Qed.

  Lemma prim_back o x b0 b d : prim o x -> dsim b0 b d -> exists b',
    op_reverse brk al o b = Ok b' /\ dsim b0 b' (take brk al x d).
  Proof.
    intros P D. destruct P as [t p V|p q c V|s t Vs Vt]; cbn [op_reverse take].
    - rewrite insert_end_from, text_end_from.
      destruct (delete_msim brk _ _ p (end_from brk p t) Hos (ds_text _ _ _ D)) as (g & -> & S). cbn [bind].
      eexists. split; [reflexivity|]. now apply dsim_data.
    - destruct c as [s|]; [|now exists b]. rewrite range_new_ordered. cbn [r_start].
      destruct (insert_msim brk al _ _ s (first_of p q) Hal V (ds_text _ _ _ D)) as (g & -> & S). cbn [bind].
      eexists. split; [reflexivity|]. now apply dsim_data.
    - now apply swap_msim.
  Qed.

  Lemma stands_run o xs b0 b d : stands o xs -> dsim b0 b d -> exists o' b',
    op_run brk al o b = Ok (o', b') /\ dsim b0 b' (fold_left (make brk al) xs d).
  Proof.
    intros H D. destruct H as [o x P|ops xs P].
    - destruct (prim_run _ _ _ _ _ P D) as (o' & b' & E & D' & _). exists o', b'. now split.
    - change (op_run brk al (OpGroup ops) b) with (let* (ops', b') := go_run brk al ops b in Ok (OpGroup ops', b')).
      assert (X : exists ops' b', go_run brk al ops b = Ok (ops', b') /\ dsim b0 b' (fold_left (make brk al) xs d)).
      { revert b d D. induction P as [|o x ops xs P1 P2 IH]; intros b d D; cbn [go_run fold_left]; [eauto|].
        destruct (prim_run _ _ _ _ _ P1 D) as (o' & b1 & -> & D1 & _). cbn [bind].
        destruct (IH _ _ D1) as (ops' & b2 & -> & D2). cbn [bind]. eauto. }
      destruct X as (ops' & b' & -> & D'). cbn [bind]. eauto.
  Qed.
  Lemma stands_back o xs b0 b d : stands o xs -> dsim b0 b d -> exists b',
    op_reverse brk al o b = Ok b' /\ dsim b0 b' (fold_right (take brk al) d xs).
  Proof.
    intros H D. destruct H as [o x P|ops xs P].
    - now apply prim_back.
    - change (op_reverse brk al (OpGroup ops) b) with (go_rev brk al ops b).
      induction P as [|o x ops xs P1 P2 IH]; cbn [go_rev fold_right]; [eauto|].
      destruct IH as (b1 & -> & D1). cbn [bind]. now apply prim_back.
  Qed.
End Safe.

(** ** The simulation *)

Record sim (b : buffer) (e : meditor) : Prop := Sim {
  s_text : msim (b_data b) (me_text e);
  s_cursor : view (b_cursor b) = me_cursor e;
  s_past : Forall2 stands (h_previous (b_history b)) (me_past e);
  s_future : Forall2 stands (h_next (b_history b)) (me_future e);
  s_mark : h_mark (b_history b) = me_saved e;
  s_group : match b_group b, me_group e with
            | None, None => True
            | Some ops, Some xs => Forall2 prim ops xs
            | _, _ => False end;
  s_path : b_path b = me_path e;
  s_id : b_id b = me_id e;
  s_syntax : b_syntax b = me_syntax e;
  s_call : b_callback b = me_listening e;
  s_log : b_log b = me_heard e }.

Lemma sim_desk b e : sim b e -> dsim b b (on_desk e).
Proof.
  intros S. split; [apply S|apply S|apply same_rest_refl|]. cbn. now destruct (b_callback b); rewrite ?app_nil_r.
Qed.
Lemma desk_sim b b' e d : sim b e -> dsim b b' d -> sim b' (put_desk e d).
Proof.
  intros [] [D1 D2 (R1 & R2 & R3 & R4 & R5 & R6) D3].
  split; cbn; rewrite ?R1, ?R2, ?R3, ?R4, ?R5, ?R6; try assumption.
  rewrite D3, s_call0, s_log0. reflexivity.
Qed.

Lemma past_len b e : sim b e -> length (h_previous (b_history b)) = length (me_past e).
Proof. intros S. pose proof (s_past _ _ S) as H. induction H; cbn; congruence. Qed.

Lemma sim_add b e op xs : sim b e -> stands op xs ->
  sim (set_history (set_group b None) (hist_add (b_history b) op)) (add_step e xs None).
Proof.
  intros S P. pose proof (past_len _ _ S) as L. destruct S. split; cbn; try assumption; try exact I.
  - now constructor.
  - constructor.
  - rewrite s_mark0. destruct (me_saved e) as [n|]; [|reflexivity]. rewrite L.
    destruct n as [|n]; [reflexivity|].
    destruct (Nat.leb_spec (length (me_past e)) n), (Nat.leb_spec (S n) (length (me_past e))); try reflexivity; lia.
Qed.

Lemma sim_store b e op x : sim b e -> prim op x ->
  sim (store b op) (match me_group e with
                    | None => add_step e [x] None
                    | Some xs => put_steps e (me_past e) (me_future e) (me_saved e) (Some (xs ++ [x]))
                    end).
Proof.
  intros S P. unfold store. pose proof (s_group _ _ S) as G.
  destruct (b_group b) as [ops|] eqn:Eb, (me_group e) as [xs|] eqn:Ee; try contradiction.
  - destruct S. split; cbn; try assumption. apply Forall2_app; [assumption|]. now repeat constructor.
  - replace b with (set_group b None) at 1 by (destruct b; cbn in *; now subst). apply sim_add; [assumption|now constructor].
Qed.

Section Calls.
  Variables (brk : brk_rule) (al : allocator).
  Hypothesis Hos : order_safe brk.
  Hypothesis Hal : alloc_ok al.

  Lemma edit_sim b e o x x' : sim b e -> prim o x ->
    x' = match x with Cut p q _ => Cut p q (m_read brk p q (me_text e)) | _ => x end ->
    exists b', (let* (o', b') := op_run brk al o b in Ok (store b' o')) = Ok b' /\ sim b' (m_edit brk al e x').
  Proof.
    intros S P ->. destruct (prim_run brk al Hos Hal _ _ _ _ _ P (sim_desk _ _ S)) as (o' & b' & -> & D & P').
    cbn [bind]. eexists. split; [reflexivity|].
    assert (Em : make brk al (on_desk e) x = make brk al (on_desk e)
       (match x with Cut p q _ => Cut p q (m_read brk p q (me_text e)) | _ => x end)) by now destruct x.
    unfold m_edit. rewrite <- Em. pose proof (desk_sim _ _ _ _ S D) as S1.
    exact (sim_store _ _ _ _ S1 P').
  Qed.

  Lemma cut_sim b e p q : sim b e ->
    exists b', buf_delete_range brk al b (range_new p q) = Ok b' /\ sim b' (m_cut brk al e p q).
  Proof. intros S. eapply edit_sim; [exact S|apply (prim_cut p q None I)|reflexivity]. Qed.

  Lemma sim_whole b e : sim b e -> buf_data b = Ok (whole (me_text e)).
  Proof. intros S. apply whole_msim, S. Qed.
  Lemma sim_valid b e : sim b e -> valid_text (whole (me_text e)).
  Proof. intros S. destruct (s_text _ _ S) as [R _]. now apply rep_valid in R. Qed.

  Lemma swap_sim b e s : sim b e -> valid_text s ->
    exists b', buf_replace brk al b s = Ok b' /\ sim b' (m_swap brk al e s).
  Proof.
    intros S V. unfold buf_replace, m_swap. rewrite (sim_whole _ _ S). cbn [bind].
    unfold list_N_eqb. destruct (list_eq_dec N.eq_dec s (whole (me_text e))); [now exists b|].
    eapply edit_sim; [exact S|constructor; [now apply sim_valid in S|exact V]|reflexivity].
  Qed.

  Lemma undo_sim b e : sim b e -> exists b', buf_undo brk al b = Ok b' /\ sim b' (m_undo brk al e).
  Proof.
    intros S. unfold buf_undo, m_undo. pose proof (s_group _ _ S) as G.
    assert (X : exists b',
      (let '(op, b1) := let '(op, h) := hist_previous (b_history b) in (op, set_history (set_group b None) h) in
       match op with Some op => op_reverse brk al op b1 | None => Ok b1 end) = Ok b' /\
      sim b' match me_past e with
             | s :: past => put_steps (put_desk e (fold_right (take brk al) (on_desk e) s)) past (s :: me_future e) (me_saved e) None
             | [] => put_steps e [] (me_future e) (me_saved e) None
             end).
    { pose proof (s_past _ _ S) as P. unfold hist_previous.
      destruct (h_previous (b_history b)) as [|op ops] eqn:Ep; inversion P as [|? s ? past P1 P2]; subst.
      - eexists. split; [reflexivity|]. destruct S. split; cbn; try assumption; try exact I. rewrite Ep. constructor.
      - set (b1 := set_history (set_group b None) _).
        assert (S1 : sim b1 (put_steps e past (s :: me_future e) (me_saved e) None)).
        { destruct S. split; cbn; try assumption; try exact I. now constructor. }
        destruct (stands_back brk al Hos Hal _ _ _ _ _ P1 (sim_desk _ _ S1)) as (b' & E & D). cbn zeta. rewrite E.
        eexists. split; [reflexivity|]. exact (desk_sim _ _ _ _ S1 D). }
    destruct (b_group b) as [[|o ops]|] eqn:Eb, (me_group e) as [[|x xs]|] eqn:Ee; try contradiction; try (inversion G; fail).
    - exact X.
    - assert (S1 : sim (set_group b None) (put_steps e (me_past e) (me_future e) (me_saved e) None)).
      { destruct S. split; cbn; try assumption; exact I. }
      destruct (stands_back brk al Hos Hal (OpGroup (o :: ops)) (x :: xs) _ _ _ (stands_group _ _ G) (sim_desk _ _ S1)) as (b' & E & D).
      rewrite E. eexists. split; [reflexivity|]. exact (desk_sim _ _ _ _ S1 D).
    - exact X.
  Qed.

  Lemma redo_sim b e : sim b e -> exists b', buf_redo brk al b = Ok b' /\ sim b' (m_redo brk al e).
  Proof.
    intros S. unfold buf_redo, m_redo, hist_next. pose proof (s_future _ _ S) as P.
    destruct (h_next (b_history b)) as [|op ops] eqn:Ep; inversion P as [|? s ? future P1 P2]; subst.
    - eexists. split; [reflexivity|]. now replace (set_history b (b_history b)) with b by now destruct b.
    - set (b1 := set_history b _).
      assert (S1 : sim b1 (put_steps e (s :: me_past e) future (me_saved e) (me_group e))).
      { destruct S. split; cbn; try assumption. now constructor. }
      destruct (stands_run brk al Hos Hal _ _ _ _ _ P1 (sim_desk _ _ S1)) as (o' & b' & E & D). rewrite E. cbn [bind].
      eexists. split; [reflexivity|]. exact (desk_sim _ _ _ _ S1 D).
  Qed.

  Lemma mark_sim b e : sim b e -> sim (set_history b (hist_mark (b_history b))) (m_saved e).
  Proof. intros S. pose proof (past_len _ _ S) as L. destruct S. split; cbn; try assumption. now rewrite L. Qed.

  Lemma disk_sim b e f : sim b e -> sim b (put_disk e f).
  Proof. intros []. now split. Qed.

  Lemma call_sim c b e : sim b e -> call_ok c -> exists b',
    bexec brk al c b (me_disk e) = Ok (fst (me_call brk al c e), b', me_disk (snd (me_call brk al c e)))
    /\ sim b' (snd (me_call brk al c e)).
  Proof.
    intros S Hc.
    assert (De : forall x, me_disk (m_edit brk al e x) = me_disk e).
    { intros x. unfold m_edit. now destruct (me_group e). }
    assert (Ds : forall s, me_disk (m_swap brk al e s) = me_disk e).
    { intros s. unfold m_swap. destruct (list_eq_dec _ _ _); [reflexivity|apply De]. }
    destruct c as [d| |p q|s| | | | |v|p|w| |p|i|s|on|f]; cbn [bexec me_call fst snd].
    - unfold buf_insert. rewrite De. rewrite <- (s_cursor _ _ S). cbn [view at_pos].
      destruct (edit_sim b e _ _ _ S (prim_put d (c_pos (b_cursor b)) Hc) eq_refl) as (b' & -> & S'). cbn [bind]. eauto.
    - unfold buf_delete. rewrite (bounds_msim _ _ _ _ (s_text _ _ S)). unfold has. cbn [bind]. unfold m_cut at 1. rewrite De.
      rewrite <- (s_cursor _ _ S). cbn [view at_pos].
      edestruct (cut_sim b e) as (b' & E & S'); [exact S|].
      rewrite E. cbn [bind]. eauto.
    - unfold m_cut at 1. rewrite De. destruct (cut_sim b e p q S) as (b' & -> & S'). cbn [bind]. eauto.
    - rewrite Ds. destruct (swap_sim b e s S Hc) as (b' & -> & S'). cbn [bind]. eauto.
    - destruct (undo_sim b e S) as (b' & -> & S'). cbn [bind]. exists b'. split; [|exact S'].
      unfold m_undo. destruct (me_group e) as [[|]|], (me_past e); reflexivity.
    - destruct (redo_sim b e S) as (b' & -> & S'). cbn [bind]. exists b'. split; [|exact S'].
      unfold m_redo. destruct (me_future e); reflexivity.
    - eexists. split; [reflexivity|]. unfold start_group. pose proof (s_group _ _ S) as G.
      destruct (b_group b) as [ops|] eqn:Eb, (me_group e) as [xs|] eqn:Ee; try contradiction.
      + destruct S. split; cbn; try assumption. now rewrite Eb.
      + destruct S. split; cbn; try assumption. constructor.
    - exists (end_group b). pose proof (s_group _ _ S) as G. unfold end_group.
      destruct (b_group b) as [[|o ops]|] eqn:Eb, (me_group e) as [[|x xs]|] eqn:Ee; try contradiction; try (inversion G; fail).
      + split; [reflexivity|]. destruct S. split; cbn; try assumption; exact I.
      + split; [reflexivity|]. exact (sim_add b e _ _ S (stands_group _ _ G)).
      + split; [reflexivity|]. destruct S. split; cbn; try assumption. now rewrite Eb.
    - destruct (move_msim brk _ _ v (b_cursor b) (s_text _ _ S)) as (c' & -> & V). cbn [bind].
      eexists. split; [reflexivity|]. rewrite (s_cursor _ _ S) in V. destruct S. split; cbn; assumption.
    - eexists. split; [reflexivity|]. rewrite <- (s_cursor _ _ S). destruct S. split; cbn; try assumption. reflexivity.
    - unfold buf_save. rewrite (s_path _ _ S). destruct (me_path e) as [p|] eqn:Ep; [|cbn; eauto].
      rewrite (sim_whole _ _ S). destruct (outcome (me_disk e) p w); cbn [bind fst snd].
      + eauto.
      + eexists. split; [reflexivity|]. now apply disk_sim.
      + eexists. split; [reflexivity|]. now apply disk_sim, mark_sim.
    - unfold buf_reload, me_file. rewrite (s_path _ _ S). destruct (me_path e) as [p|] eqn:Ep; [|cbn; eauto].
      destruct (read_to_string (me_disk e) p) as [s|] eqn:Er; [|cbn; eauto].
      assert (V : valid_text s).
      { unfold read_to_string in Er. destruct (fs_read _ _) as [bs|]; [|discriminate]. now apply decode_strict_valid in Er. }
      destruct (swap_sim b e s S V) as (b' & -> & S'). cbn [bind fst snd].
      eexists. split; [|apply mark_sim, S']. now rewrite <- (Ds s).
    - eexists. split; [reflexivity|]. destruct S. split; cbn; try assumption. reflexivity.
    - eexists. split; [reflexivity|]. destruct S. split; cbn; try assumption. reflexivity.
    - eexists. split; [reflexivity|]. destruct S. split; cbn; try assumption. reflexivity.
    - eexists. split; [reflexivity|]. destruct S. split; cbn; try assumption. reflexivity.
    - eexists. split; [reflexivity|]. now apply disk_sim.
  Qed.
End Calls.

Lemma sim_shows brk b e : sim b e -> shows brk b e.
Proof.
  intros S. pose proof (past_len _ _ S) as L. pose proof (sim_whole _ _ S) as W. pose proof (s_text _ _ S) as M.
  destruct S. split; try assumption.
  - intros p q. unfold buf_read. now apply read_msim.
  - intros p. now apply bounds_msim.
  - unfold buf_line_count. rewrite W. cbn [bind]. now rewrite lines_count.
  - unfold buf_modified, hist_at_mark, me_modified. rewrite s_mark0, L. destruct (me_saved e); [|reflexivity].
    now rewrite Nat.eqb_sym.
Qed.

Lemma start_sim b e : me_start b e -> sim b e.
Proof.
  intros [(al & f & E & ->)|(al & f & p & cp & t & E & Er & Ec & ->)].
  - unfold buffer_new in E. destruct (new_msim al [] (Forall_nil _)) as (g & Eg & S). rewrite Eg in E. injection E as <-.
    split; cbn; try constructor; apply S.
  - unfold from_file in E. rewrite Er, Ec in E.
    assert (V : valid_text t).
    { unfold read_to_string in Er. destruct (fs_read _ _) as [bs|]; [|discriminate]. now apply decode_strict_valid in Er. }
    destruct (new_msim al t V) as (g & Eg & S). rewrite Eg in E. injection E as <-.
    split; cbn; try constructor; apply S.
Qed.

Lemma calls_sim brk cs : order_safe brk -> forall b e, sim b e ->
  Forall (fun ac => alloc_ok (fst ac) /\ call_ok (snd ac)) cs ->
  exists b', brun brk cs b (me_disk e) = Ok (fst (me_calls brk cs e), b', me_disk (snd (me_calls brk cs e)))
    /\ sim b' (snd (me_calls brk cs e)).
Proof.
  intros Hos. induction cs as [|[al c] cs IH]; intros b e S H; cbn [brun me_calls]; [eauto|].
  inversion_clear H as [|? ? [Ha Hc] H']. cbn [fst snd] in *.
  destruct (call_sim brk al Hos Ha c b e S Hc) as (b1 & -> & S1). cbn [bind].
  destruct (me_call brk al c e) as [o e1]. cbn [fst snd] in *.
  destruct (IH b1 e1 S1 H') as (b2 & -> & S2). cbn [bind]. destruct (me_calls brk cs e1) as [os e2]. cbn [fst snd] in *. eauto.
Qed.

Lemma marked_editor cls b e cs : cls LF = GC_LF -> me_start b e ->
  Forall (fun ac => alloc_ok (fst ac) /\ call_ok (snd ac)) cs ->
  exists b', brun (uax29 cls) cs b (me_disk e) =
      Ok (fst (me_calls (uax29 cls) cs e), b', me_disk (snd (me_calls (uax29 cls) cs e)))
    /\ shows (uax29 cls) b' (snd (me_calls (uax29 cls) cs e)).
Proof.
  intros Hc S H. destruct (calls_sim _ cs (uax29_order_safe cls Hc) b e (start_sim _ _ S) H) as (b' & E & S').
  exists b'. split; [exact E|]. now apply sim_shows.
Qed.
