(** Buffers holding any text whatever, under any segmentation. *)
From Verif Require Import Base Utf8 Utf8Proofs Grapheme GraphemeProofs Position GapBuffer
  GapBufferProofs Cursor PathModel Buffer Spec CursorSpec CursorCalls Calls TextProofs HalvesProofs TextFacts GapProps
  CursorProofs OpProofs BufferCalls.

(** ** Operations: an induction principle *)
Fixpoint operation_induction (P : operation -> Prop)
  (Hi : forall d p, P (OpInsert d p)) (Hd : forall c r, P (OpDelete c r))
  (Hr : forall s t, P (OpReplace s t)) (Hg : forall ops, Forall P ops -> P (OpGroup ops))
  (op : operation) : P op :=
  match op with
  | OpInsert d p => Hi d p
  | OpDelete c r => Hd c r
  | OpReplace s t => Hr s t
  | OpGroup ops =>
    Hg ops ((fix go ops : Forall P ops :=
               match ops with
               | [] => Forall_nil P
               | o :: rest => Forall_cons o (operation_induction P Hi Hd Hr Hg o) (go rest)
               end) ops)
  end.

(** The texts an operation carries are valid and its range is ordered. *)
Fixpoint op_valid (op : operation) : Prop :=
  match op with
  | OpInsert d _ => valid_text d
  | OpDelete c r => (match c with Some m => valid_text m | None => True end)
                    /\ exists p q, r = range_new p q
  | OpReplace s t => valid_text s /\ valid_text t
  | OpGroup ops => (fix go ops := match ops with [] => True | o :: rest => op_valid o /\ go rest end) ops
  end.
Lemma op_valid_group ops : op_valid (OpGroup ops) <-> Forall op_valid ops.
Proof.
  induction ops as [|o ops IH]; [split; constructor|]. cbn [op_valid] in *. rewrite IH. split.
  - intros [H1 H2]. now constructor.
  - intros H. inversion_clear H. now split.
Qed.

(** ** Lines kept by an edit *)
Lemma same_lines_refl n t : same_lines n t t.
Proof. reflexivity. Qed.
Lemma same_lines_trans n a b c : same_lines n a b -> same_lines n b c -> same_lines n a c.
Proof. unfold same_lines. congruence. Qed.
Lemma same_lines_sym n a b : same_lines n a b -> same_lines n b a.
Proof. unfold same_lines. congruence. Qed.

Lemma full_lines_ne t : full_lines t <> [].
Proof. unfold full_lines. now destruct (map _ _). Qed.
Lemma full_lines_lf t : full_lines (LF :: t) = [LF] :: full_lines t.
Proof.
  unfold full_lines. cbn [lines_of]. pose proof (lines_of_ne t) as N.
  destruct (lines_of t) as [|l ls]; [contradiction|]. reflexivity.
Qed.
Lemma full_lines_char c t : c <> LF ->
  full_lines (c :: t) = match full_lines t with l :: ls => (c :: l) :: ls | [] => [] end.
Proof.
  intros H. unfold full_lines. cbn [lines_of]. pose proof (lines_of_ne t) as N.
  destruct (lines_of t) as [|l ls]; [contradiction|]. destruct (N.eq_dec c LF); [contradiction|].
  destruct ls as [|l' ls]; reflexivity.
Qed.
Lemma same_lines_prefix n a : forall b b', n <= count_lf a -> same_lines n (a ++ b) (a ++ b').
Proof.
  unfold same_lines. revert n. induction a as [|c a IH]; intros n b b' H.
  - cbn in H. replace n with 0 by lia. reflexivity.
  - cbn [app]. destruct (N.eq_dec c LF) as [E|E].
    + subst c. rewrite !full_lines_lf. rewrite count_lf_cons_lf in H. destruct n as [|n]; [reflexivity|].
      cbn [firstn]. f_equal. apply IH. lia.
    + rewrite !(full_lines_char _ _ E). assert (H' : n <= count_lf a).
      { unfold count_lf in *. cbn [filter] in H. destruct (N.eqb_spec LF c); [congruence|assumption]. }
      specialize (IH n b b' H'). pose proof (full_lines_ne (a ++ b)). pose proof (full_lines_ne (a ++ b')).
      destruct (full_lines (a ++ b)), (full_lines (a ++ b')); try contradiction.
      destruct n as [|n]; [reflexivity|]. cbn [firstn] in *. now injection IH as -> ->.
Qed.

Lemma adv_line p g : line (adv p g) <= line p + count_lf g.
Proof.
  unfold adv. destruct (is_lf g) eqn:E; cbn [line]; [|lia].
  unfold is_lf in E. apply list_N_eqb_eq in E. subst g. cbn. lia.
Qed.
Lemma pos_after_line gs : forall p, line (pos_after p gs) <= line p + count_lf (concat gs).
Proof.
  induction gs as [|g gs IH]; intros p; cbn [pos_after fold_left concat]; [lia|].
  rewrite count_lf_app. pose proof (adv_line p g). specialize (IH (adv p g)).
  unfold pos_after in IH. cbn [fold_left] in *. lia.
Qed.
Lemma hsplit_line brk a b p pre post : hsplit brk a b p = Some (pre, post) ->
  line p <= count_lf (concat pre).
Proof.
  intros E. unfold hsplit in E. apply gsplit_iff in E as [_ <-].
  pose proof (pos_after_line pre (Pos 0 0)). cbn [line] in *. lia.
Qed.

(** ** What an operation may do *)

Record step_ok (b b' : buffer) : Prop := Step {
  st_wf : wf (b_data b');
  st_rest : same_rest b b';
  st_log : exists ps, b_log b' = b_log b ++ (if b_callback b then ps else [])
    /\ forall n, Forall (fun p => n <= line p) ps -> forall t t',
         buf_data b = Ok t -> buf_data b' = Ok t' -> same_lines n t t' }.

Lemma step_refl b : wf (b_data b) -> step_ok b b.
Proof.
  intros H. split; [assumption|apply same_rest_refl|]. exists []. split.
  - destruct (b_callback b); now rewrite app_nil_r.
  - intros n _ t t' E E'. rewrite E in E'. injection E' as ->. apply same_lines_refl.
Qed.
Lemma step_trans a b c : wf (b_data b) -> step_ok a b -> step_ok b c -> step_ok a c.
Proof.
  intros W [W1 R1 (p1 & L1 & F1)] [W2 R2 (p2 & L2 & F2)]. split; [assumption|eapply same_rest_trans; eassumption|].
  exists (p1 ++ p2). destruct R1 as (_ & _ & _ & _ & _ & Rc). split.
  - rewrite L2, L1, Rc. destruct (b_callback a); [now rewrite app_assoc|now rewrite !app_nil_r].
  - intros n Hn t t' E E'. apply Forall_app in Hn as [Hn1 Hn2].
    destruct (to_string_total _ W) as (u & Eu).
    eapply same_lines_trans; [eapply F1|eapply F2]; eassumption.
Qed.

Lemma step_at b g p : wf g ->
  (forall t t', buf_data b = Ok t -> gb_to_string g = Ok t' -> same_lines (line p) t t') ->
  step_ok b (notify (set_data b g) p).
Proof.
  intros W H. split; [assumption|apply same_rest_set|]. exists [p]. split.
  - cbn. destruct (b_callback b); [reflexivity|now rewrite app_nil_r].
  - intros n Hn t t' E E'. inversion_clear Hn as [|? ? Hn1 _].
    specialize (H t t' E E'). unfold same_lines in *.
    replace n with (Nat.min n (line p)) by lia. rewrite <- !firstn_firstn. now rewrite H.
Qed.

Lemma gb_insert_step brk al b d p : alloc_ok al -> wf (b_data b) -> valid_text d ->
  exists g, gb_insert brk al (b_data b) d p = Ok g /\ step_ok b (notify (set_data b g) p).
Proof.
  intros Hal (s1 & s2 & R) V. pose proof (insert_halves brk al (b_data b) s1 s2 d p Hal R V) as X.
  assert (Eh : let '(h1, h2) := lookup_halves (b_data b) d s1 s2 in h1 ++ h2 = s1 ++ s2).
  { unfold lookup_halves. destruct (_ <? _); [apply app_nil_r|reflexivity]. }
  destruct (lookup_halves (b_data b) d s1 s2) as [h1 h2]. destruct X as (g & E & X).
  exists g. split; [assumption|].
  destruct (hsplit brk h1 h2 p) as [[pre post]|] eqn:Es.
  - apply step_at; [solve [eexists _, _; eassumption]|]. unfold buf_data. rewrite (to_string_ok _ _ _ R), (to_string_ok _ _ _ X).
    intros t t' Et Et'. injection Et as <-. injection Et' as <-. rewrite <- Eh, (hsplit_concat _ _ _ _ _ _ Es).
    rewrite <- app_assoc. apply same_lines_prefix. eapply hsplit_line; eassumption.
  - apply step_at; [solve [eexists _, _; eassumption]|]. unfold buf_data. rewrite (to_string_ok _ _ _ R), (to_string_ok _ _ _ X).
    intros t t' Et Et'. injection Et as <-. injection Et' as <-. rewrite Eh. apply same_lines_refl.
Qed.

Lemma gb_delete_step brk b p q : wf (b_data b) ->
  match gb_delete brk (b_data b) (range_new p q) with
  | Ok g => step_ok b (notify (set_data b g) (r_start (range_new p q)))
  | Panic => ~ order_safe brk
  end.
Proof.
  intros (s1 & s2 & R).
  destruct (gb_delete brk (b_data b) (range_new p q)) as [g|] eqn:E.
  - rewrite range_new_ordered in *. cbn [r_start].
    pose proof (delete_ok brk (b_data b) s1 s2 (first_of p q) (second_of p q) R) as X.
    destruct (hsplit brk s1 s2 (first_of p q)) as [[pre post]|] eqn:Es.
    + destruct (delete_halves brk (concat pre) (concat post) (second_of p q)) as [t2|]; [|congruence].
      destruct X as (g' & E' & X). rewrite E in E'. injection E' as <-.
      apply step_at; [solve [eexists _, _; eassumption]|]. unfold buf_data. rewrite (to_string_ok _ _ _ R), (to_string_ok _ _ _ X).
      intros t t' Et Et'. injection Et as <-. injection Et' as <-. rewrite (hsplit_concat _ _ _ _ _ _ Es).
      apply same_lines_prefix. eapply hsplit_line; eassumption.
    + rewrite E in X. injection X as ->. apply step_at; [solve [eexists _, _; eassumption]|].
      intros t t' Et Et'. unfold buf_data in Et. rewrite Et in Et'. injection Et' as <-. apply same_lines_refl.
  - intros Hos. destruct (delete_no_panic brk (b_data b) s1 s2 p q Hos R) as (g & E' & _). congruence.
Qed.

Lemma replace_content_step brk al s b : valid_text s ->
  exists b', replace_content brk al s b = Ok b' /\ step_ok b b' /\ buf_data b' = Ok s.
Proof.
  intros V. unfold replace_content. destruct (new_ok al s V) as (g & E & R). rewrite E.
  cbn [bind]. assert (W : wf g) by (now exists s, []).
  assert (Ed : gb_to_string g = Ok s) by (rewrite (to_string_ok _ _ _ R); now rewrite app_nil_r).
  assert (St : forall c, step_ok b (notify (set_cursor (set_data b g) c) (Pos 0 0))).
  { intros c. split; [assumption|now unfold same_rest|]. exists [Pos 0 0]. split.
    - cbn. destruct (b_callback b); [reflexivity|now rewrite app_nil_r].
    - intros n Hn t t' _ _. inversion_clear Hn as [|? ? H0 _]. cbn [line] in H0.
      replace n with 0 by lia. reflexivity. }
  destruct (move_to_bool brk g (cursor_new (Pos 0 0)) (c_pos (b_cursor b)) W) as (k & c1 & E1).
  rewrite E1. cbn [bind]. destruct k; cbn [bind].
  - eexists. split; [reflexivity|]. split; [apply St|exact Ed].
  - destruct (move_to_bool brk g c1 (Pos (line (c_pos (b_cursor b))) 0) W) as (k2 & c2 & E2).
    rewrite E2. cbn [bind]. eexists. split; [reflexivity|]. split; [apply St|exact Ed].
Qed.

Lemma gb_read_valid brk g p q : wf g -> exists m, gb_read brk g (range_new p q) = Ok m
  /\ match m with Some s => valid_text s | None => True end.
Proof.
  intros (s1 & s2 & R). rewrite range_new_ordered.
  rewrite (read_halves _ _ _ _ _ _ R (first_second_ple p q)). eexists. split; [reflexivity|].
  destruct (hsplit brk s1 s2 (first_of p q)) as [[pre post]|] eqn:E1; [|exact I].
  destruct (hsplit brk s1 s2 (second_of p q)) as [[pre' post']|] eqn:E2; [|exact I].
  pose proof (rep_valid _ _ _ R) as V. rewrite (hsplit_concat _ _ _ _ _ _ E2) in V.
  apply valid_app in V as [V _]. apply valid_concat in V. apply valid_concat.
  rewrite <- (firstn_skipn (length pre) pre') in V. now apply Forall_app in V.
Qed.

Lemma op_run_step brk al op : alloc_ok al -> op_valid op -> forall b, wf (b_data b) ->
  match op_run brk al op b with
  | Ok (op', b') => step_ok b b' /\ op_valid op'
  | Panic => ~ order_safe brk
  end.
Proof.
  intros Hal. induction op as [d p|c r|s t|ops IH] using operation_induction; intros Hv b W.
  - cbn [op_run]. destruct (gb_insert_step brk al b d p Hal W Hv) as (g & E & S). rewrite E. now split.
  - destruct Hv as [_ (p & q & ->)]. cbn [op_run].
    destruct (gb_read_valid brk (b_data b) p q W) as (m & E & Vm). rewrite E. cbn [bind].
    pose proof (gb_delete_step brk b p q W) as X.
    destruct (gb_delete brk (b_data b) (range_new p q)) as [g|]; cbn [bind]; [|assumption].
    split; [assumption|]. split; [assumption|]. eauto.
  - destruct Hv as [Vs Vt]. cbn [op_run].
    destruct (replace_content_step brk al t b Vt) as (b' & E & S & _). rewrite E. split; [assumption|now split].
  - change (op_run brk al (OpGroup ops) b) with (let* (ops', b') := go_run brk al ops b in Ok (OpGroup ops', b')).
    apply op_valid_group in Hv.
    assert (X : match go_run brk al ops b with
                | Ok (ops', b') => step_ok b b' /\ Forall op_valid ops'
                | Panic => ~ order_safe brk end).
    { revert b W. induction ops as [|o ops IHo]; intros b W; cbn [go_run].
      - split; [now apply step_refl|constructor].
      - inversion_clear IH as [|? ? IH1 IH2]. inversion_clear Hv as [|? ? V1 V2].
        specialize (IH1 V1 b W). destruct (op_run brk al o b) as [[o' b1]|]; cbn [bind]; [|assumption].
        destruct IH1 as [S1 V1']. specialize (IHo IH2 V2 b1 (st_wf _ _ S1)).
        destruct (go_run brk al ops b1) as [[ops' b2]|]; cbn [bind]; [|assumption].
        destruct IHo as [S2 V2']. split; [|now constructor].
        eapply step_trans; [apply (st_wf _ _ S1)|eassumption|eassumption]. }
    destruct (go_run brk al ops b) as [[ops' b']|]; cbn [bind]; [|assumption].
    destruct X as [S V]. split; [assumption|]. now apply op_valid_group.
Qed.

Lemma op_reverse_step brk al op : alloc_ok al -> op_valid op -> forall b, wf (b_data b) ->
  match op_reverse brk al op b with
  | Ok b' => step_ok b b'
  | Panic => ~ order_safe brk
  end.
Proof.
  intros Hal. induction op as [d p|c r|s t|ops IH] using operation_induction; intros Hv b W.
  - cbn [op_reverse]. destruct (insert_end brk d p) as [e|] eqn:Ee; [|now apply step_refl].
    pose proof (gb_delete_step brk b p e W) as X.
    destruct (gb_delete brk (b_data b) (range_new p e)) as [g|] eqn:E; cbn [bind]; [|assumption].
    assert (Ep : r_start (range_new p e) = p); [|now rewrite Ep in X].
    rewrite range_new_ordered. cbn [r_start]. unfold insert_end in Ee.
    unfold first_of, before. destruct (Nat.eqb_spec (count_lf d + 1) 1).
    + injection Ee as <-. cbn [line offset].
      destruct (Nat.ltb_spec (line p + (count_lf d + 1) - 1) (line p)); [lia|].
      destruct (Nat.ltb_spec (offset p + length (graphemes brk d)) (offset p)); [lia|].
      now rewrite andb_false_r.
    + destruct (last_line d); [|discriminate]. injection Ee as <-. cbn [line offset].
      destruct (Nat.ltb_spec (line p + (count_lf d + 1) - 1) (line p)); [lia|].
      destruct (Nat.eqb_spec (line p + (count_lf d + 1) - 1) (line p)); [lia|]. reflexivity.
  - destruct Hv as [Vc (p & q & ->)]. cbn [op_reverse]. destruct c as [m|]; [|now apply step_refl].
    destruct (gb_insert_step brk al b m (r_start (range_new p q)) Hal W Vc) as (g & E & S). now rewrite E.
  - destruct Hv as [Vs Vt]. cbn [op_reverse].
    destruct (replace_content_step brk al s b Vs) as (b' & E & S & _). now rewrite E.
  - change (op_reverse brk al (OpGroup ops) b) with (go_rev brk al ops b).
    apply op_valid_group in Hv. revert b W. induction ops as [|o ops IHo]; intros b W; cbn [go_rev].
    + now apply step_refl.
    + inversion_clear IH as [|? ? IH1 IH2]. inversion_clear Hv as [|? ? V1 V2].
      specialize (IHo IH2 V2 b W). destruct (go_rev brk al ops b) as [b1|]; cbn [bind]; [|assumption].
      specialize (IH1 V1 b1 (st_wf _ _ IHo)). destruct (op_reverse brk al o b1) as [b2|]; [|assumption].
      eapply step_trans; [apply (st_wf _ _ IHo)|eassumption|eassumption].
Qed.

(** ** Well-formed buffers *)

Record wfb (b : buffer) : Prop := Wfb {
  wfb_data : wf (b_data b);
  wfb_prev : Forall op_valid (h_previous (b_history b));
  wfb_next : Forall op_valid (h_next (b_history b));
  wfb_group : match b_group b with Some ops => Forall op_valid ops | None => True end }.

(** The change a call announces. *)
Definition announces (b b' : buffer) : Prop :=
  exists ps, b_log b' = b_log b ++ (if b_callback b then ps else [])
    /\ forall n, Forall (fun p => n <= line p) ps -> forall t t',
         buf_data b = Ok t -> buf_data b' = Ok t' -> same_lines n t t'.

Lemma store_log b op : b_log (store b op) = b_log b.
Proof. unfold store. now destruct (b_group b). Qed.
Lemma store_data b op : b_data (store b op) = b_data b.
Proof. unfold store. now destruct (b_group b). Qed.

Lemma announces_same b b' : wf (b_data b) -> b_data b' = b_data b -> b_log b' = b_log b -> announces b b'.
Proof.
  intros W E L. exists []. rewrite L. split; [destruct (b_callback b); now rewrite app_nil_r|].
  intros n _ t t' Et Et'. unfold buf_data in *. rewrite E, Et in Et'. injection Et' as <-. apply same_lines_refl.
Qed.
Lemma announces_step b b1 b2 b3 : step_ok b1 b2 -> b_data b1 = b_data b -> b_log b1 = b_log b ->
  b_callback b1 = b_callback b -> b_data b3 = b_data b2 -> b_log b3 = b_log b2 -> announces b b3.
Proof.
  intros [_ _ (ps & L & F)] E1 E2 E3 E4 E5. exists ps. rewrite E5, L, E2, E3. split; [reflexivity|].
  intros n Hn t t' Et Et'. unfold buf_data in *. rewrite E4 in Et'. rewrite <- E1 in Et. eauto.
Qed.

Lemma store_wfb b b' op : wfb b -> step_ok b b' -> op_valid op -> wfb (store b' op).
Proof.
  intros [W1 W2 W3 W4] [S1 (_ & _ & R3 & R4 & _) _] V. unfold store. rewrite R4, R3.
  destruct (b_group b) as [ops|] eqn:Eg; split; cbn; rewrite ?R3, ?R4, ?Eg; try assumption.
  - apply Forall_app. split; [assumption|]. now constructor.
  - now constructor.
  - constructor.
Qed.

Lemma edit_any brk al b op : alloc_ok al -> wfb b -> op_valid op ->
  match (let* (op', b') := op_run brk al op b in Ok (store b' op')) with
  | Ok b' => wfb b' /\ announces b b'
  | Panic => ~ order_safe brk
  end.
Proof.
  intros Hal W V. pose proof (op_run_step brk al op Hal V b (wfb_data _ W)) as X.
  destruct (op_run brk al op b) as [[op' b']|]; cbn [bind]; [|assumption]. destruct X as [S V'].
  split; [eapply store_wfb; eassumption|].
  eapply announces_step; try eassumption; try reflexivity; [apply store_data|apply store_log].
Qed.

Lemma wfb_data_total b : wfb b -> exists t, buf_data b = Ok t /\ valid_text t.
Proof.
  intros W. destruct (wfb_data _ W) as (s1 & s2 & R). exists (s1 ++ s2).
  split; [now apply to_string_ok|]. now apply rep_valid in R.
Qed.

Lemma replace_any brk al b s : alloc_ok al -> wfb b -> valid_text s ->
  exists b', buf_replace brk al b s = Ok b' /\ wfb b' /\ announces b b'.
Proof.
  intros Hal W V. unfold buf_replace. destruct (wfb_data_total b W) as (t & Et & Vt). rewrite Et.
  cbn [bind]. destruct (list_N_eqb s t).
  - exists b. split; [reflexivity|]. split; [assumption|]. now apply announces_same; try apply W.
  - cbn [op_run]. destruct (replace_content_step brk al s b V) as (b' & E & S & _). rewrite E. cbn [bind].
    eexists. split; [reflexivity|]. split; [eapply store_wfb; try eassumption; now split|].
    eapply announces_step; try eassumption; try reflexivity; [apply store_data|apply store_log].
Qed.

Lemma undo_any brk al b : alloc_ok al -> wfb b ->
  match buf_undo brk al b with
  | Ok b' => wfb b' /\ announces b b'
  | Panic => ~ order_safe brk
  end.
Proof.
  intros Hal W. destruct W as [W1 W2 W3 W4]. unfold buf_undo.
  assert (Run : forall op b1, op_valid op -> wfb b1 -> b_data b1 = b_data b -> b_log b1 = b_log b ->
    b_callback b1 = b_callback b ->
    match op_reverse brk al op b1 with Ok b' => wfb b' /\ announces b b' | Panic => ~ order_safe brk end).
  { intros op b1 V Wb E1 E2 E3. pose proof (op_reverse_step brk al op Hal V b1 (wfb_data _ Wb)) as X.
    destruct (op_reverse brk al op b1) as [b2|]; [|assumption]. split.
    - destruct X as [S1 (_ & _ & R3 & R4 & _) _]. destruct Wb as [_ B2 B3 B4].
      split; rewrite ?R3, ?R4; assumption.
    - eapply announces_step; try eassumption; reflexivity. }
  assert (Hist : match (let '(op, h) := hist_previous (b_history (set_group b None)) in
         (op, set_history (set_group b None) h)) with
    | (Some op, b1) => op_valid op /\ wfb b1 /\ b_data b1 = b_data b /\ b_log b1 = b_log b /\
    b_callback b1 = b_callback b
    | (None, b1) => wfb b1 /\ announces b b1 end).
  { cbn [b_history set_group]. unfold hist_previous.
    destruct (b_history b) as [prev next mk]. cbn [h_previous h_next h_mark] in *.
    destruct prev as [|op prev].
    - split; [now split|]. now apply announces_same.
    - inversion_clear W2. repeat (split; [solve [assumption|now split|split; cbn; try assumption; now constructor]|]).
      reflexivity. }
  destruct (b_group b) as [[|o ops]|] eqn:Eg.
  - destruct (let '(op, h) := hist_previous _ in _) as [[op|] b1]; [|assumption].
    destruct Hist as (V & Wb & E1 & E2 & E3). now apply Run.
  - apply Run; try reflexivity; [now apply op_valid_group|now split].
  - destruct (let '(op, h) := hist_previous _ in _) as [[op|] b1]; [|assumption].
    destruct Hist as (V & Wb & E1 & E2 & E3). now apply Run.
Qed.

Lemma redo_any brk al b : alloc_ok al -> wfb b ->
  match buf_redo brk al b with
  | Ok b' => wfb b' /\ announces b b'
  | Panic => ~ order_safe brk
  end.
Proof.
  intros Hal W. destruct W as [W1 W2 W3 W4]. unfold buf_redo, hist_next.
  destruct (b_history b) as [prev next mk] eqn:Eh. cbn [h_previous h_next h_mark] in *.
  destruct next as [|op next].
  - split; [split; cbn; assumption|]. now apply announces_same.
  - inversion_clear W3.
    set (b1 := set_history b {| h_previous := op :: prev; h_next := next; h_mark := mk |}).
    assert (Wb : wfb b1) by (split; cbn; try assumption; now constructor).
    pose proof (op_run_step brk al op Hal H b1 W1) as X.
    destruct (op_run brk al op b1) as [[op' b2]|]; cbn [bind]; [|assumption]. destruct X as [X V]. split.
    + destruct X as [S1 (_ & _ & R3 & R4 & _) _]. destruct Wb as [_ B2 B3 B4].
      split; rewrite ?R3, ?R4; assumption.
    + eapply announces_step; try eassumption; reflexivity.
Qed.

Lemma bexec_any brk al c b f : alloc_ok al -> call_ok c -> wfb b ->
  match bexec brk al c b f with
  | Ok (o, b', f') => wfb b' /\ announces b b'
  | Panic => ~ order_safe brk
  end.
Proof.
  intros Hal Hc W. pose proof (wfb_data _ W) as Wd. destruct c; cbn [bexec call_ok] in *.
  - pose proof (edit_any brk al b (OpInsert data (c_pos (b_cursor b))) Hal W Hc) as X.
    unfold buf_insert. destruct (let* (op', b') := _ in _); assumption.
  - unfold buf_delete. destruct (in_bounds_wf brk (b_data b) (Pos (line (c_pos (b_cursor b))) (offset (c_pos (b_cursor b)) + 1)) Wd) as (k & E).
    rewrite E. cbn [bind]. set (q := if k then _ else _). unfold buf_delete_range.
    pose proof (edit_any brk al b (OpDelete None (range_new (c_pos (b_cursor b)) q)) Hal W) as X.
    cbn [op_valid] in X. specialize (X (conj I (ex_intro _ _ (ex_intro _ _ eq_refl)))).
    destruct (let* (op', b') := _ in _); assumption.
  - unfold buf_delete_range.
    pose proof (edit_any brk al b (OpDelete None (range_new p q)) Hal W) as X.
    cbn [op_valid] in X. specialize (X (conj I (ex_intro _ _ (ex_intro _ _ eq_refl)))).
    destruct (let* (op', b') := _ in _); assumption.
  - destruct (replace_any brk al b content Hal W Hc) as (b' & E & H). rewrite E. cbn [bind]. exact H.
  - pose proof (undo_any brk al b Hal W) as X. destruct (buf_undo brk al b); assumption.
  - pose proof (redo_any brk al b Hal W) as X. destruct (buf_redo brk al b); assumption.
  - unfold start_group. destruct (b_group b) eqn:Eg; (split; [|now apply announces_same]); [assumption|].
    destruct W. split; cbn; try assumption. constructor.
  - unfold end_group. destruct W as [W1 W2 W3 W4]. destruct (b_group b) as [[|o ops]|] eqn:Eg.
    + split; [split; cbn; trivial|now apply announces_same].
    + split; [split; cbn; trivial|now apply announces_same]. constructor; [|assumption]. now apply op_valid_group.
    + split; [split; try assumption; now rewrite Eg|now apply announces_same].
  - destruct (cexec_stays brk (b_data b) m (b_cursor b) Wd) as (c' & E & _). rewrite E. cbn [bind].
    split; [|now apply announces_same]. destruct W. now split.
  - split; [|now apply announces_same]. destruct W. now split.
  - unfold buf_save. destruct (b_path b) as [p|]; [|split; [assumption|now apply announces_same]].
    destruct (wfb_data_total b W) as (t & Et & Vt).
    destruct (outcome f p w); cbn [bind]; rewrite ?Et; cbn [bind]; (split; [|now apply announces_same]); try assumption.
    destruct W. now split.
  - unfold buf_reload. destruct (b_path b) as [p|]; [|split; [assumption|now apply announces_same]].
    destruct (read_to_string f p) as [s|] eqn:Ef; [|split; [assumption|now apply announces_same]].
    assert (V : valid_text s).
    { unfold read_to_string in Ef. destruct (fs_read f p); [|discriminate]. now apply decode_strict_valid in Ef as [? _]. }
    destruct (replace_any brk al b s Hal W V) as (b' & E & W' & A). rewrite E. cbn [bind].
    split; [destruct W'; now split|]. exact A.
  - split; [|now apply announces_same]. destruct W. now split.
  - split; [|now apply announces_same]. destruct W. now split.
  - split; [|now apply announces_same]. destruct W. now split.
  - split; [|now apply announces_same]. destruct W. now split.
  - split; [|now apply announces_same]. destruct W. now split.
Qed.

Lemma fresh_wfb f b : fresh_buffer f b -> wfb b.
Proof.
  intros [(al & E)|(al & p & E)].
  - unfold buffer_new in E. destruct (new_ok al [] ltac:(constructor)) as (g & Eg & R). rewrite Eg in E.
    injection E as <-. split; cbn; try constructor. eexists _, _. exact R.
  - unfold from_file in E. destruct (read_to_string f p) as [s|] eqn:Ef; [|discriminate].
    assert (V : valid_text s).
    { unfold read_to_string in Ef. destruct (fs_read f p); [|discriminate]. now apply decode_strict_valid in Ef as [? _]. }
    destruct (new_ok al s V) as (g & Eg & R). rewrite Eg in E. cbn [bind] in E.
    destruct (fs_canon f p); [|discriminate]. injection E as <-. split; cbn; try constructor. solve [eexists _, _; eassumption].
Qed.

Lemma brun_any brk cs : forall b f, wfb b ->
  Forall (fun ac => alloc_ok (fst ac) /\ call_ok (snd ac)) cs ->
  match brun brk cs b f with
  | Ok (os, b', f') => wfb b'
  | Panic => ~ order_safe brk
  end.
Proof.
  induction cs as [|[al c] cs IH]; intros b f W H; cbn [brun]; [assumption|].
  inversion_clear H as [|? ? [Ha Hc] H']. cbn [fst snd] in *.
  pose proof (bexec_any brk al c b f Ha Hc W) as X.
  destruct (bexec brk al c b f) as [[[o b1] f1]|]; cbn [bind]; [|assumption]. destruct X as [W1 _].
  specialize (IH b1 f1 W1 H'). destruct (brun brk cs b1 f1) as [[[os b2] f2]|]; cbn [bind]; assumption.
Qed.

Lemma reachable_wfb brk b f : reachable_buffer brk b f -> wfb b.
Proof.
  intros (b0 & f0 & cs & os & H0 & Hc & E). pose proof (brun_any brk cs b0 f0 (fresh_wfb _ _ H0) Hc) as X.
  now rewrite E in X.
Qed.
