(** Lemmas behind C88. *)
From Verif Require Import Base Utf8 Utf8Proofs Grapheme GraphemeProofs Position LineIterator GapBuffer
  GapBufferProofs Cursor PathModel Buffer Token TokenSpec Spec CursorSpec CursorCalls Calls TextProofs HalvesProofs TextFacts GapProps
  CursorProofs OpProofs BufferCalls Timeline TimelineProofs AnyTextProofs BufferProps BufferIoProps BufferFacts
  TokenStream TokenStreamProofs RedoSpec HighlightSpec.

Section Highlight.
Variables pstate scopeop stack : Type.
Variable parse_line : pstate -> text -> option (list (nat * scopeop)) * pstate.
Variable apply : stack -> scopeop -> stack * bool.
Variable brk : brk_rule.
Let next := ti_next pstate scopeop stack parse_line apply brk.
Notation line_items := (TokenStream.line_items scopeop stack apply brk).
Notation rest_items := (TokenStream.rest_items pstate scopeop stack parse_line apply brk).

(** On line [n] or later. *)
Definition late (n : nat) (i : item stack) : Prop :=
  match i with Tok (Lexeme l) => n <= line (lx_position l) | _ => True end.

Lemma line_late n c evs : forall sc from col, Forall (late n) (fst (line_items n c evs sc from col)).
Proof.
  induction evs as [|[at_byte op] evs IH]; intros sc from col; cbn [TokenStream.line_items].
  - destruct (from <? blen c); [|constructor]. constructor; [|constructor]. destruct (str_slice c from (blen c)); cbn; [lia|exact I].
  - destruct (apply sc op) as [sc' ok]. destruct (from <? at_byte).
    + destruct (str_slice c from (Nat.min at_byte (blen c))) as [v|]; [|constructor; [exact I|constructor]].
      specialize (IH sc' at_byte (col + length (graphemes brk v))).
      destruct (line_items n c evs sc' at_byte (col + length (graphemes brk v))) as [ks sc'']. cbn [fst] in *.
      constructor; [|assumption]. destruct ok; cbn; [lia|exact I].
    + specialize (IH sc' from col). destruct (line_items n c evs sc' from col) as [ks sc'']. cbn [fst] in *.
      destruct ok; [assumption|]. now constructor.
Qed.
Lemma late_le n m i : n <= m -> late m i -> late n i.
Proof. destruct i as [[|l]| |]; cbn; intros; try exact I. lia. Qed.
Lemma rest_late cs : forall n s sc, Forall (late n) (rest_items n cs s sc).
Proof.
  induction cs as [|c cs IH]; intros n s sc; cbn [TokenStream.rest_items]; [constructor|].
  assert (F : forall s sc, Forall (late n) (rest_items (S n) cs s sc)).
  { intros s0 sc0. eapply Forall_impl; [|apply IH]. intros i. apply late_le. lia. }
  destruct (parse_line s (whole c cs)) as [[evs|] s'].
  - pose proof (line_late n c evs sc 0 0) as L. destruct (line_items n c evs sc 0 0) as [ks sc']. cbn [fst] in L.
    constructor; [exact I|]. apply Forall_app. split; [assumption|apply F].
  - constructor; [exact I|apply F].
Qed.

Lemma whole_same c cs c' cs' : ~ In LF c -> ~ In LF c' -> whole c cs = whole c' cs' -> c = c'.
Proof.
  intros H H' E. pose proof (whole_eol c cs H) as [A (z & B)]. pose proof (whole_eol c' cs' H') as [A' (z' & B')].
  unfold whole in E. destruct cs, cs'.
  - assumption.
  - exfalso. apply H. rewrite E. apply in_or_app. right. now left.
  - exfalso. apply H'. rewrite <- E. apply in_or_app. right. now left.
  - now apply app_inv_tail in E.
Qed.

Lemma rest_alike j : forall n cs cs' s sc, Forall (fun c => ~ In LF c) cs -> Forall (fun c => ~ In LF c) cs' ->
  firstn j (wholes cs) = firstn j (wholes cs') ->
  exists A B B', rest_items n cs s sc = A ++ B /\ rest_items n cs' s sc = A ++ B' /\ Forall (late (n + j)) B /\ Forall (late (n + j)) B'.
Proof.
  induction j as [|j IH]; intros n cs cs' s sc F F' E.
  - exists [], (rest_items n cs s sc), (rest_items n cs' s sc). rewrite Nat.add_0_r. repeat split; apply rest_late.
  - destruct cs as [|c cs], cs' as [|c' cs']; cbn [wholes firstn] in E; try discriminate.
    + exists [], [], []. repeat split; constructor.
    + injection E as E1 E2. inversion_clear F as [|? ? Fc Fcs]. inversion_clear F' as [|? ? Fc' Fcs'].
      pose proof (whole_same _ _ _ _ Fc Fc' E1) as <-. cbn [TokenStream.rest_items]. rewrite <- E1.
      destruct (parse_line s (whole c cs)) as [[evs|] s'].
      * destruct (line_items n c evs sc 0 0) as [ks sc'].
        destruct (IH (S n) cs cs' s' sc' Fcs Fcs' E2) as (A & B & B' & -> & -> & L & L').
        exists (Tok Newline :: ks ++ A), B, B'. cbn [app]. rewrite <- !app_assoc. rewrite <- Nat.add_succ_comm. now repeat split.
      * destruct (IH (S n) cs cs' s' sc Fcs Fcs' E2) as (A & B & B' & -> & -> & L & L').
        exists (Stop ParsingError :: A), B, B'. rewrite <- Nat.add_succ_comm. now repeat split.
Qed.

Lemma stream_alike start new n t t' : 0 < n -> same_lines n t t' ->
  match stream pstate scopeop stack parse_line apply brk start new t, stream pstate scopeop stack parse_line apply brk start new t' with
  | Some ks, Some ks' => exists A B B', ks = A ++ B /\ ks' = A ++ B' /\ Forall (late n) B /\ Forall (late n) B'
  | None, None => True
  | _, _ => False
  end.
Proof.
  unfold same_lines. rewrite <- !wholes_full. intros Hn E. unfold stream.
  pose proof (lines_no_lf t) as F. pose proof (lines_no_lf t') as F'. pose proof (lines_of_ne t) as N. pose proof (lines_of_ne t') as N'.
  destruct (lines_of t) as [|c cs]; [contradiction|]. destruct (lines_of t') as [|c' cs']; [contradiction|].
  destruct n as [|n]; [lia|]. cbn [wholes firstn] in E. injection E as E1 E2.
  inversion_clear F as [|? ? Fc Fcs]. inversion_clear F' as [|? ? Fc' Fcs'].
  pose proof (whole_same _ _ _ _ Fc Fc' E1) as <-. rewrite <- E1.
  destruct (parse_line start (whole c cs)) as [[evs|] s']; [|exact I].
  destruct (line_items 0 c evs new 0 0) as [ks sc'].
  destruct (rest_alike n 1 cs cs' s' sc' Fcs Fcs' E2) as (A & B & B' & -> & -> & L & L').
  exists (ks ++ A), B, B'. rewrite <- !app_assoc. now repeat split.
Qed.

Lemma play_alike (A : list (item stack)) : forall k B B', k <= length A -> play k (A ++ B) = play k (A ++ B').
Proof.
  induction A as [|i A IH]; intros k B B' H; cbn [length] in H; [now assert (k = 0) as -> by lia|].
  destruct k as [|k]; [reflexivity|]. cbn [app play]. rewrite (IH k B B') by lia. reflexivity.
Qed.
Lemma recorded_alike (A : list (item stack)) k B B' : k <= length A -> recorded k (A ++ B) = recorded k (A ++ B').
Proof. intros H. unfold recorded. rewrite !firstn_app. replace (k - length A) with 0 by lia. reflexivity. Qed.
Lemma play_nil k xs : play k ([] : list (item stack)) = Some xs -> Forall (fun x => x = None) xs.
Proof.
  revert xs. induction k as [|k IH]; intros xs; cbn [play]; [intros E; injection E as <-; constructor|].
  destruct (play k []) as [ys|]; [|discriminate]. cbn. intros E. injection E as <-. constructor; [reflexivity|now apply IH].
Qed.
Definition late_token (n : nat) (x : option (token stack)) : Prop :=
  match x with Some (Lexeme l) => n <= line (lx_position l) | _ => True end.
Lemma play_late n B : Forall (late n) B -> forall k xs, play k B = Some xs -> Forall (late_token n) xs.
Proof.
  induction 1 as [|i B Hi HB IH]; intros k xs E.
  - apply play_nil in E. eapply Forall_impl; [|exact E]. now intros x ->.
  - destruct k as [|k]; [cbn in E; injection E as <-; constructor|]. destruct i as [tk|e|]; cbn [play] in E; [| |discriminate].
    + destruct (play k B) as [ys|] eqn:P; [|discriminate]. cbn in E. injection E as <-. constructor; [exact Hi|now apply (IH k)].
    + destruct (play k B) as [ys|] eqn:P; [|discriminate]. cbn in E. injection E as <-. constructor; [exact I|now apply (IH k)].
Qed.
Lemma play_after n B : Forall (late n) B -> forall (A : list (item stack)) k xs, play k (A ++ B) = Some xs -> Forall (late_token n) (skipn (length A) xs).
Proof.
  intros HB A. induction A as [|i A IH]; intros k xs E; cbn [length].
  - cbn [skipn]. now apply (play_late n B HB k).
  - destruct k as [|k]; [cbn in E; injection E as <-; constructor|]. cbn [app] in E. destruct i as [tk|e|]; cbn [play] in E; [| |discriminate].
    + destruct (play k (A ++ B)) as [ys|] eqn:P; [|discriminate]. cbn in E. injection E as <-. cbn [skipn]. now apply (IH k).
    + destruct (play k (A ++ B)) as [ys|] eqn:P; [|discriminate]. cbn in E. injection E as <-. cbn [skipn]. now apply (IH k).
Qed.

Lemma lines_highlighted start new n t t' : 0 < n -> same_lines n t t' ->
  highlighted_alike pstate scopeop stack parse_line apply brk start new n t t'.
Proof.
  intros Hn S. pose proof (stream_alike start new n t t' Hn S) as X. unfold highlighted_alike.
  pose proof (stream_exactly pstate scopeop stack parse_line apply brk start new t) as Y.
  pose proof (stream_exactly pstate scopeop stack parse_line apply brk start new t') as Y'.
  destruct (stream _ _ _ _ _ _ _ _ t) as [ks|], (stream _ _ _ _ _ _ _ _ t') as [ks'|]; try contradiction.
  - destruct Y as (it & -> & Y), Y' as (it' & -> & Y'). destruct X as (A & B & B' & -> & -> & L & L').
    exists (length A). split; [|split].
    + intros k Hk. unfold heard. specialize (Y k). specialize (Y' k).
      rewrite (play_alike A k B B' Hk), (recorded_alike A k B B' Hk) in Y.
      destruct (TokenSpec.steps _ k it) as [[xs i]|]; [destruct Y as [Y Z]|];
        (destruct (TokenSpec.steps _ k it') as [[xs' i']|]; [destruct Y' as [Y' Z']|]); cbn [bind]; congruence.
    + intros k xs i E. specialize (Y k). rewrite E in Y. destruct Y as [Y _]. exact (play_after n B L A k xs Y).
    + intros k xs i E. specialize (Y' k). rewrite E in Y'. destruct Y' as [Y' _]. exact (play_after n B' L' A k xs Y').
  - rewrite Y, Y'. reflexivity.
Qed.
End Highlight.

(** ** Runs of calls *)
Tactic Notation "unbind" simple_intropattern(x) :=
  match goal with
  | H : bind ?r _ = Ok _ |- _ => let E := fresh "E" in destruct r as [x|] eqn:E; cbn [bind] in H; [|discriminate]
  end.
Lemma replace_callback brk al s b b' : replace_content brk al s b = Ok b' -> b_callback b' = b_callback b.
Proof.
  unfold replace_content. intros H. unbind g. unbind [k c1]. unbind c2. now injection H as <-.
Qed.
Lemma run_callback brk al op : forall b op' b', op_run brk al op b = Ok (op', b') -> b_callback b' = b_callback b.
Proof.
  induction op as [c p|c r|old new|ops IH] using operation_induction; intros b op' b' H; cbn [op_run] in H.
  - unbind v. now injection H as _ <-.
  - unbind v. unbind w. now injection H as _ <-.
  - unbind v. injection H as _ <-. now apply replace_callback in E.
  - unbind [ops' b1]. injection H as _ <-. revert b ops' b1 E.
    induction IH as [|o ops Ho _ IH]; intros b ops' b1 E.
    + now injection E as _ <-.
    + unbind [o' b2]. unbind [r' b3]. injection E as _ <-.
      rewrite (IH _ _ _ E1). now apply Ho in E0.
Qed.
Lemma reverse_callback brk al op : forall b b', op_reverse brk al op b = Ok b' -> b_callback b' = b_callback b.
Proof.
  induction op as [c p|c r|old new|ops IH] using operation_induction; intros b b' H; cbn [op_reverse] in H.
  - destruct (insert_end brk c p); [unbind v; now injection H as <-|now injection H as <-].
  - destruct c; [unbind v; now injection H as <-|now injection H as <-].
  - now apply replace_callback in H.
  - revert b b' H. induction IH as [|o ops Ho _ IH]; intros b b' H.
    + now injection H as <-.
    + unbind v. apply IH in E. apply Ho in H. congruence.
Qed.
Lemma store_callback b op : b_callback (store b op) = b_callback b.
Proof. unfold store. now destruct (b_group b). Qed.
Lemma brun_delete_range_callback brk al b r b' : buf_delete_range brk al b r = Ok b' -> b_callback b' = b_callback b.
Proof.
  unfold buf_delete_range. intros H. unbind [op b1]. injection H as <-. rewrite store_callback. now apply run_callback in E.
Qed.
Lemma buf_replace_callback brk al b s b' : buf_replace brk al b s = Ok b' -> b_callback b' = b_callback b.
Proof.
  unfold buf_replace. intros H. unbind v. destruct (list_N_eqb s v); [now injection H as <-|]. cbn [bind] in H. unbind [op b1]. injection H as <-. rewrite store_callback. now apply run_callback in E0.
Qed.
Lemma undo_callback brk al b b' : buf_undo brk al b = Ok b' -> b_callback b' = b_callback b.
Proof.
  unfold buf_undo. intros H. destruct (b_group b) as [[|o ops]|].
  1,3: destruct (hist_previous (b_history (set_group b None))) as [[op|] h]; [now apply reverse_callback in H|now injection H as <-].
  now apply reverse_callback in H.
Qed.
Lemma redo_callback brk al b b' : buf_redo brk al b = Ok b' -> b_callback b' = b_callback b.
Proof.
  unfold buf_redo. intros H. destruct (hist_next (b_history b)) as [[op|] h]; [|now injection H as <-].
  unbind [op' b1]. injection H as <-. now apply run_callback in E.
Qed.
Lemma quiet_callback brk al c b f o b' f' : quiet c -> bexec brk al c b f = Ok (o, b', f') -> b_callback b' = b_callback b.
Proof.
  intros Q H. destruct c; cbn [bexec quiet] in *; try contradiction.
  - unbind v. injection H as _ <- _. unfold buf_insert in E. unbind [op b1]. injection E as <-.
    rewrite store_callback. now apply run_callback in E0.
  - unbind v. injection H as _ <- _. unfold buf_delete in E. unbind k. now apply brun_delete_range_callback in E.
  - unbind v. injection H as _ <- _. now apply brun_delete_range_callback in E.
  - unbind v. injection H as _ <- _. now apply buf_replace_callback in E.
  - unbind v. injection H as _ <- _. now apply undo_callback in E.
  - unbind v. injection H as _ <- _. now apply redo_callback in E.
  - injection H as _ <- _. unfold start_group. now destruct (b_group b).
  - injection H as _ <- _. unfold end_group. destruct (b_group b) as [[|? ?]|]; reflexivity.
  - unbind [? ?]. now injection H as _ <- _.
  - now injection H as _ <- _.
  - unbind [[? ?] ?]. injection H as _ <- _. unfold buf_save in E.
    destruct (b_path b); [|now injection E as _ <- _].
    destruct (outcome f p w); try (unbind v); now injection E as _ <- _.
  - unbind [? ?]. injection H as _ <- _. unfold buf_reload in E.
    destruct (b_path b); [|now injection E as _ <-]. destruct (read_to_string f p); [|now injection E as _ <-].
    unbind v. injection E as _ <-. now apply buf_replace_callback in E0.
  - now injection H as _ <- _.
  - now injection H as _ <- _.
  - now injection H as _ <- _.
  - now injection H as _ <- _.
Qed.

Lemma run_announces brk cs : forall b f os b' f' t t', reachable_buffer brk b f -> b_callback b = true ->
  Forall (fun ac => alloc_ok (fst ac) /\ call_ok (snd ac) /\ quiet (snd ac)) cs ->
  brun brk cs b f = Ok (os, b', f') -> buf_data b = Ok t -> buf_data b' = Ok t' ->
  exists ps, b_log b' = b_log b ++ ps /\ forall n, Forall (fun p => n <= line p) ps -> same_lines n t t'.
Proof.
  induction cs as [|[al c] cs IH]; intros b f os b' f' t t' R Hc H E Et Et'.
  - cbn [brun] in E. injection E as _ <- _. exists []. split; [now rewrite app_nil_r|]. rewrite Et in Et'. injection Et' as <-. reflexivity.
  - inversion_clear H as [|? ? [Ha [Hk Hq]] H2]. cbn [fst snd] in *. cbn [brun] in E. unbind [[o b1] f1]. unbind [[os1 b2] f2].
    injection E as _ <- _.
    pose proof (reachable_step brk al c b f o b1 f1 R Ha Hk E0) as R1.
    destruct (buffer_text_valid _ _ _ R1) as (t1 & Et1 & _).
    destruct (call_announces _ _ _ _ _ _ _ _ _ _ R Ha Hk Hc E0 Et Et1) as (ps & L & F).
    pose proof (quiet_callback _ _ _ _ _ _ _ _ Hq E0) as Hc1. rewrite Hc in Hc1.
    destruct (IH _ _ _ _ _ _ _ R1 Hc1 H2 E1 Et1 Et') as (ps' & L' & F'). exists (ps ++ ps'). split.
    + now rewrite L', L, app_assoc.
    + intros n X. apply Forall_app in X as [X1 X2]. eapply same_lines_trans; eauto.
Qed.

Theorem highlighting_kept : forall brk cs b f os b' f' t t', reachable_buffer brk b f -> b_callback b = true ->
  Forall (fun ac => alloc_ok (fst ac) /\ call_ok (snd ac) /\ quiet (snd ac)) cs ->
  brun brk cs b f = Ok (os, b', f') -> buf_data b = Ok t -> buf_data b' = Ok t' ->
  exists ps, b_log b' = b_log b ++ ps /\
    forall pstate scopeop stack
      (parse_line : pstate -> text -> option (list (nat * scopeop)) * pstate)
      (apply : stack -> scopeop -> stack * bool) start new n,
    0 < n -> Forall (fun p => n <= line p) ps ->
    highlighted_alike pstate scopeop stack parse_line apply brk start new n t t'.
Proof.
  intros brk cs b f os b' f' t t' R Hc H E Et Et'.
  destruct (run_announces _ _ _ _ _ _ _ _ _ R Hc H E Et Et') as (ps & L & F). exists ps. split; [exact L|].
  intros pstate scopeop stack parse_line apply start new n Hn X. apply lines_highlighted; [exact Hn|]. now apply F.
Qed.
