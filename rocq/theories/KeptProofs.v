(** What is before the announced places stays. *)
From Verif Require Import Base Utf8 Utf8Proofs Grapheme GraphemeProofs UnicodeTable Position GapBuffer
  GapBufferProofs Cursor PathModel Buffer Spec ClusterSpec CursorSpec CursorCalls Calls TextProofs HalvesProofs TextFacts GapProps
  CursorProofs UaxProofs OpProofs BufferCalls AnyTextProofs SearchProofs Witness MarkSpec MarkProofs Editor MarkEditor
  MarkEditorProofs EveryTextProofs LawSpec LawProofs RedoSpec RedoProofs.

Section Simple.
Variable cls : char -> gcb.
Hypothesis HL : cls LF = GC_LF.
Let brk := uax29 cls.
Let W := words (simple_cluster cls).
Let HI := simple_indep cls.
Let HN := simple_newline_family cls HL.

(** The text before [q] is [a]. *)
Definition front (t : text) (q : position) (a : text) : Prop := exists b, split_at brk t q = Some (a, b).

Lemma front_pieces t q a : W t -> front t q a -> exists b, t = a ++ b /\ W a /\ W b /\ q = end_from brk (Pos 0 0) a.
Proof.
  intros Wt [b E]. destruct (words_split_at brk _ t q a b HI HN Wt E) as [Wa Wb].
  destruct (split_at_inv brk t q a b (w_plain cls HL t Wt) E) as (_ & Eq & _ & _ & Et). now exists b.
Qed.
Lemma front_intro a b : W a -> W b -> front (a ++ b) (end_from brk (Pos 0 0) a) a.
Proof. intros Wa Wb. exists b. now apply (split_end cls HL). Qed.

(** An edit at [p] and the text before a position that is not behind [p]. *)
Lemma front_before t q a p a2 b2 : W t -> front t q a -> ple q p -> split_at brk t p = Some (a2, b2) ->
  exists m, a2 = a ++ m /\ W m.
Proof.
  intros Wt [b E] Hle E2.
  destruct (split_at_mono brk t q p a b a2 b2 (w_plain cls HL t Wt) E E2 Hle) as (m & Ea & Eb & S & _). exists m. split; [exact Ea|].
  destruct (words_split_at brk _ t q a b HI HN Wt E) as [Wa Wb]. subst b.
  assert (X : split_at brk (m ++ b2) (end_from brk (Pos 0 0) m) = Some (m, b2)) by (apply split_at_end; [exact S|now apply (w_plain cls HL)]).
  now destruct (words_split_at brk _ (m ++ b2) _ m b2 HI HN Wb X).
Qed.
Lemma front_common a2 b2 b3 q a : W a2 -> W b2 -> W b3 -> ple q (end_from brk (Pos 0 0) a2) ->
  front (a2 ++ b2) q a -> front (a2 ++ b3) q a.
Proof.
  intros Wa Wb Wc Hle F. assert (Wt : W (a2 ++ b2)) by now apply w_app.
  destruct (front_before (a2 ++ b2) q a _ a2 b2 Wt F Hle) as (m & -> & Wm); [now apply (split_end cls HL)|].
  destruct (front_pieces _ q a Wt F) as (b & _ & Wa' & _ & ->). rewrite <- app_assoc. apply front_intro; [exact Wa'|]. now apply w_app.
Qed.
Lemma front_insert t q a d p : W t -> W d -> ple q p -> front t q a <-> front (spec_insert brk t d p) q a.
Proof.
  intros Wt Wd Hle. unfold spec_insert. destruct (split_at brk t p) as [[a2 b2]|] eqn:E2; [|reflexivity].
  destruct (words_split_at brk _ t p a2 b2 HI HN Wt E2) as [Wa2 Wb2].
  destruct (split_at_inv brk t p a2 b2 (w_plain cls HL t Wt) E2) as (_ & Ep & _ & _ & ->). subst p.
  assert (W (d ++ b2)) by now apply w_app. split; now apply front_common.
Qed.
Lemma front_delete t q a p r : W t -> ple q (first_of p r) -> front t q a <-> front (spec_delete brk t p r) q a.
Proof.
  intros Wt Hle. unfold spec_delete, spec_cut. destruct (split_at brk t (first_of p r)) as [[a2 b2]|] eqn:E2; [|reflexivity].
  destruct (words_split_at brk _ t _ a2 b2 HI HN Wt E2) as [Wa2 Wb2].
  destruct (split_at_inv brk t _ a2 b2 (w_plain cls HL t Wt) E2) as (_ & Ep & _ & _ & Et). rewrite Ep in Hle.
  assert (K : forall x, W x -> front t q a <-> front (a2 ++ x) q a).
  { intros x Wx. rewrite Et. split; now apply front_common. }
  destruct (split_at brk t (second_of p r)) as [[a3 b3]|] eqn:E3.
  - apply K. now destruct (words_split_at brk _ t _ _ b3 HI HN Wt E3).
  - destruct (split_at brk t (Pos (line (second_of p r) + 1) 0)) as [[a3 b3]|] eqn:E4.
    + apply K. now destruct (words_split_at brk _ t _ _ b3 HI HN Wt E4).
    + apply K. exact (w_nil cls).
Qed.
Lemma front_origin t : W t -> front t (Pos 0 0) [].
Proof. intros Wt. exact (front_intro [] t (w_nil cls) Wt). Qed.

Definition frontd (d : desk) := front (whole (d_text d)).
(** One edit, made or taken back. *)
Definition keeps (d d' : desk) : Prop := exists ps, d_said d' = d_said d ++ ps /\
  forall q a, Forall (ple q) ps -> frontd d q a <-> frontd d' q a.
Lemma keeps_one d d' p : d_said d' = d_said d ++ [p] -> (forall q a, ple q p -> frontd d q a <-> frontd d' q a) -> keeps d d'.
Proof. intros E H. exists [p]. split; [exact E|]. intros q a X. inversion_clear X. now apply H. Qed.
Lemma keeps_refl d : keeps d d.
Proof. exists []. split; [now rewrite app_nil_r|]. reflexivity. Qed.
Lemma keeps_trans d1 d2 d3 : keeps d1 d2 -> keeps d2 d3 -> keeps d1 d3.
Proof.
  intros (ps & E & H) (ps' & E' & H'). exists (ps ++ ps'). split; [now rewrite E', E, app_assoc|]. intros q a X.
  apply Forall_app in X as [X1 X2]. now rewrite (H q a X1), (H' q a X2).
Qed.
Lemma ple_origin q : ple q (Pos 0 0) -> q = Pos 0 0.
Proof. intros H. apply ple_spec in H. cbn in H. destruct q as [l o]. cbn in *. f_equal; lia. Qed.
Lemma swapped_keeps al s d : W s -> aligned cls (d_text d) -> keeps d (swapped brk al s d).
Proof.
  intros Ws A. apply keeps_one with (p := Pos 0 0); [reflexivity|]. intros q a Hle. apply ple_origin in Hle as ->.
  assert (K : forall t, W t -> front t (Pos 0 0) a <-> a = []).
  { intros t Wt. destruct (front_origin t Wt) as [b E]. split; [|intros ->; now exists b]. intros [b' E']. rewrite E in E'. now injection E'. }
  unfold frontd, swapped. cbn [d_text]. unfold m_new, whole. cbn [ahead behind]. rewrite app_nil_r.
  rewrite !K; [reflexivity|exact Ws|exact (aligned_whole cls _ A)].
Qed.
Lemma make_keeps al d x : aligned cls (d_text d) -> sedit cls x -> keeps d (make brk al d x).
Proof.
  intros A Hx. pose proof (aligned_whole cls _ A) as Wt. destruct x as [s p|p r w|o n]; cbn [make sedit] in *.
  - apply keeps_one with (p := p); [reflexivity|]. intros q a Hle. unfold frontd in *. cbn [d_text].
    destruct (insert_aligned cls HL al s p (d_text d) A Hx) as [_ E]. fold brk in E. rewrite E. now apply front_insert.
  - apply keeps_one with (p := first_of p r); [reflexivity|]. intros q a Hle. unfold frontd in *. cbn [d_text].
    destruct (delete_aligned cls HL p r (d_text d) A) as [_ E]. fold brk in E. rewrite E. now apply front_delete.
  - now apply swapped_keeps.
Qed.
Lemma take_keeps al x d : aligned cls (d_text d) -> sedit cls x -> keeps d (take brk al x d).
Proof.
  intros A Hx. pose proof (aligned_whole cls _ A) as Wt. destruct x as [s p|p r [w|]|o n]; cbn [take sedit] in *.
  - apply keeps_one with (p := p); [reflexivity|]. intros q a Hle. unfold frontd in *. cbn [d_text].
    destruct (delete_aligned cls HL p (text_end brk p s) (d_text d) A) as [_ E]. fold brk in E. rewrite E. apply front_delete; [assumption..|].
    rewrite text_end_from. destruct (ple_end' cls HL p s Hx) as [X _]. fold brk in X. now rewrite X.
  - apply keeps_one with (p := first_of p r); [reflexivity|]. intros q a Hle. unfold frontd in *. cbn [d_text].
    destruct (insert_aligned cls HL al w (first_of p r) (d_text d) A Hx) as [_ E]. fold brk in E. rewrite E. now apply front_insert.
  - apply keeps_refl.
  - now apply swapped_keeps.
Qed.
Lemma makes_keep al xs : forall d, aligned cls (d_text d) -> Forall (sedit cls) xs -> keeps d (fold_left (make brk al) xs d).
Proof.
  induction xs as [|x xs IH]; intros d A H; [apply keeps_refl|]. inversion_clear H as [|? ? H1 H2]. cbn [fold_left].
  apply keeps_trans with (d2 := make brk al d x); [now apply make_keeps|]. apply IH; [|assumption]. now apply (make_aligned cls HL).
Qed.
Lemma takes_keep al xs d : aligned cls (d_text d) -> Forall (sedit cls) xs -> keeps d (fold_right (take brk al) d xs).
Proof.
  intros A H. induction H as [|x xs H1 H2 IH]; [apply keeps_refl|]. cbn [fold_right].
  eapply keeps_trans; [exact IH|]. apply take_keeps; [|assumption]. now apply (takes_aligned cls HL).
Qed.

(** Calls. *)
Definition kept (e e' : meditor) : Prop := exists ps,
  me_heard e' = (if me_listening e then me_heard e ++ ps else me_heard e) /\
  forall q a, Forall (ple q) ps -> front (whole (me_text e)) q a <-> front (whole (me_text e')) q a.
Lemma kept_desk e d e' : keeps (on_desk e) d -> me_heard e' = me_heard (put_desk e d) -> me_text e' = d_text d -> kept e e'.
Proof. intros (ps & E & H) Eh Et. exists ps. split; [rewrite Eh; cbn; now rewrite E|]. rewrite Et. exact H. Qed.
Lemma kept_same e e' : me_heard e' = me_heard e -> me_text e' = me_text e -> kept e e'.
Proof. intros Eh Et. exists []. rewrite app_nil_r, Eh, Et. split; [now destruct (me_listening e)|]. reflexivity. Qed.
Lemma edit_kept al e x : sinv cls e -> sedit cls x -> kept e (m_edit brk al e x).
Proof.
  intros I Hx. apply kept_desk with (d := make brk al (on_desk e) x).
  - apply make_keeps; [apply I|assumption].
  - unfold m_edit. now destruct (me_group e).
  - unfold m_edit. now destruct (me_group e).
Qed.
Lemma cut_kept al e p q : sinv cls e -> kept e (m_cut brk al e p q).
Proof.
  intros S. apply edit_kept; [assumption|]. cbn. unfold brk. rewrite (read_aligned cls HL) by apply S.
  destruct (spec_read (uax29 cls) _ p q) as [s|] eqn:E; [|exact I]. eapply (read_simple cls HL); [|exact E]. apply aligned_whole, S.
Qed.
Lemma call_kept al c e : sinv cls e -> simple_input cls c -> kept e (snd (me_call brk al c e)).
Proof.
  intros S Hc. pose proof S as [A P F G]. destruct c; cbn [me_call snd]; try (apply kept_same; reflexivity).
  - now apply edit_kept.
  - now apply cut_kept.
  - now apply cut_kept.
  - unfold m_swap. destruct (list_eq_dec _ _ _); [now apply kept_same|]. apply edit_kept; [assumption|]. split; [now apply aligned_whole|exact Hc].
  - unfold m_undo. destruct (me_group e) as [[|x xs]|] eqn:Eg.
    2:{ eapply kept_desk; [apply (takes_keep al (x :: xs) (on_desk e)); assumption|reflexivity|reflexivity]. }
    all: destruct (me_past e) as [|s past] eqn:Ep; [now apply kept_same|].
    all: inversion_clear P as [|? ? P1 P2]; eapply kept_desk; [apply (takes_keep al s (on_desk e)); assumption|reflexivity|reflexivity].
  - unfold m_redo. destruct (me_future e) as [|s future] eqn:Ef; [now apply kept_same|]. inversion_clear F as [|? ? F1 F2].
    eapply kept_desk; [apply (makes_keep al s (on_desk e)); assumption|reflexivity|reflexivity].
  - destruct (me_group e) as [[|x xs]|]; now apply kept_same.
  - destruct (me_path e); [|now apply kept_same]. destruct (outcome _ _ _); now apply kept_same.
  - contradiction.
Qed.

Lemma front_reads t q a : W t -> front t q a <-> spec_read brk t (Pos 0 0) q = Some a.
Proof.
  intros Wt. destruct (front_origin t Wt) as [b0 E0].
  assert (O : first_of (Pos 0 0) q = Pos 0 0 /\ second_of (Pos 0 0) q = q).
  { apply first_of_le. apply ple_spec. cbn. lia. }
  unfold front, spec_read. destruct O as [-> ->]. rewrite E0. cbn [length skipn]. split.
  - intros [b E]. now rewrite E.
  - destruct (split_at brk t q) as [[a' b]|] eqn:E; [|discriminate]. intros X. injection X as ->. now exists b.
Qed.

(** The cursor, when nothing before it is announced. *)
Definition stays (d d' : desk) : Prop := exists ps, d_said d' = d_said d ++ ps /\
  (Forall (ple (at_pos (d_cursor d))) ps -> at_pos (d_cursor d') = at_pos (d_cursor d)).
Lemma stays_refl d : stays d d.
Proof. exists []. now rewrite app_nil_r. Qed.
Lemma stays_one d d' p : d_said d' = d_said d ++ [p] -> (ple (at_pos (d_cursor d)) p -> at_pos (d_cursor d') = at_pos (d_cursor d)) -> stays d d'.
Proof. intros E H. exists [p]. split; [exact E|]. intros X. inversion_clear X. auto. Qed.
Lemma stays_trans d1 d2 d3 : stays d1 d2 -> stays d2 d3 -> stays d1 d3.
Proof.
  intros (ps & E & H) (ps' & E' & H'). exists (ps ++ ps'). split; [now rewrite E', E, app_assoc|]. intros X.
  apply Forall_app in X as [X1 X2]. specialize (H X1). rewrite <- H in X2. now rewrite (H' X2).
Qed.
Lemma swapped_stays al s d : stays d (swapped brk al s d).
Proof.
  apply stays_one with (p := Pos 0 0); [reflexivity|]. intros H. apply ple_origin in H. cbn [swapped d_cursor go at_pos].
  rewrite H. unfold kept_cursor. cbn [line offset]. now destruct (has brk _ (Pos 0 0)).
Qed.
Lemma make_stays al d x : stays d (make brk al d x).
Proof. destruct x as [s p|p r w|o n]; cbn [make]; [eapply stays_one; [reflexivity|reflexivity]..|apply swapped_stays]. Qed.
Lemma take_stays al x d : stays d (take brk al x d).
Proof.
  destruct x as [s p|p r [w|]|o n]; cbn [take]; [eapply stays_one; [reflexivity|reflexivity]..|apply stays_refl|apply swapped_stays].
Qed.
Lemma makes_stay al xs : forall d, stays d (fold_left (make brk al) xs d).
Proof. induction xs as [|x xs IH]; intros d; [apply stays_refl|]. cbn [fold_left]. eapply stays_trans; [apply make_stays|apply IH]. Qed.
Lemma takes_stay al xs d : stays d (fold_right (take brk al) d xs).
Proof. induction xs as [|x xs IH]; [apply stays_refl|]. cbn [fold_right]. eapply stays_trans; [apply IH|apply take_stays]. Qed.
Definition stayed (e e' : meditor) : Prop := exists ps,
  me_heard e' = (if me_listening e then me_heard e ++ ps else me_heard e) /\
  (Forall (ple (at_pos (me_cursor e))) ps -> at_pos (me_cursor e') = at_pos (me_cursor e)).
Lemma stayed_desk e d e' : stays (on_desk e) d -> me_heard e' = me_heard (put_desk e d) -> me_cursor e' = d_cursor d -> stayed e e'.
Proof. intros (ps & E & H) Eh Et. exists ps. split; [rewrite Eh; cbn; now rewrite E|]. rewrite Et. exact H. Qed.
Lemma stayed_same e e' : me_heard e' = me_heard e -> me_cursor e' = me_cursor e -> stayed e e'.
Proof. intros Eh Et. exists []. rewrite app_nil_r, Eh, Et. split; [now destruct (me_listening e)|]. now intros. Qed.
Lemma edit_stayed al e x : stayed e (m_edit brk al e x).
Proof.
  apply stayed_desk with (d := make brk al (on_desk e) x); [apply make_stays|unfold m_edit; now destruct (me_group e)..].
Qed.
Lemma call_stayed al c e : simple_input cls c -> match c with BMove _ | BCursor _ => False | _ => True end ->
  stayed e (snd (me_call brk al c e)).
Proof.
  intros Hc Hm. destruct c; cbn [me_call snd]; try contradiction; try (apply stayed_same; reflexivity); try apply edit_stayed.
  - unfold m_swap. destruct (list_eq_dec _ _ _); [now apply stayed_same|]. apply edit_stayed.
  - unfold m_undo. destruct (me_group e) as [[|x xs]|] eqn:Eg.
    2:{ eapply stayed_desk; [apply (takes_stay al (x :: xs) (on_desk e))|reflexivity|reflexivity]. }
    all: destruct (me_past e) as [|s past] eqn:Ep; [now apply stayed_same|].
    all: eapply stayed_desk; [apply (takes_stay al s (on_desk e))|reflexivity|reflexivity].
  - unfold m_redo. destruct (me_future e) as [|s future] eqn:Ef; [now apply stayed_same|].
    eapply stayed_desk; [apply (makes_stay al s (on_desk e))|reflexivity|reflexivity].
  - destruct (me_group e) as [[|x xs]|]; now apply stayed_same.
  - destruct (me_path e); [|now apply stayed_same]. destruct (outcome _ _ _); now apply stayed_same.
Qed.
Lemma move_has m v c : has brk m (at_pos c) = true -> has brk m (at_pos (m_move brk m v c)) = true.
Proof.
  intros H.
  assert (G : forall p, has brk m (at_pos (if has brk m p then go p else c)) = true).
  { intros p. destruct (has brk m p) eqn:E; [exact E|exact H]. }
  assert (K : forall k, has brk m (at_pos (if has brk m (Pos k (wish c)) then SC (Pos k (wish c)) (wish c)
    else if has brk m (Pos k (width_or_zero brk (whole m) k)) then SC (Pos k (width_or_zero brk (whole m) k)) (wish c) else c)) = true).
  { intros k. destruct (has brk m (Pos k (wish c))) eqn:E; [exact E|].
    destruct (has brk m (Pos k (width_or_zero brk (whole m) k))) eqn:E'; [exact E'|exact H]. }
  destruct v; cbn [m_move]; try apply G; try apply K.
  - destruct (_ =? _); [exact H|apply K].
  - destruct (_ =? _); [exact H|apply G].
  - destruct (seen_width _ _ _); [apply G|exact H].
Qed.

(** Runs of calls. *)
Lemma listening_call al c e : quiet c -> me_listening (snd (me_call brk al c e)) = me_listening e.
Proof.
  intros H. assert (X : forall x, me_listening (m_edit brk al e x) = me_listening e).
  { intros x. unfold m_edit. now destruct (me_group e). }
  assert (Y : forall s, me_listening (m_swap brk al e s) = me_listening e).
  { intros s. unfold m_swap. destruct (list_eq_dec _ _ _); [reflexivity|apply X]. }
  destruct c; cbn [me_call snd]; try contradiction; try reflexivity; try apply X; try apply Y.
  - unfold m_undo. destruct (me_group e) as [[|x xs]|]; [destruct (me_past e)..|destruct (me_past e)]; reflexivity.
  - unfold m_redo. now destruct (me_future e).
  - now destruct (me_group e) as [[|x xs]|].
  - destruct (me_path e); [|reflexivity]. now destruct (outcome _ _ _).
  - destruct (me_path e); [|reflexivity]. destruct (me_file e); [|reflexivity]. cbn [snd m_saved put_steps me_listening]. apply Y.
Qed.
Lemma me_calls_cons al c cs e : me_calls brk ((al, c) :: cs) e =
  (fst (me_call brk al c e) :: fst (me_calls brk cs (snd (me_call brk al c e))), snd (me_calls brk cs (snd (me_call brk al c e)))).
Proof. cbn [me_calls]. destruct (me_call brk al c e) as [o e1]. cbn [fst snd]. now destruct (me_calls brk cs e1). Qed.
Lemma calls_kept cs : forall e, sinv cls e -> Forall (fun ac : allocator * bcall => alloc_ok (fst ac) /\ simple_input cls (snd ac) /\ quiet (snd ac)) cs ->
  kept e (snd (me_calls brk cs e)) /\ sinv cls (snd (me_calls brk cs e)).
Proof.
  induction cs as [|[al c] cs IH]; intros e I H; [split; [now apply kept_same|exact I]|].
  inversion_clear H as [|? ? [H0 [H1 H2]] H3]. cbn [fst snd] in *.
  rewrite me_calls_cons. cbn [snd]. pose proof (call_sinv cls HL al c e I H1) as I1. fold brk in I1.
  destruct (IH _ I1 H3) as [(ps' & E' & K') I2]. split; [|exact I2].
  destruct (call_kept al c e I H1) as (ps & E & K). exists (ps ++ ps'). rewrite E', (listening_call al c e H2), E. split.
  - destruct (me_listening e); [now rewrite app_assoc|reflexivity].
  - intros q a X. apply Forall_app in X as [X1 X2]. now rewrite (K q a X1), (K' q a X2).
Qed.
Lemma front_has m q a : aligned cls m -> front (whole m) q a -> has brk m q = true.
Proof. intros A [b E]. unfold brk. rewrite (has_aligned cls HL) by exact A. unfold exists_at. unfold brk in E. now rewrite E. Qed.
Lemma has_front m q : aligned cls m -> has brk m q = true -> exists a, front (whole m) q a.
Proof.
  intros A. unfold brk. rewrite (has_aligned cls HL) by exact A. unfold exists_at, front, brk.
  destruct (split_at _ _ q) as [[a b]|]; [|discriminate]. intros _. now exists a, b.
Qed.
Lemma ps_unique (l ps ps' : list position) : l ++ ps = l ++ ps' -> ps = ps'.
Proof. apply app_inv_head. Qed.

Lemma front_split t u q : (forall a, front t q a <-> front u q a) ->
  match split_at brk t q with Some (a, _) => exists b, split_at brk u q = Some (a, b) | None => split_at brk u q = None end.
Proof.
  intros H. destruct (split_at brk t q) as [[a b]|] eqn:E.
  - apply H. now exists b.
  - destruct (split_at brk u q) as [[a b]|] eqn:E'; [|reflexivity]. exfalso.
    destruct (proj2 (H a)) as [x X]; [now exists b|]. congruence.
Qed.
Lemma front_read t u p q : (forall a, front t (first_of p q) a <-> front u (first_of p q) a) ->
  (forall a, front t (second_of p q) a <-> front u (second_of p q) a) -> spec_read brk u p q = spec_read brk t p q.
Proof.
  intros H1 H2. apply front_split in H1. apply front_split in H2. unfold spec_read.
  destruct (split_at brk t (first_of p q)) as [[a1 b1]|]; [destruct H1 as [x ->]|now rewrite H1].
  destruct (split_at brk t (second_of p q)) as [[a2 b2]|]; [now destruct H2 as [y ->]|now rewrite H2].
Qed.
Lemma front_exists t u q : (forall a, front t q a <-> front u q a) -> exists_at brk u q = exists_at brk t q.
Proof.
  intros H. apply front_split in H. unfold exists_at. destruct (split_at brk t q) as [[a b]|]; [now destruct H as [x ->]|now rewrite H].
Qed.
Lemma first_second_or p q : (first_of p q = p \/ first_of p q = q) /\ (second_of p q = p \/ second_of p q = q).
Proof. unfold first_of, second_of. repeat match goal with |- context [if ?x then _ else _] => destruct x end; auto. Qed.

Theorem nothing_before : forall b f cs os b' f',
  simple_history cls b f -> b_callback b = true ->
  Forall (fun ac => alloc_ok (fst ac) /\ simple_input cls (snd ac) /\ quiet (snd ac)) cs ->
  brun brk cs b f = Ok (os, b', f') ->
  exists ps, b_log b' = b_log b ++ ps /\
    (forall q, Forall (lex_le q) ps -> in_bounds brk (b_data b') q = in_bounds brk (b_data b) q) /\
    (forall p q, Forall (lex_le p) ps -> Forall (lex_le q) ps ->
       buf_read brk b' (range_new p q) = buf_read brk b (range_new p q)).
Proof.
  intros b f cs os b' f' H Hb Hcs E. destruct (history_sim cls HL b f H) as (e & S & I & <-).
  assert (Hok : Forall (fun ac : allocator * bcall => alloc_ok (fst ac) /\ call_ok (snd ac)) cs).
  { eapply Forall_impl; [|exact Hcs]. intros ac (H1 & H2 & _). split; [exact H1|]. now apply (simple_call_ok cls HL). }
  destruct (calls_sim brk cs (uax29_order_safe cls HL) b e S Hok) as (b1 & E1 & S1).
  rewrite E in E1. injection E1 as _ <- ->.
  destruct (calls_kept cs e I Hcs) as [(ps & Eh & K) I1]. exists ps.
  pose proof (sim_shows brk b e S) as Sh. pose proof (sim_shows brk b' _ S1) as Sh1.
  split; [|split].
  - rewrite (shows_heard _ _ _ Sh1), Eh, <- (shows_callback _ _ _ Sh), Hb. now rewrite (shows_heard _ _ _ Sh).
  - intros q Hq. rewrite (shows_in_bounds _ _ _ Sh), (shows_in_bounds _ _ _ Sh1). f_equal. unfold brk.
    rewrite !(has_aligned cls HL) by first [apply I|apply I1]. apply front_exists. intros a. now apply K.
  - intros p q Hp Hq. rewrite (shows_read _ _ _ Sh), (shows_read _ _ _ Sh1). f_equal. unfold brk.
    rewrite !(read_aligned cls HL) by first [apply I|apply I1].
    destruct (first_second_or p q) as [X Y].
    apply front_read; intros a; apply K; [destruct X as [-> | ->]|destruct Y as [-> | ->]]; assumption.
Qed.

Theorem cursor_ahead : forall b f al c o b' f',
  simple_history cls b f -> b_callback b = true -> alloc_ok al -> simple_input cls c ->
  not_assigned c ->
  bexec brk al c b f = Ok (o, b', f') ->
  in_bounds brk (b_data b) (c_pos (b_cursor b)) = Ok true ->
  exists ps, b_log b' = b_log b ++ ps /\
    (Forall (lex_le (c_pos (b_cursor b))) ps -> in_bounds brk (b_data b') (c_pos (b_cursor b')) = Ok true).
Proof.
  intros b f al c o b' f' H Hb Ha Hc Hm E Hin. unfold not_assigned in Hm. destruct (history_sim cls HL b f H) as (e & S & I & <-).
  destruct (call_sim brk al (uax29_order_safe cls HL) Ha c b e S (simple_call_ok cls HL c Hc)) as (b1 & E1 & S1).
  rewrite E in E1. injection E1 as _ <- ->.
  pose proof (call_sinv cls HL al c e I Hc) as I1. fold brk in I1.
  destruct (call_kept al c e I Hc) as (ps & Eh & K). exists ps.
  pose proof (sim_shows brk b e S) as Sh. pose proof (sim_shows brk b' _ S1) as Sh1.
  assert (Ec : c_pos (b_cursor b) = at_pos (me_cursor e)) by (rewrite <- (shows_cursor _ _ _ Sh); reflexivity).
  assert (Ec1 : c_pos (b_cursor b') = at_pos (me_cursor (snd (me_call brk al c e)))) by (rewrite <- (shows_cursor _ _ _ Sh1); reflexivity).
  assert (L : me_listening e = true) by (now rewrite <- (shows_callback _ _ _ Sh)).
  rewrite (shows_in_bounds _ _ _ Sh), Ec in Hin. injection Hin as Hin. rewrite L in Eh.
  split; [now rewrite (shows_heard _ _ _ Sh1), Eh, (shows_heard _ _ _ Sh)|].
  intros Hq. rewrite (shows_in_bounds _ _ _ Sh1), Ec1. f_equal. rewrite Ec in Hq.
  destruct (match c with BMove _ => true | _ => false end) eqn:Em.
  - destruct c; try discriminate. cbn [me_call snd put_cursor me_text me_cursor]. now apply move_has.
  - assert (Hm' : match c with BMove _ | BCursor _ => False | _ => True end) by (destruct c; easy).
    destruct (call_stayed al c e Hc Hm') as (ps' & Eh' & K'). rewrite L in Eh'. rewrite Eh in Eh'. apply ps_unique in Eh' as <-.
    rewrite (K' Hq). destruct (has_front _ _ (si_text _ _ I) Hin) as [a F]. eapply front_has; [apply I1|]. now apply K with (a := a).
Qed.
End Simple.
