From Verif Require Import Base Utf8 Utf8Proofs Grapheme GraphemeProofs UnicodeTable Position GapBuffer
  GapBufferProofs Cursor PathModel Buffer Spec ClusterSpec CursorSpec CursorCalls Calls TextProofs
  HalvesProofs TextFacts GapProps CursorProofs UaxProofs OpProofs BufferCalls AnyTextProofs MarkSpec MarkProofs Editor MarkEditor MarkEditorProofs EveryTextProofs CountSpec.

Section C.
Variable brk : brk_rule.
Hypothesis HO : order_safe brk.

Record numbers (k : counts) (e : meditor) : Prop := Numbers {
  n_past : k_past k = length (me_past e);
  n_future : k_future k = length (me_future e);
  n_saved : k_saved k = me_saved e;
  n_open : k_open k = option_map (@length _) (me_group e) }.

Lemma n_edit al e x k : numbers k e -> numbers (k_edit k) (m_edit brk al e x).
Proof.
  intros [P F S O]. unfold k_edit, m_edit. rewrite O. destruct (me_group e) as [xs|] eqn:Eg; cbn [option_map].
  - split; cbn; try assumption. now rewrite app_length.
  - split; cbn; [rewrite P; lia|reflexivity|rewrite S, P; reflexivity|reflexivity].
Qed.
Lemma swap_text al e s : whole (me_text (m_swap brk al e s)) = s.
Proof.
  unfold m_swap. destruct (list_eq_dec N.eq_dec s (whole (me_text e))) as [E|E]; [now symmetry|].
  unfold m_edit. destruct (me_group e); cbn; now rewrite app_nil_r.
Qed.
Lemma n_swap al e s k ch : numbers k e -> ch = (if list_eq_dec N.eq_dec (whole (me_text e)) s then false else true) ->
  numbers (if ch then k_edit k else k) (m_swap brk al e s).
Proof.
  intros N ->. unfold m_swap. destruct (list_eq_dec N.eq_dec (whole (me_text e)) s) as [E|E];
    destruct (list_eq_dec N.eq_dec s (whole (me_text e))) as [E'|E']; try congruence; first [exact N|now apply n_edit].
Qed.
Lemma n_call al c e k ch : numbers k e ->
  ch = (if list_eq_dec N.eq_dec (whole (me_text e)) (whole (me_text (snd (me_call brk al c e)))) then false else true) ->
  numbers (k_call c (fst (me_call brk al c e)) ch k) (snd (me_call brk al c e)).
Proof.
  intros N Hch. pose proof N as [P F S O]. destruct c; cbn [me_call fst snd k_call] in *; try exact N; try (now apply n_edit); try (split; assumption).
  - apply n_swap; [exact N|]. now rewrite swap_text in Hch.
  - unfold m_undo. rewrite O, P. destruct (me_group e) as [[|x xs]|]; cbn [option_map length];
      try (destruct (me_past e) as [|s past]); cbn [length]; split; cbn; try assumption; try reflexivity; rewrite ?P, ?F; cbn; lia.
  - unfold m_redo. rewrite F. destruct (me_future e) as [|s future]; cbn [length]; [exact N|].
    split; cbn; try assumption; try reflexivity. rewrite P. lia.
  - split; cbn; try assumption. rewrite O. now destruct (me_group e).
  - rewrite O. destruct (me_group e) as [[|x xs]|]; cbn [option_map length]; split; cbn; try assumption; try reflexivity;
      [lia|rewrite S, P; reflexivity].
  - destruct (me_path e); [|exact N]. destruct (outcome _ _ _); cbn [fst snd]; try exact N.
    + split; cbn; assumption.
    + split; cbn; try assumption. now rewrite P.
  - destruct (me_path e); [|exact N]. destruct (me_file e) as [s|]; [|exact N]. cbn [fst snd] in *.
    destruct (n_swap al e s k ch N) as [P' F' S' O'].
    { rewrite Hch. cbn [m_saved put_steps me_text]. now rewrite swap_text. }
    split; cbn; try assumption. now rewrite P'.
Qed.
Lemma n_modified k e : numbers k e -> k_modified k = me_modified e.
Proof. intros [P F S O]. unfold k_modified, me_modified. now rewrite S, P. Qed.

Lemma counted_numbers cs : forall b e k, sim b e -> numbers k e ->
  Forall (fun ac : allocator * bcall => alloc_ok (fst ac) /\ call_ok (snd ac)) cs ->
  numbers (counted brk cs b (me_disk e) k) (snd (me_calls brk cs e)).
Proof.
  induction cs as [|[al c] cs IH]; intros b e k S N H; [exact N|]. inversion_clear H as [|? ? [H1 H2] H3]. cbn [fst snd] in *.
  destruct (call_sim brk al HO H1 c b e S H2) as (b' & E & S'). cbn [counted]. rewrite E.
  cbn [me_calls]. pose proof (n_call al c e k (text_changed b b') N) as X.
  destruct (me_call brk al c e) as [o e1]. cbn [fst snd] in *.
  specialize (IH b' e1 (k_call c o (text_changed b b') k) S'). destruct (me_calls brk cs e1) as [os e2]. cbn [snd] in *.
  apply IH; [|assumption]. apply X. unfold text_changed.
  rewrite (shows_text _ _ _ (sim_shows brk b e S)), (shows_text _ _ _ (sim_shows brk b' e1 S')). reflexivity.
Qed.
End C.

Theorem modified_counts : forall cls f0 b0 cs os b f, cls LF = GC_LF -> fresh_buffer f0 b0 ->
  Forall (fun ac => alloc_ok (fst ac) /\ call_ok (snd ac)) cs ->
  brun (uax29 cls) cs b0 f0 = Ok (os, b, f) ->
  buf_modified b = k_modified (counted (uax29 cls) cs b0 f0 (k_start b0)).
Proof.
  intros cls f0 b0 cs os b f HL Hf Hcs E.
  destruct (fresh_start f0 b0 Hf) as (e & St & <-). pose proof (start_sim _ _ St) as S.
  assert (N : numbers (k_start b0) e).
  { destruct St as [(al & f' & Eb & ->)|(al & f' & p & cp & t & Eb & Er & Ec & ->)];
      pose proof (shows_path _ _ _ (sim_shows (uax29 cls) _ _ S)) as Ep; unfold k_start; rewrite Ep; split; reflexivity. }
  destruct (calls_sim (uax29 cls) cs (uax29_order_safe cls HL) b0 e S Hcs) as (b1 & E1 & S1).
  rewrite E in E1. injection E1 as _ <- ->.
  rewrite (shows_modified _ _ _ (sim_shows (uax29 cls) _ _ S1)). symmetry. apply n_modified.
  now apply counted_numbers; [apply uax29_order_safe|..].
Qed.
