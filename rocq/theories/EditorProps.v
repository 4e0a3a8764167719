(** Lemmas behind the editor properties. *)
From Verif Require Import Base Utf8 Utf8Proofs Grapheme GraphemeProofs UnicodeTable Position GapBuffer
  GapBufferProofs Cursor PathModel Buffer Spec ClusterSpec CursorSpec CursorCalls Calls TextProofs HalvesProofs TextFacts GapProps
  CursorProofs UaxProofs OpProofs BufferCalls Timeline TimelineProofs AnyTextProofs BufferProps BufferSimple Witness Editor EditorProofs.

(** ** Simple texts *)

Lemma simple_call cls c e : cls LF = GC_LF -> tl_all (words (simple_cluster cls)) (ed_time e) ->
  brings (words (simple_cluster cls)) c (ed_file e) ->
  tl_all (words (simple_cluster cls)) (ed_time (snd (ed_call (uax29 cls) c e))).
Proof.
  intros HL H Hb.
  assert (X : forall o, tl_all (words (simple_cluster cls))
     (tl_step (uax29 cls) c (at_pos (ed_cursor e)) (ed_file e) o (ed_time e)))
    by (intros o; now apply simple_step).
  destruct c; cbn [ed_call snd tl_step edited brings] in *; try exact (X BUnit); try exact H.
  - unfold ed_replace. specialize (X BUnit). unfold tl_replace in X. unfold ed_text.
    destruct (list_eq_dec _ _ _); exact X.
  - unfold ed_undo_step. specialize (X BUnit). destruct (group (ed_time e)) as [[s|]|], (ed_undo e); exact X.
  - unfold ed_redo_step. specialize (X BUnit). destruct (ed_redo e); [exact H|exact X].
  - unfold ed_end_group. specialize (X BUnit). destruct (group (ed_time e)) as [[s|]|]; exact X.
  - destruct (ed_path e); [|exact H]. destruct (outcome _ _ w); try exact H. exact (X (BResult (ROk tt))).
  - destruct (ed_path e); [|exact H]. destruct (ed_file e) as [s|]; [|exact H].
    specialize (X (BResult (ROk tt))). unfold tl_replace in X. cbn [snd]. unfold ed_replace, ed_text.
    destruct (list_eq_dec _ _ _); exact X.
Qed.

Lemma simple_legals cls cs : cls LF = GC_LF -> forall e,
  tl_all (words (simple_cluster cls)) (ed_time e) ->
  ed_simples (words (simple_cluster cls)) (uax29 cls) cs e -> ed_legals (uax29 cls) cs e.
Proof.
  intros HL. induction cs as [|c cs IH]; intros e Hw H; cbn [ed_simples ed_legals] in *; [exact I|].
  destruct H as (Hb & Ha & H). split; [now apply simple_legal|]. apply IH; [|assumption]. now apply simple_call.
Qed.

Lemma simple_editor cls cs b e : cls CR = GC_CR -> cls LF = GC_LF ->
  ed_start (uax29 cls) b e -> words (simple_cluster cls) (ed_text e) ->
  Forall (fun ac => alloc_ok (fst ac)) cs ->
  ed_simples (words (simple_cluster cls)) (uax29 cls) (map snd cs) e ->
  exists b' f', brun (uax29 cls) cs b (ed_disk e) = Ok (fst (ed_run (uax29 cls) (map snd cs) e), b', f')
    /\ looks (uax29 cls) b' (snd (ed_run (uax29 cls) (map snd cs) e))
    /\ f' = ed_disk (snd (ed_run (uax29 cls) (map snd cs) e)).
Proof.
  intros HC HL Hs Hw Ha Hl. apply buffer_is_editor; try assumption. apply simple_legals; try assumption.
  unfold ed_text in Hw. destruct Hs as [(al & _ & E)|(al & p & cp & t & _ & _ & _ & _ & E)].
  - assert (Et : ed_time e = start_new) by (rewrite E; reflexivity). rewrite Et in *.
    repeat split; try constructor. exact Hw.
  - assert (Et : ed_time e = start_file t) by (rewrite E; reflexivity). rewrite Et in *.
    repeat split; try constructor. exact Hw.
Qed.

(** ** A checker *)

Fixpoint ed_simplesb (cs : list bcall) (e : editor) : bool :=
  match cs with
  | [] => true
  | c :: cs' => bringsb c (ed_file e) && allowedb uax29_15 c (ed_time e) &&
                ed_simplesb cs' (snd (ed_call uax29_15 c e))
  end.
Lemma ed_simplesb_ok cs : forall e, ed_simplesb cs e = true ->
  ed_simples (words (simple_cluster gcb15)) uax29_15 cs e.
Proof.
  induction cs as [|c cs IH]; intros e H; cbn [ed_simplesb ed_simples] in *; [exact I|].
  apply andb_true_iff in H as [H H3]. apply andb_true_iff in H as [H1 H2].
  split; [|split; [now apply allowedb_ok|now apply IH]].
  destruct c; cbn [brings bringsb] in *; try exact I; try (now apply ascii_words, ascii_no_crb_ok).
  destruct (ed_file e); [|exact I]. now apply ascii_words, ascii_no_crb_ok.
Qed.

(** ** Any text *)

Lemma step_fields b op : b_cursor (store b op) = b_cursor b /\ b_log (store b op) = b_log b.
Proof. unfold store. now destruct (b_group b). Qed.

Lemma cursor_untouched brk al c b f o b' f' : cursor_stays c = true ->
  bexec brk al c b f = Ok (o, b', f') -> b_cursor b' = b_cursor b.
Proof.
  assert (D : forall r b', buf_delete_range brk al b r = Ok b' -> b_cursor b' = b_cursor b).
  { intros r b1. unfold buf_delete_range. cbn [op_run].
    destruct (gb_read _ _ _); [|discriminate]. cbn [bind]. destruct (gb_delete _ _ _); [|discriminate]. cbn [bind].
    intros [= <-]. now rewrite (proj1 (step_fields _ _)). }
  destruct c; cbn [cursor_stays bexec]; try discriminate; intros _; try (intros [= <- <- <-]; reflexivity).
  - unfold buf_insert. cbn [op_run]. destruct (gb_insert _ _ _ _ _); [|discriminate]. cbn [bind].
    intros [= <- <- <-]. now rewrite (proj1 (step_fields _ _)).
  - unfold buf_delete. destruct (in_bounds _ _ _); [|discriminate]. cbn [bind].
    destruct (buf_delete_range _ _ _ _) as [b1|] eqn:E; [|discriminate]. intros [= <- <- <-]. eapply D; exact E.
  - destruct (buf_delete_range _ _ _ _) as [b1|] eqn:E; [|discriminate]. intros [= <- <- <-]. eapply D; exact E.
  - intros [= <- <- <-]. unfold start_group. now destruct (b_group b).
  - intros [= <- <- <-]. unfold end_group. destruct (b_group b) as [[|]|]; reflexivity.
  - unfold buf_save. destruct (b_path b) as [p|]; [|intros [= <- <- <-]; reflexivity].
    destruct (outcome f p w); cbn [bind].
    + intros [= <- <- <-]; reflexivity.
    + destruct (buf_data b); [|discriminate]. intros [= <- <- <-]; reflexivity.
    + destruct (buf_data b); [|discriminate]. intros [= <- <- <-]; reflexivity.
Qed.

Lemma replace_log brk al b s t b' : buf_data b = Ok t -> buf_replace brk al b s = Ok b' ->
  b_log b' = adds b (if list_eq_dec N.eq_dec s t then [] else [origin]).
Proof.
  intros Et. unfold buf_replace. rewrite Et. cbn [bind]. rewrite list_N_eqb_dec.
  destruct (list_eq_dec N.eq_dec s t).
  - intros [= <-]. now rewrite adds_nil.
  - cbn [op_run]. destruct (replace_content brk al s b) as [b1|] eqn:E; [|discriminate]. cbn [bind].
    intros [= <-]. rewrite (proj2 (step_fields _ _)). revert E. unfold replace_content.
    destruct (gb_new al s); [|discriminate]. cbn [bind]. destruct (move_to _ _ _ _) as [[k c1]|]; [|discriminate].
    cbn [bind]. destruct k; cbn [bind].
    + intros [= <-]. reflexivity.
    + destruct (move_to _ _ _ _) as [[k2 c2]|]; [|discriminate]. cbn [bind]. intros [= <-]. reflexivity.
Qed.

Lemma announced_exactly brk al c b f o b' f' t ps : buf_data b = Ok t ->
  announced c (c_pos (b_cursor b)) t (file_of b f) = Some ps ->
  bexec brk al c b f = Ok (o, b', f') ->
  b_log b' = if b_callback b then b_log b ++ ps else b_log b.
Proof.
  intros Et.
  assert (D : forall r b', buf_delete_range brk al b r = Ok b' -> b_log b' = adds b [r_start r]).
  { intros r b1. unfold buf_delete_range. cbn [op_run].
    destruct (gb_read _ _ _); [|discriminate]. cbn [bind]. destruct (gb_delete _ _ _); [|discriminate]. cbn [bind].
    intros [= <-]. now rewrite (proj2 (step_fields _ _)). }
  assert (N : b_log b = adds b []) by (symmetry; apply adds_nil).
  fold (adds b ps).
  destruct c; cbn [announced bexec]; try discriminate; intros [= <-]; try (intros [= <- <- <-]; exact N).
  - unfold buf_insert. cbn [op_run]. destruct (gb_insert _ _ _ _ _); [|discriminate]. cbn [bind].
    intros [= <- <- <-]. now rewrite (proj2 (step_fields _ _)).
  - unfold buf_delete. destruct (in_bounds _ _ _) as [ok|]; [|discriminate]. cbn [bind].
    destruct (buf_delete_range _ _ _ _) as [b1|] eqn:E; [|discriminate]. intros [= <- <- <-].
    rewrite (D _ _ E), range_new_ordered. cbn [r_start]. do 2 f_equal. apply first_of_le.
    destruct ok; apply ple_spec; cbn [line offset]; lia.
  - destruct (buf_delete_range _ _ _ _) as [b1|] eqn:E; [|discriminate]. intros [= <- <- <-].
    now rewrite (D _ _ E), range_new_ordered.
  - destruct (buf_replace _ _ _ _) as [b1|] eqn:E; [|discriminate]. intros [= <- <- <-].
    exact (replace_log _ _ _ _ _ _ Et E).
  - intros [= <- <- <-]. unfold start_group. destruct (b_group b); exact N.
  - intros [= <- <- <-]. unfold end_group. destruct (b_group b) as [[|]|]; exact N.
  - destruct (cexec _ _ _ _); [|discriminate]. intros [= <- <- <-]. exact N.
  - unfold buf_save. destruct (b_path b) as [p|]; [|intros [= <- <- <-]; exact N].
    destruct (outcome f p w); cbn [bind].
    + intros [= <- <- <-]; exact N.
    + rewrite Et. intros [= <- <- <-]; exact N.
    + rewrite Et. intros [= <- <- <-]; exact N.
  - unfold buf_reload, file_of. destruct (b_path b) as [p|]; [|intros [= <- <- <-]; exact N].
    destruct (read_to_string f p) as [s|]; [|intros [= <- <- <-]; exact N].
    destruct (buf_replace _ _ _ _) as [b1|] eqn:E; [|discriminate]. intros [= <- <- <-].
    exact (replace_log _ _ _ _ _ _ Et E).
Qed.
