(** On calls whose numbers are far from the largest machine integer no sum
    overflows. *)
From Verif Require Import Base Utf8 Utf8Proofs Grapheme GraphemeProofs Position GapBuffer
  GapBufferProofs Cursor PathModel Buffer Spec CursorSpec CursorCalls Calls TextProofs HalvesProofs TextFacts GapProps
  CursorProofs OpProofs BufferCalls AnyTextProofs BufferIoProps Machine MachineSpec.

Lemma of_res_bind {A B} (m : res A) (f : A -> res B) :
  of_res (bind m f) = mbind (of_res m) (fun a => of_res (f a)).
Proof. now destruct m. Qed.
Lemma mbind_ext {A B} (m : mres A) (f g : A -> mres B) : (forall a, m = MOk a -> f a = g a) -> mbind m f = mbind m g.
Proof. destruct m; cbn; auto. Qed.
Lemma mbind_of_res {A B} (m : res A) (f g : A -> mres B) : (forall a, m = Ok a -> f a = g a) -> mbind (of_res m) f = mbind (of_res m) g.
Proof. destruct m; cbn; auto. Qed.
Lemma uadd_ok K a b : a + b <= 2 * K + 1 -> uadd K a b = MOk (a + b).
Proof. intros H. unfold uadd. now rewrite (proj2 (Nat.leb_le _ _) H). Qed.

Lemma mfor_each_ok {A S} (xs : list A) (body : A -> S -> mres S) (body' : A -> S -> res S) (I : S -> Prop) :
  (forall x s, In x xs -> I s -> body x s = of_res (body' x s)) ->
  (forall x s s', I s -> body' x s = Ok s' -> I s') ->
  forall s, I s -> mfor_each xs s body = of_res (for_each xs s body').
Proof.
  intros H HI. induction xs as [|x xs IH]; intros s Hs; [reflexivity|]. cbn [mfor_each for_each].
  rewrite of_res_bind, (H x s (or_introl eq_refl) Hs). apply mbind_of_res. intros a E.
  apply IH; [|now apply (HI x s)]. intros y s' Hy. apply H. now right.
Qed.

(** ** The gap buffer *)

Definition fits (K : nat) (g : gapbuf) : Prop := wf g /\ vlen (gb_data g) <= K.

Lemma fits_gap K g : fits K g -> gap_start g + gap_length g <= K.
Proof.
  intros [(a & c & R) H]. rewrite (rep_vlen _ _ _ R) in H. destruct R as (_ & _ & G & _ & -> & _). lia.
Qed.

Lemma clusters_le brk s : length (graphemes brk s) <= blen s.
Proof.
  rewrite <- (graphemes_concat brk s) at 2. pose proof (graphemes_nonempty brk s) as H.
  induction H as [|g gs Hg _ IH]; cbn [length concat]; [lia|]. rewrite blen_app.
  destruct g as [|c g]; [contradiction|]. change (c :: g) with ([c] ++ g). rewrite blen_app.
  assert (1 <= blen [c]).
  { unfold blen. cbn. rewrite app_nil_r. unfold enc1.
    repeat match goal with |- context [if ?b then _ else _] => destruct b end; cbn; lia. }
  lia.
Qed.

Lemma u_scan_ok K gs : forall off ln lo p, ln + length gs <= 2 * K + 1 -> lo + length gs <= 2 * K + 1 ->
  u_scan K gs off ln lo p = MOk (scan gs off ln lo p).
Proof.
  induction gs as [|g gs IH]; intros off ln lo p H1 H2; [reflexivity|]. cbn [u_scan scan length] in *.
  destruct (_ && _); [reflexivity|]. destruct (is_lf g).
  - rewrite uadd_ok by lia. cbn [mbind]. apply IH; lia.
  - rewrite uadd_ok by lia. cbn [mbind]. apply IH; lia.
Qed.
Lemma scan_counts gs : forall off ln lo p, match scan gs off ln lo p with
  | NotFound ln' lo' => ln' <= ln + length gs /\ lo' <= lo + length gs
  | Found o => o <= off + blen (concat gs) end.
Proof.
  induction gs as [|g gs IH]; intros off ln lo p; cbn [scan length concat]; [lia|].
  rewrite blen_app. destruct (_ && _); [lia|]. destruct (is_lf g).
  - specialize (IH (off + blen g) (ln + 1) 0 p). destruct (scan _ _ _ _ _); lia.
  - specialize (IH (off + blen g) ln (lo + 1) p). destruct (scan _ _ _ _ _); lia.
Qed.

Lemma u_second_half_ok K g : gap_start g + gap_length g <= K -> u_second_half K g = of_res (second_half g).
Proof.
  intros H. unfold u_second_half, second_half. rewrite uadd_ok by lia. cbn [mbind]. now rewrite of_res_bind.
Qed.

Lemma u_find_offset_ok K brk g p : fits K g -> u_find_offset K brk g p = of_res (find_offset brk g p).
Proof.
  intros F. pose proof (fits_gap _ _ F) as Hg. destruct F as [(a & c & R) Hv].
  rewrite (rep_vlen _ _ _ R) in Hv. pose proof (clusters_le brk a) as Ca. pose proof (clusters_le brk c) as Cc.
  unfold u_find_offset, find_offset. rewrite (first_half_ok _ _ _ R). cbn [of_res mbind bind].
  rewrite u_scan_ok by lia. cbn [mbind]. pose proof (scan_counts (graphemes brk a) 0 0 0 p) as S1.
  destruct (scan (graphemes brk a) 0 0 0 p) as [off|ln lo]; [reflexivity|].
  destruct (_ && _); [now rewrite uadd_ok by lia|].
  rewrite u_second_half_ok by exact Hg. rewrite (second_half_ok _ _ _ R). cbn [of_res mbind bind].
  rewrite u_scan_ok by lia. cbn [mbind]. pose proof (scan_counts (graphemes brk c) 0 ln lo p) as S2.
  rewrite graphemes_concat in S2.
  destruct (scan (graphemes brk c) 0 ln lo p) as [off|ln' lo'].
  - rewrite uadd_ok by lia. cbn [mbind]. now rewrite uadd_ok by lia.
  - now destruct (_ && _).
Qed.

Lemma u_in_bounds_ok K brk g p : fits K g -> u_in_bounds K brk g p = of_res (in_bounds brk g p).
Proof. intros F. unfold u_in_bounds, in_bounds. now rewrite of_res_bind, u_find_offset_ok. Qed.

Lemma u_move_gap_ok K g off : gap_start g + gap_length g <= K -> u_move_gap K g off = of_res (move_gap g off).
Proof.
  intros H. unfold u_move_gap, move_gap. destruct (_ =? 0); [reflexivity|]. destruct (Nat.compare off (gap_start g)).
  - reflexivity.
  - rewrite of_res_bind, (mfor_each_ok _ _ (shift_left_body (gap_length g)) (fun _ => True)); auto.
    intros x s Hx _. apply in_rev in Hx. unfold range in Hx. apply in_seq in Hx.
    unfold u_shift_left_body, shift_left_body. rewrite of_res_bind. apply mbind_of_res. intros y _.
    rewrite uadd_ok by lia. cbn [mbind]. rewrite of_res_bind. reflexivity.
  - rewrite uadd_ok by lia. cbn [mbind].
    rewrite of_res_bind, (mfor_each_ok _ _ (shift_right_body (gap_length g)) (fun _ => True)); auto.
    apply mbind_of_res. intros d _. now rewrite of_res_bind.
Qed.

Lemma u_write_ok K g data : vlen (gb_data g) <= K -> u_write_to_gap K g data = of_res (write_to_gap g data).
Proof.
  unfold u_write_to_gap, write_to_gap. intros H. apply (mfor_each_ok _ _ _ (fun g => vlen (gb_data g) <= K)); [| |exact H].
  - intros x s _ Hs. rewrite of_res_bind. apply mbind_of_res. intros d E.
    assert (gap_start s < vlen (gb_data s)).
    { clear -E. unfold vlen. unfold bytes in E. revert E. generalize (v_init (gb_data s)) (gap_start s). intros l.
      revert d. induction l as [|y l IH]; intros d [|i]; cbn [upd length]; try discriminate; [lia|].
      destruct (upd l i x) as [w|] eqn:E'; [|discriminate]. intros _. specialize (IH _ _ E'). lia. }
    rewrite uadd_ok by lia. cbn [mbind]. now rewrite of_res_bind.
  - intros x s s' Hs E. destruct (upd (bytes s) (gap_start s) x) as [d|] eqn:Ed; [|discriminate]. cbn [bind] in E.
    destruct (usub _ _); [|discriminate]. injection E as <-. apply upd_length in Ed. unfold vlen in *. cbn. now rewrite Ed.
Qed.

(** Either memory runs out, or the machine does what the unbounded model does. *)
Definition agrees {A} (P : A -> Prop) (u : mres A) (r : res A) : Prop :=
  u = MNoMemory \/ (u = of_res r /\ forall a, r = Ok a -> P a).

Lemma agrees_eq {A} (P : A -> Prop) r : (forall a, r = Ok a -> P a) -> agrees P (of_res r) r.
Proof. intros H. right. now split. Qed.
Lemma agrees_bind {A B} (P : A -> Prop) (Q : B -> Prop) u r (f : A -> mres B) (h : A -> res B) :
  agrees P u r -> (forall a, r = Ok a -> P a -> agrees Q (f a) (h a)) -> agrees Q (mbind u f) (bind r h).
Proof.
  intros [->|[-> H]] F; [now left|]. destruct r as [a|]; cbn.
  - apply F; auto.
  - right. split; [reflexivity|discriminate].
Qed.
Lemma agrees_imp {A} (P Q : A -> Prop) u r : agrees P u r -> (forall a, r = Ok a -> P a -> Q a) -> agrees Q u r.
Proof. intros [->|[-> H]] F; [now left|right; split; auto]. Qed.

Lemma u_new_ok K al s : valid_text s -> agrees (fits K) (u_new K al s) (gb_new al s).
Proof.
  intros V. unfold u_new, gb_new, allocated. destruct (Nat.leb_spec (vcap (Vec (enc s) (al (blen s) 0))) K) as [H|H];
    [|now left]. cbn [mbind]. right. split.
  - rewrite of_res_bind. apply mbind_of_res. intros gl _. now rewrite of_res_bind.
  - intros g E. destruct (new_ok al s V) as (g' & E' & R). unfold gb_new in E'. rewrite E' in E. injection E as <-.
    split; [now exists s, []|]. revert E'.
    destruct (usub _ _); [|discriminate]. cbn [bind]. unfold vset_len.
    destruct (_ <=? _); [|discriminate]. cbn [bind]. intros E. injection E as <-. unfold vlen. cbn [gb_data v_init].
    unfold vcap in *. cbn [v_init v_spare] in *. rewrite <- app_length in *. rewrite firstn_all. lia.
Qed.

Lemma u_ensure_ok K al g data : alloc_ok al -> fits K g ->
  agrees (fits K) (u_ensure_capacity K al g data) (ensure_capacity al g data).
Proof.
  intros Ha F. pose proof F as [(a & c & R) Hv].
  assert (W : forall g', ensure_capacity al g data = Ok g' -> wf g').
  { intros g' E. destruct (ensure_capacity_ok al g a c data Ha R) as (g1 & h1 & h2 & E1 & R1 & _).
    rewrite E1 in E. injection E as <-. now exists h1, h2. }
  unfold u_ensure_capacity. revert W. unfold ensure_capacity. destruct (_ <? _); intros W.
  2:{ right. split; [reflexivity|]. intros g' E. injection E as <-. exact F. }
  rewrite u_move_gap_ok by now apply fits_gap.
  destruct (move_gap g (vcap (gb_data g))) as [g1|]; cbn [of_res mbind bind] in *.
  2:{ right. split; [reflexivity|discriminate]. }
  unfold allocated. destruct (Nat.leb_spec (vcap (vreserve al (gb_data g1) (blen data))) K) as [Hc|Hc]; [|now left].
  cbn [mbind]. right. split.
  - rewrite of_res_bind. apply mbind_of_res. intros gl _. now rewrite of_res_bind.
  - intros g' E. split; [now apply W|]. revert E. destruct (usub _ _); [|discriminate]. cbn [bind]. unfold vset_len.
    destruct (_ <=? _); [|discriminate]. cbn [bind]. intros E. injection E as <-. unfold vlen. cbn [gb_data v_init].
    rewrite firstn_length. lia.
Qed.

Lemma u_insert_ok K brk al g data p : alloc_ok al -> valid_text data -> fits K g ->
  agrees (fits K) (u_insert K brk al g data p) (gb_insert brk al g data p).
Proof.
  intros Ha V F.
  assert (W : forall g', gb_insert brk al g data p = Ok g' -> wf g').
  { intros g' E. destruct F as [(a & c & R) _]. pose proof (insert_halves brk al g a c data p Ha R V) as X.
    destruct (lookup_halves g data a c) as [h1 h2]. destruct X as (g1 & E1 & X). rewrite E1 in E. injection E as <-.
    destruct (hsplit brk h1 h2 p) as [[pre post]|]; [now exists (concat pre ++ data), (concat post)|now exists h1, h2]. }
  apply (agrees_imp (fun g' => vlen (gb_data g') <= K)); [|intros g' E H; split; auto]. clear W.
  unfold u_insert, gb_insert. eapply agrees_bind; [now apply u_ensure_ok|]. intros g1 _ F1.
  rewrite u_find_offset_ok by exact F1. destruct F1 as [(a & c & R) Hv]. rewrite (find_offset_ok _ _ _ _ _ R). cbn [of_res mbind bind].
  destruct (hsplit brk a c p) as [[pre post]|] eqn:Es.
  2:{ right. split; [reflexivity|]. intros g' E. now injection E as <-. }
  assert (F1 : fits K g1) by (split; [now exists a, c|exact Hv]).
  rewrite u_move_gap_ok by now apply fits_gap.
  destruct (move_gap_ok g1 a c (concat pre) (concat post) _ R (hsplit_concat _ _ _ _ _ _ Es) eq_refl) as (g2 & E2 & R2 & _).
  rewrite E2. cbn [of_res mbind bind]. apply move_gap_vlen in E2. rewrite u_write_ok by lia. apply agrees_eq.
  intros g3 E3. apply write_to_gap_vlen in E3. lia.
Qed.

Lemma u_read_ok K brk g r : fits K g -> u_read K brk g r = of_res (gb_read brk g r).
Proof.
  intros F. unfold u_read, gb_read. rewrite u_find_offset_ok by exact F. rewrite of_res_bind. apply mbind_of_res.
  intros [so|] _; [|reflexivity]. rewrite u_find_offset_ok by exact F. rewrite of_res_bind. apply mbind_of_res.
  intros [eo|] _; [|reflexivity]. destruct (_ && _).
  - rewrite of_res_bind. apply mbind_of_res. intros d _. pose proof (fits_gap _ _ F). rewrite uadd_ok by lia. cbn [mbind].
    now rewrite of_res_bind.
  - now rewrite of_res_bind.
Qed.

Lemma u_delete_ok K brk g r : fits K g -> line (r_end r) <= 2 * K -> u_delete K brk g r = of_res (gb_delete brk g r).
Proof.
  intros F Hl. unfold u_delete, gb_delete. rewrite u_find_offset_ok by exact F.
  pose proof F as [(a & c & R) Hv]. rewrite (find_offset_ok _ _ _ _ _ R). cbn [of_res mbind bind].
  destruct (hsplit brk a c (r_start r)) as [[pre post]|] eqn:Es; [|reflexivity].
  rewrite u_move_gap_ok by now apply fits_gap.
  destruct (move_gap_ok g a c (concat pre) (concat post) _ R (hsplit_concat _ _ _ _ _ _ Es) eq_refl) as (g2 & E2 & R2 & _).
  rewrite E2. cbn [of_res mbind bind]. apply move_gap_vlen in E2.
  assert (F2 : fits K g2) by (split; [now exists (concat pre), (concat post)|lia]).
  rewrite u_find_offset_ok by exact F2. rewrite of_res_bind. apply mbind_of_res.
  intros [eo|] _; [now rewrite of_res_bind|]. rewrite uadd_ok by lia. cbn [mbind].
  rewrite u_find_offset_ok by exact F2. rewrite of_res_bind. apply mbind_of_res.
  intros [no|] _; now rewrite of_res_bind.
Qed.

Lemma u_to_string_ok K g : fits K g -> u_to_string K g = of_res (gb_to_string g).
Proof.
  intros F. unfold u_to_string, gb_to_string. rewrite of_res_bind. apply mbind_of_res. intros a _.
  rewrite u_second_half_ok by now apply fits_gap. now rewrite of_res_bind.
Qed.

(** ** The cursor *)

Definition small (K : nat) (p : position) : Prop := line p <= K /\ offset p <= K.

Lemma adv_counts p g : line (adv p g) <= line p + 1 /\ offset (adv p g) <= offset p + 1.
Proof. unfold adv. destruct (is_lf g); cbn; lia. Qed.
Lemma pos_after_counts gs : forall p, line (pos_after p gs) <= line p + length gs /\ offset (pos_after p gs) <= offset p + length gs.
Proof.
  unfold pos_after. induction gs as [|g gs IH]; intros p; cbn [fold_left length]; [lia|].
  specialize (IH (adv p g)). pose proof (adv_counts p g). lia.
Qed.

Lemma in_bounds_small K brk g p : fits K g -> in_bounds brk g p = Ok true -> small K p.
Proof.
  intros [(a & c & R) Hv] E. rewrite (in_bounds_halves _ _ _ _ _ R) in E. rewrite (rep_vlen _ _ _ R) in Hv.
  destruct (hsplit brk a c p) as [[pre post]|] eqn:Es; [|discriminate]. unfold hsplit in Es.
  apply gsplit_iff in Es as [Es <-]. pose proof (pos_after_counts pre (Pos 0 0)) as X. cbn [line offset] in X.
  apply (f_equal (@length _)) in Es. unfold hgs in Es. rewrite !app_length in Es.
  pose proof (clusters_le brk a). pose proof (clusters_le brk c). split; lia.
Qed.

Lemma u_move_to_ok K brk g c p : fits K g -> u_move_to K brk g c p = of_res (move_to brk g c p).
Proof.
  intros F. unfold u_move_to, move_to. rewrite u_in_bounds_ok by exact F. rewrite of_res_bind. apply mbind_of_res.
  now intros [|] _.
Qed.
Lemma move_to_small K brk g c p k c' : fits K g -> move_to brk g c p = Ok (k, c') -> small K (c_pos c) -> small K (c_pos c').
Proof.
  intros F. unfold move_to. destruct (in_bounds brk g p) as [[|]|] eqn:E; cbn [bind]; [|intros X; now injection X as <- <-|discriminate].
  intros X _. injection X as <- <-. cbn [c_pos]. now apply (in_bounds_small K brk g).
Qed.

Lemma u_line_ok K brk g c l : fits K g -> u_move_to_line K brk g c l = of_res (move_to_line brk g c l).
Proof.
  intros F. unfold u_move_to_line, move_to_line. rewrite u_move_to_ok by exact F. rewrite of_res_bind. apply mbind_of_res.
  intros [[|] c1] _; [reflexivity|]. rewrite u_to_string_ok by exact F. rewrite of_res_bind. apply mbind_of_res. intros s _.
  rewrite u_move_to_ok by exact F. rewrite of_res_bind. apply mbind_of_res. now intros [? ?] _.
Qed.

Lemma u_loop_ok K gs : forall ln lo, ln + length gs <= 2 * K + 1 -> lo + length gs <= 2 * K + 1 ->
  u_last_line_loop K gs ln lo = MOk (last_line_loop gs ln lo).
Proof.
  induction gs as [|g gs IH]; intros ln lo H1 H2; [reflexivity|]. cbn [u_last_line_loop last_line_loop length] in *.
  destruct (is_lf g); rewrite uadd_ok by lia; cbn [mbind]; apply IH; lia.
Qed.

Lemma u_cexec_ok K brk g m c : fits K g -> small K (c_pos c) -> u_cexec K brk g m c = of_res (cexec brk g m c).
Proof.
  intros F [H1 H2].
  assert (T : forall c p, mbind (u_move_to K brk g c p) (fun x => let (_, c') := x in MOk c')
     = of_res (let* (_, c') := move_to brk g c p in Ok c')).
  { intros c0 p. rewrite u_move_to_ok by exact F. rewrite of_res_bind. apply mbind_of_res. now intros [? ?] _. }
  destruct m; cbn [u_cexec cexec].
  - apply T.
  - unfold u_move_up, move_up. destruct (_ =? 0); [reflexivity|]. rewrite of_res_bind. apply mbind_of_res.
    intros t _. now apply u_line_ok.
  - unfold u_move_down, move_down. rewrite uadd_ok by lia. cbn [mbind]. now apply u_line_ok.
  - unfold u_move_left, move_left. destruct (_ =? 0); [reflexivity|]. rewrite of_res_bind. apply mbind_of_res.
    intros t _. apply T.
  - unfold u_move_right, move_right. rewrite uadd_ok by lia. cbn [mbind]. apply T.
  - apply T.
  - unfold u_move_to_end_of_line, move_to_end_of_line. rewrite u_to_string_ok by exact F. rewrite of_res_bind. apply mbind_of_res.
    intros s _. destruct (nth_error _ _); [apply T|reflexivity].
  - unfold u_move_to_last_line, move_to_last_line. rewrite u_to_string_ok by exact F. rewrite of_res_bind. apply mbind_of_res.
    intros s Es. destruct F as [(a & d & R) Hv]. rewrite (to_string_ok _ _ _ R) in Es. injection Es as <-.
    rewrite (rep_vlen _ _ _ R) in Hv. pose proof (clusters_le brk (a ++ d)) as X. rewrite blen_app in X.
    rewrite u_loop_ok by lia. cbn [mbind]. destruct (last_line_loop _ 0 0) as [ln len]. apply T.
  - unfold u_move_to_first_line, move_to_first_line. rewrite u_to_string_ok by exact F. rewrite of_res_bind. apply mbind_of_res.
    intros s _. apply T.
Qed.

(** ** Operations *)

Fixpoint op_tame (K : nat) (op : operation) : Prop :=
  match op with
  | OpInsert d p => blen d <= K /\ small K p
  | OpDelete _ r => line (r_end r) <= 2 * K
  | OpReplace _ _ => True
  | OpGroup ops => (fix go ops := match ops with [] => True | o :: rest => op_tame K o /\ go rest end) ops
  end.
Lemma op_tame_group K ops : op_tame K (OpGroup ops) <-> Forall (op_tame K) ops.
Proof.
  induction ops as [|o ops IH]; [split; constructor|]. cbn [op_tame] in *. rewrite IH. split.
  - intros [H1 H2]. now constructor.
  - intros H. inversion_clear H. now split.
Qed.

Lemma count_lf_blen d : count_lf d <= blen d.
Proof.
  induction d as [|c d IH]; [cbn; lia|]. change (c :: d) with ([c] ++ d). rewrite blen_app, count_lf_app.
  assert (1 <= blen [c]).
  { unfold blen. cbn. rewrite app_nil_r. unfold enc1.
    repeat match goal with |- context [if ?b then _ else _] => destruct b end; cbn; lia. }
  assert (count_lf [c] <= 1) by (unfold count_lf; cbn [filter]; destruct (N.eqb LF c); cbn; lia). lia.
Qed.

Lemma u_insert_end_ok K brk d p : blen d <= K -> small K p ->
  u_insert_end K brk d p = MOk (insert_end brk d p)
  /\ forall e, insert_end brk d p = Some e -> line e <= 2 * K.
Proof.
  intros Hd [H1 H2]. pose proof (count_lf_blen d). pose proof (clusters_le brk d).
  unfold u_insert_end, insert_end. rewrite uadd_ok by lia. cbn [mbind]. rewrite uadd_ok by lia. cbn [mbind].
  unfold usub. rewrite (proj2 (Nat.leb_le _ _)) by lia. cbn [of_res mbind].
  destruct (_ =? 1).
  - rewrite uadd_ok by lia. cbn [mbind]. split; [reflexivity|]. intros e X. injection X as <-. cbn. lia.
  - destruct (last_line d); (split; [reflexivity|]); intros e X; [|discriminate]. injection X as <-. cbn. lia.
Qed.

(** The buffer's text fits and its cursor is near. *)
Definition near (K : nat) (b : buffer) : Prop := fits K (b_data b) /\ small K (c_pos (b_cursor b)).

Lemma u_replace_content_ok K brk al s b : valid_text s ->
  agrees (near K) (u_replace_content K brk al s b) (replace_content brk al s b).
Proof.
  intros V. unfold u_replace_content, replace_content. eapply agrees_bind; [now apply u_new_ok|]. intros g _ F.
  rewrite u_move_to_ok by exact F. destruct (move_to brk g (cursor_new (Pos 0 0)) (c_pos (b_cursor b))) as [[k c1]|] eqn:E1; cbn [of_res mbind bind].
  2:{ right. split; [reflexivity|discriminate]. }
  assert (S0 : small K (c_pos (cursor_new (Pos 0 0)))) by (split; cbn; lia).
  pose proof (move_to_small _ _ _ _ _ _ _ F E1 S0) as S1. destruct k; cbn [mbind bind].
  - right. split; [reflexivity|]. intros b' X. injection X as <-. now split.
  - rewrite u_move_to_ok by exact F. destruct (move_to brk g c1 _) as [[k c2]|] eqn:E2; cbn [of_res mbind bind].
    + right. split; [reflexivity|]. intros b' X. injection X as <-. split; [exact F|].
      exact (move_to_small _ _ _ _ _ _ _ F E2 S1).
    + right. split; [reflexivity|discriminate].
Qed.

Definition u_go_run K brk al : list operation -> buffer -> mres (list operation * buffer) :=
  fix go (ops : list operation) (b : buffer) :=
    match ops with
    | [] => MOk ([], b)
    | o :: rest =>
      let+ (o', b1) := u_op_run K brk al o b in
      let+ (rest', b2) := go rest b1 in
      MOk (o' :: rest', b2)
    end.
Definition u_go_rev K brk al : list operation -> buffer -> mres buffer :=
  fix go (ops : list operation) (b : buffer) :=
    match ops with
    | [] => MOk b
    | o :: rest => let+ b1 := go rest b in u_op_reverse K brk al o b1
    end.

Lemma range_new_line p q K : line p <= K -> line q <= K -> line (r_end (range_new p q)) <= K.
Proof. unfold range_new. now destruct (pos_gtb p q). Qed.

Lemma u_op_run_ok K brk al op : alloc_ok al -> op_valid op -> op_tame K op -> forall b, near K b ->
  agrees (fun x => near K (snd x) /\ op_tame K (fst x)) (u_op_run K brk al op b) (op_run brk al op b).
Proof.
  intros Ha. induction op as [d p|c r|s t|ops IH] using operation_induction; intros Hv Ht b [F S].
  - cbn [u_op_run op_run]. eapply agrees_bind; [now apply u_insert_ok|]. intros g _ Fg. right. split; [reflexivity|].
    intros x X. injection X as <-. cbn [fst snd]. repeat split; try apply Fg; try apply S; apply Ht.
  - pose proof (op_run_step brk al (OpDelete c r) Ha Hv b (proj1 F)) as W. cbn [op_run] in W. cbn [u_op_run op_run].
    rewrite u_read_ok by exact F. destruct (gb_read brk (b_data b) r) as [m|]; cbn [of_res mbind bind] in *.
    2:{ right. split; [reflexivity|discriminate]. }
    rewrite (u_delete_ok K brk (b_data b) r F Ht). destruct (gb_delete brk (b_data b) r) as [g|] eqn:E; cbn [of_res mbind bind] in *.
    2:{ right. split; [reflexivity|discriminate]. }
    right. split; [reflexivity|]. intros x X. injection X as <-. cbn [fst snd]. destruct W as [W _].
    apply delete_vlen in E. split; [|exact Ht]. split; [split|].
    + exact (st_wf _ _ W).
    + cbn. rewrite E. apply F.
    + exact S.
  - cbn [u_op_run op_run]. eapply agrees_bind; [apply u_replace_content_ok, Hv|]. intros b' _ N. right. split; [reflexivity|].
    intros x X. injection X as <-. now split.
  - cbn [u_op_run op_run]. change ((fix go (ops0 : list operation) (b0 : buffer) {struct ops0} : mres (list operation * buffer) := _) ops b)
      with (u_go_run K brk al ops b).
    change ((fix go (ops0 : list operation) (b0 : buffer) {struct ops0} : res (list operation * buffer) := _) ops b)
      with (go_run brk al ops b).
    apply op_valid_group in Hv. apply op_tame_group in Ht.
    assert (X : agrees (fun x => near K (snd x) /\ Forall (op_tame K) (fst x)) (u_go_run K brk al ops b) (go_run brk al ops b)).
    { revert b F S. induction ops as [|o ops IHo]; intros b F S; cbn [u_go_run go_run].
      - right. split; [reflexivity|]. intros x X. injection X as <-. repeat split; try apply F; try apply S. constructor.
      - inversion_clear IH as [|? ? IH1 IH2]. inversion_clear Hv as [|? ? V1 V2]. inversion_clear Ht as [|? ? T1 T2].
        eapply agrees_bind; [apply (IH1 V1 T1 b); now split|]. intros [o' b1] _ [[F1 S1] T1'].
        eapply agrees_bind; [apply (IHo IH2 V2 T2 b1 F1 S1)|]. intros [os' b2] _ [N2 T2']. right. split; [reflexivity|].
        intros x X. injection X as <-. cbn [fst snd] in *. split; [exact N2|]. now constructor. }
    eapply agrees_bind; [exact X|]. intros [ops' b'] _ [N T]. right. split; [reflexivity|]. intros x Y. injection Y as <-.
    split; [exact N|]. now apply op_tame_group.
Qed.

Lemma u_op_reverse_ok K brk al op : alloc_ok al -> op_valid op -> op_tame K op -> forall b, near K b ->
  agrees (near K) (u_op_reverse K brk al op b) (op_reverse brk al op b).
Proof.
  intros Ha. induction op as [d p|c r|s t|ops IH] using operation_induction; intros Hv Ht b [F S].
  - pose proof (op_reverse_step brk al (OpInsert d p) Ha Hv b (proj1 F)) as W. cbn [op_reverse] in W. cbn [u_op_reverse op_reverse].
    destruct Ht as [Hd Hp]. destruct (u_insert_end_ok K brk d p Hd Hp) as [-> He]. cbn [mbind].
    destruct (insert_end brk d p) as [e|].
    2:{ right. split; [reflexivity|]. intros x X. injection X as <-. now split. }
    rewrite u_delete_ok; [|exact F|apply range_new_line; [destruct Hp; lia|now apply He]].
    destruct (gb_delete brk (b_data b) (range_new p e)) as [g|] eqn:E; cbn [of_res mbind bind] in *.
    2:{ right. split; [reflexivity|discriminate]. }
    right. split; [reflexivity|]. intros x X. injection X as <-. apply delete_vlen in E. split; [split|].
    + exact (st_wf _ _ W).
    + cbn. rewrite E. apply F.
    + exact S.
  - cbn [u_op_reverse op_reverse]. destruct c as [m|].
    + eapply agrees_bind; [apply u_insert_ok; [exact Ha|apply Hv|exact F]|]. intros g _ Fg. right. split; [reflexivity|].
      intros x X. injection X as <-. now split.
    + right. split; [reflexivity|]. intros x X. injection X as <-. now split.
  - cbn [u_op_reverse op_reverse]. apply u_replace_content_ok, Hv.
  - change (u_op_reverse K brk al (OpGroup ops) b) with (u_go_rev K brk al ops b).
    change (op_reverse brk al (OpGroup ops) b) with (go_rev brk al ops b).
    apply op_valid_group in Hv. apply op_tame_group in Ht. revert b F S.
    induction ops as [|o ops IHo]; intros b F S; cbn [u_go_rev go_rev].
    + right. split; [reflexivity|]. intros x X. injection X as <-. now split.
    + inversion_clear IH as [|? ? IH1 IH2]. inversion_clear Hv as [|? ? V1 V2]. inversion_clear Ht as [|? ? T1 T2].
      eapply agrees_bind; [apply (IHo IH2 V2 T2 b F S)|]. intros b1 _ N1. now apply (IH1 V1 T1).
Qed.

(** ** Buffers *)

Record tame (K : nat) (b : buffer) : Prop := Tame {
  tm_wf : wfb b;
  tm_near : near K b;
  tm_prev : Forall (op_tame K) (h_previous (b_history b));
  tm_next : Forall (op_tame K) (h_next (b_history b));
  tm_group : match b_group b with Some ops => Forall (op_tame K) ops | None => True end }.

(** Everything but well-formedness, which is known from elsewhere. *)
Definition tame' (K : nat) (b : buffer) : Prop :=
  near K b /\ Forall (op_tame K) (h_previous (b_history b)) /\ Forall (op_tame K) (h_next (b_history b)) /\
  match b_group b with Some ops => Forall (op_tame K) ops | None => True end.

Lemma mk_tame K b : fits K (b_data b) -> small K (c_pos (b_cursor b)) ->
  Forall (op_tame K) (h_previous (b_history b)) -> Forall (op_tame K) (h_next (b_history b)) ->
  match b_group b with Some ops => Forall (op_tame K) ops | None => True end -> tame' K b.
Proof. intros F S T1 T2 T3. split; [now split|now split]. Qed.

Lemma tame_store K b b1 op : tame K b -> same_rest b b1 -> near K b1 -> op_tame K op -> tame' K (store b1 op).
Proof.
  intros [W N T1 T2 T3] (_ & _ & R3 & R4 & _) N1 T. unfold store. rewrite R4, R3. destruct (b_group b) as [ops|] eqn:Eg.
  - repeat split; cbn; rewrite ?R3; try apply N1; try assumption. apply Forall_app. split; [assumption|]. now constructor.
  - repeat split; cbn; rewrite ?R4, ?Eg; try apply N1; try exact I; [now constructor|constructor].
Qed.

Lemma u_edit_ok K brk al op b : alloc_ok al -> op_valid op -> op_tame K op -> tame K b ->
  agrees (tame' K) (let+ (op', b') := u_op_run K brk al op b in MOk (store b' op'))
    (let* (op', b') := op_run brk al op b in Ok (store b' op')).
Proof.
  intros Ha V T Hb. pose proof (op_run_step brk al op Ha V b (wfb_data _ (tm_wf _ _ Hb))) as W.
  eapply agrees_bind; [apply (u_op_run_ok K brk al op Ha V T b), Hb|]. intros [op' b'] E [N T']. rewrite E in W.
  right. split; [reflexivity|]. intros x X. injection X as <-. cbn [fst snd] in *.
  eapply tame_store; [exact Hb|apply W|exact N|exact T'].
Qed.

Lemma u_replace_ok K brk al s b : alloc_ok al -> valid_text s -> tame K b ->
  agrees (tame' K) (u_buf_replace K brk al b s) (buf_replace brk al b s).
Proof.
  intros Ha V Hb. pose proof Hb as [W [F S] T1 T2 T3]. unfold u_buf_replace, buf_replace, buf_data.
  rewrite u_to_string_ok by exact F. pose proof F as [(a & c & R) _].
  rewrite (to_string_ok _ _ _ R). cbn [of_res mbind bind].
  destruct (list_N_eqb s (a ++ c)).
  - right. split; [reflexivity|]. intros x X. injection X as <-. now apply mk_tame.
  - apply u_edit_ok; try assumption; [|exact I]. split; [|exact V]. now apply rep_valid in R.
Qed.

Lemma u_bexec_ok K brk al c b f : 1 <= K -> alloc_ok al -> call_ok c -> within_machine K c -> tame K b ->
  agrees (fun x => tame K (snd (fst x))) (u_bexec K brk al c b f) (bexec brk al c b f).
Proof.
  intros HK Ha Hc Hm Hb. pose proof (bexec_any brk al c b f Ha Hc (tm_wf _ _ Hb)) as W.
  apply (agrees_imp (fun x => tame' K (snd (fst x)))).
  2:{ intros [[o b'] f'] E (N & T1 & T2 & T3). rewrite E in W. cbn [fst snd]. constructor; tauto. }
  clear W. pose proof Hb as [W [F S] T1 T2 T3].
  assert (U : forall (m : mres buffer) (r : res buffer), agrees (tame' K) m r ->
    agrees (fun x : bout * buffer * fsys => tame' K (snd (fst x))) (let+ b' := m in MOk (BUnit, b', f)) (let* b' := r in Ok (BUnit, b', f))).
  { intros m r H. eapply agrees_bind; [exact H|]. intros b' _ N. right. split; [reflexivity|]. intros x X. now injection X as <-. }
  assert (Same : forall (o : bout) f', agrees (fun x : bout * buffer * fsys => tame' K (snd (fst x))) (MOk (o, b, f')) (Ok (o, b, f'))).
  { intros o f'. right. split; [reflexivity|]. intros x X. injection X as <-. apply mk_tame; assumption. }
  destruct c; cbn [u_bexec bexec of_res].
  - apply U. apply u_edit_ok; try assumption. split; [exact Hm|exact S].
  - apply U. unfold u_buf_delete, buf_delete. destruct S as [S1 S2].
    rewrite uadd_ok by lia. cbn [mbind]. rewrite u_in_bounds_ok by exact F.
    destruct (in_bounds brk (b_data b) _) as [ok|]; cbn [of_res mbind bind].
    2:{ right. split; [reflexivity|discriminate]. }
    assert (E : (if ok then MOk (Pos (line (c_pos (b_cursor b))) (offset (c_pos (b_cursor b)) + 1))
                 else let+ below := uadd K (line (c_pos (b_cursor b))) 1 in MOk (Pos below 0))
              = MOk (if ok then Pos (line (c_pos (b_cursor b))) (offset (c_pos (b_cursor b)) + 1) else Pos (line (c_pos (b_cursor b)) + 1) 0)).
    { destruct ok; [reflexivity|]. now rewrite uadd_ok by lia. }
    rewrite E. cbn [mbind]. apply u_edit_ok; try assumption.
    + split; [exact I|]. eauto.
    + cbn [op_tame]. apply range_new_line; [lia|]. destruct ok; cbn [line]; lia.
  - apply U. apply u_edit_ok; try assumption.
    + split; [exact I|]. eauto.
    + cbn [op_tame]. destruct Hm. apply range_new_line; assumption.
  - apply U. now apply u_replace_ok.
  - apply U. unfold u_buf_undo, buf_undo.
    assert (X : forall op b1, op_valid op -> op_tame K op -> near K b1 -> same_rest b1 b1 ->
      tame' K b1 -> agrees (tame' K) (u_op_reverse K brk al op b1) (op_reverse brk al op b1)).
    { intros op b1 V T N _ (_ & Y). pose proof (op_reverse_step brk al op Ha V b1 (proj1 (proj1 N))) as Z.
      eapply agrees_imp; [now apply u_op_reverse_ok|]. intros b2 E N2. rewrite E in Z.
      destruct Z as [_ (_ & _ & R3 & R4 & _) _]. unfold tame'. rewrite R3, R4. now split. }
    destruct (b_group b) as [[|o ops]|] eqn:Eg.
    + unfold hist_previous. cbn [b_history set_group]. destruct (h_previous (b_history b)) as [|op rest] eqn:Eh; cbn [h_previous].
      * right. split; [reflexivity|]. intros x E. injection E as <-. apply mk_tame; cbn; try assumption. now rewrite Eh.
      * inversion_clear T1 as [|? ? T4 T5]. pose proof (wfb_prev _ W) as P. rewrite Eh in P. inversion_clear P as [|? ? P1 P2].
        apply X; try assumption; [now split|apply same_rest_refl|]. apply mk_tame; cbn; try assumption. now constructor.
    + pose proof (wfb_group _ W) as P. rewrite Eg in P.
      apply X; [now apply op_valid_group|now apply op_tame_group|now split|apply same_rest_refl|].
      apply mk_tame; cbn; try assumption; exact I.
    + unfold hist_previous. cbn [b_history set_group]. destruct (h_previous (b_history b)) as [|op rest] eqn:Eh; cbn [h_previous].
      * right. split; [reflexivity|]. intros x E. injection E as <-. apply mk_tame; cbn; try assumption. now rewrite Eh.
      * inversion_clear T1 as [|? ? T4 T5]. pose proof (wfb_prev _ W) as P. rewrite Eh in P. inversion_clear P as [|? ? P1 P2].
        apply X; try assumption; [now split|apply same_rest_refl|]. apply mk_tame; cbn; try assumption. now constructor.
  - apply U. unfold u_buf_redo, buf_redo, hist_next. destruct (h_next (b_history b)) as [|op rest] eqn:Eh.
    + right. split; [reflexivity|]. intros x E. injection E as <-. apply mk_tame; cbn; try assumption. now rewrite Eh.
    + inversion_clear T2 as [|? ? T4 T5]. pose proof (wfb_next _ W) as P. rewrite Eh in P. inversion_clear P as [|? ? P1 P2].
      set (b1 := set_history b _). assert (N1 : near K b1) by now split.
      pose proof (op_run_step brk al op Ha P1 b1 (proj1 F)) as Z.
      eapply agrees_bind; [now apply (u_op_run_ok K brk al op Ha P1 T4 b1)|]. intros [op' b2] E [N2 _]. rewrite E in Z.
      right. split; [reflexivity|]. intros x Y. injection Y as <-. destruct Z as [[_ (_ & _ & R3 & R4 & _) _] _].
      unfold tame'. rewrite R3, R4. split; [exact N2|]. cbn. repeat split; try assumption. now constructor.
  - right. split; [reflexivity|]. intros x X. injection X as <-. unfold start_group. cbn [fst snd].
    destruct (b_group b) eqn:Eg; apply mk_tame; cbn; rewrite ?Eg; try assumption. constructor.
  - right. split; [reflexivity|]. intros x X. injection X as <-. unfold end_group. cbn [fst snd].
    destruct (b_group b) as [[|o ops]|] eqn:Eg; apply mk_tame; cbn; rewrite ?Eg; try assumption; try exact I; try constructor.
    + now apply op_tame_group.
    + assumption.
  - rewrite u_cexec_ok by assumption. destruct (cexec_stays brk (b_data b) m (b_cursor b) (proj1 F)) as (c' & E & C). rewrite E.
    cbn [of_res mbind bind]. right. split; [reflexivity|]. intros x X. injection X as <-. cbn [fst snd].
    assert (S' : small K (c_pos c')).
    { destruct C as [->|C]; [exact S|]. now apply (in_bounds_small K brk (b_data b)). }
    apply mk_tame; assumption.
  - right. split; [reflexivity|]. intros x X. injection X as <-. apply mk_tame; assumption.
  - unfold u_buf_save, buf_save. destruct (b_path b) as [p|]; [|apply Same]. destruct (outcome f p w) as [|k|]; [apply Same| |].
    + unfold buf_data. rewrite u_to_string_ok by exact F. destruct (gb_to_string (b_data b)); cbn [of_res mbind bind]; [apply Same|].
      right. split; [reflexivity|discriminate].
    + unfold buf_data. rewrite u_to_string_ok by exact F. destruct (gb_to_string (b_data b)); cbn [of_res mbind bind].
      * right. split; [reflexivity|]. intros x X. injection X as <-. apply mk_tame; assumption.
      * right. split; [reflexivity|discriminate].
  - unfold u_buf_reload, buf_reload. destruct (b_path b) as [p|]; [|apply Same].
    destruct (read_to_string f p) as [t|] eqn:Er; [|apply Same].
    pose proof (u_replace_ok K brk al t b Ha (read_valid _ _ _ Er) Hb) as X.
    destruct X as [->|[-> X]]; [now left|]. destruct (buf_replace brk al b t) as [b'|]; cbn [of_res mbind bind].
    + right. split; [reflexivity|]. intros x Y. injection Y as <-. destruct (X _ eq_refl) as (N & Z). now split.
    + right. split; [reflexivity|discriminate].
  - right. split; [reflexivity|]. intros x X. injection X as <-. apply mk_tame; assumption.
  - right. split; [reflexivity|]. intros x X. injection X as <-. apply mk_tame; assumption.
  - right. split; [reflexivity|]. intros x X. injection X as <-. apply mk_tame; assumption.
  - right. split; [reflexivity|]. intros x X. injection X as <-. apply mk_tame; assumption.
  - apply Same.
Qed.

Lemma u_brun_ok K brk cs : 1 <= K -> forall b f,
  Forall (fun ac => alloc_ok (fst ac) /\ call_ok (snd ac) /\ within_machine K (snd ac)) cs -> tame K b ->
  agrees (fun _ => True) (u_brun K brk cs b f) (brun brk cs b f).
Proof.
  intros HK. induction cs as [|[al c] cs IH]; intros b f H Hb; cbn [u_brun brun].
  - right. now split.
  - inversion_clear H as [|? ? (H1 & H2 & H3) H']. cbn [fst snd] in *.
    eapply agrees_bind; [now apply u_bexec_ok|]. intros [[o b1] f1] _ Hb1. cbn [fst snd] in Hb1.
    eapply agrees_bind; [now apply IH|]. intros [[os b2] f2] _ _. right. now split.
Qed.

Lemma u_fresh_ok K f b : u_fresh K f b -> fresh_buffer f b /\ tame K b.
Proof.
  assert (N : forall K al s g, valid_text s -> u_new K al s = MOk g -> gb_new al s = Ok g /\ fits K g).
  { intros K0 al s g V E. destruct (u_new_ok K0 al s V) as [X|[X F]]; [congruence|]. rewrite X in E.
    destruct (gb_new al s); [|discriminate]. injection E as ->. split; [reflexivity|now apply F]. }
  intros [(al & E)|(al & p & E)].
  - unfold u_buffer_new in E. destruct (u_new K al []) as [g| | |] eqn:Eg; try discriminate. cbn [mbind] in E.
    destruct (N _ _ _ _ (Forall_nil _) Eg) as [Eg' F]. injection E as <-. split.
    + left. exists al. unfold buffer_new. now rewrite Eg'.
    + constructor; cbn; try constructor; cbn; try constructor; try apply F; cbn; lia.
  - unfold u_from_file in E. destruct (read_to_string f p) as [t|] eqn:Er; [|discriminate].
    destruct (u_new K al t) as [g| | |] eqn:Eg; try discriminate. cbn [mbind] in E.
    destruct (N _ _ _ _ (read_valid _ _ _ Er) Eg) as [Eg' F]. destruct (fs_canon f p) as [cp|] eqn:Ec; [|discriminate].
    injection E as <-. split.
    + right. exists al, p. unfold from_file. now rewrite Er, Eg', Ec.
    + constructor; cbn; try constructor; cbn; try constructor; try apply F; cbn; lia.
Qed.

Lemma machine_run K brk cs b f : 1 <= K -> u_fresh K f b ->
  Forall (fun ac => alloc_ok (fst ac) /\ call_ok (snd ac) /\ within_machine K (snd ac)) cs ->
  fresh_buffer f b /\
  (u_brun K brk cs b f = MNoMemory \/ u_brun K brk cs b f = of_res (brun brk cs b f)).
Proof.
  intros HK Hf Hc. apply u_fresh_ok in Hf as [Hf Ht]. split; [exact Hf|].
  destruct (u_brun_ok K brk cs HK b f Hc Ht) as [E|[E _]]; [now left|now right].
Qed.

(** ** Where sums overflow *)

Lemma uadd_over K a b : 2 * K + 1 < a + b -> uadd K a b = MOverflow.
Proof. intros H. unfold uadd. destruct (Nat.leb_spec (a + b) (2 * K + 1)); [lia|reflexivity]. Qed.

Lemma of_res_not_over {A} (r : res A) : of_res r <> MOverflow.
Proof. now destruct r. Qed.

Lemma delete_overflows K brk g p q : fits K g ->
  u_delete K brk g (Rng p q) = MOverflow <-> in_bounds brk g p = Ok true /\ 2 * K < line q.
Proof.
  intros F. destruct (le_lt_dec (line q) (2 * K)) as [H|H].
  - rewrite u_delete_ok by assumption. split; [intros E; now apply of_res_not_over in E|lia].
  - unfold u_delete. cbn [r_start r_end]. rewrite u_find_offset_ok by exact F.
    pose proof F as [(a & c & R) Hv]. rewrite (in_bounds_halves _ _ _ _ _ R), (find_offset_ok _ _ _ _ _ R). cbn [of_res mbind].
    destruct (hsplit brk a c p) as [[pre post]|] eqn:Es; cbn [is_some].
    2:{ split; [discriminate|now intros []]. }
    rewrite u_move_gap_ok by now apply fits_gap.
    destruct (move_gap_ok g a c (concat pre) (concat post) _ R (hsplit_concat _ _ _ _ _ _ Es) eq_refl) as (g2 & E2 & R2 & _).
    rewrite E2. cbn [of_res mbind]. apply move_gap_vlen in E2.
    assert (F2 : fits K g2) by (split; [now exists (concat pre), (concat post)|lia]).
    rewrite u_find_offset_ok by exact F2. rewrite (find_offset_ok _ _ _ _ _ R2). cbn [of_res mbind].
    destruct (hsplit brk (concat pre) (concat post) q) as [[x y]|] eqn:Eq.
    + exfalso. assert (B : in_bounds brk g2 q = Ok true) by (rewrite (in_bounds_halves _ _ _ _ _ R2), Eq; reflexivity).
      apply (in_bounds_small K) in B as [B _]; [lia|exact F2].
    + rewrite uadd_over by lia. cbn [mbind]. split; [now split|reflexivity].
Qed.

Lemma line_not_over K brk g c l : fits K g -> u_move_to_line K brk g c l <> MOverflow.
Proof. intros F. rewrite u_line_ok by exact F. apply of_res_not_over. Qed.

Lemma down_overflows K brk g c : fits K g -> u_move_down K brk g c = MOverflow <-> 2 * K < line (c_pos c).
Proof.
  intros F. unfold u_move_down. destruct (le_lt_dec (line (c_pos c)) (2 * K)).
  - rewrite uadd_ok by lia. cbn [mbind]. split; [intros E; now apply line_not_over in E|lia].
  - rewrite uadd_over by lia. now split.
Qed.
Lemma right_overflows K brk g c : fits K g -> u_move_right K brk g c = MOverflow <-> 2 * K < offset (c_pos c).
Proof.
  intros F. unfold u_move_right. destruct (le_lt_dec (offset (c_pos c)) (2 * K)).
  - rewrite uadd_ok by lia. cbn [mbind]. split; [|lia]. rewrite u_move_to_ok by exact F.
    destruct (move_to brk g c _) as [[k c']|]; discriminate.
  - rewrite uadd_over by lia. now split.
Qed.

Lemma add_overflows K p d :
  u_pos_add K p d = if (line p + d_lines d <=? 2 * K + 1) &&
                       ((0 <? d_lines d) || (offset p + d_offset d <=? 2 * K + 1))
                    then MOk (pos_add p d) else MOverflow.
Proof.
  unfold u_pos_add, pos_add, uadd. destruct (0 <? d_lines d); cbn [mbind orb].
  - rewrite andb_true_r. now destruct (_ <=? _).
  - destruct (offset p + d_offset d <=? 2 * K + 1); cbn [mbind]; [rewrite andb_true_r; now destruct (_ <=? _)|now rewrite andb_false_r].
Qed.
Lemma add_assign_overflows K p d : u_pos_add_assign K p d = u_pos_add K p d.
Proof.
  rewrite add_overflows. unfold u_pos_add_assign, pos_add, uadd. destruct (line p + d_lines d <=? 2 * K + 1); cbn [mbind andb]; [|reflexivity].
  destruct (0 <? d_lines d); cbn [mbind orb]; [reflexivity|]. now destruct (_ <=? _).
Qed.
Lemma inclusive_overflows K r :
  u_to_inclusive_range K r = if lr_end r <=? 2 * K then MOk (to_inclusive_range r) else MOverflow.
Proof.
  unfold u_to_inclusive_range, to_inclusive_range, uadd.
  destruct (Nat.leb_spec (lr_end r + 1) (2 * K + 1)), (Nat.leb_spec (lr_end r) (2 * K)); try lia; reflexivity.
Qed.

(** Every position fits in the buffers that a machine reaches. *)
Lemma u_reached_fits K brk cs b0 f0 os b f : 1 <= K -> u_fresh K f0 b0 ->
  Forall (fun ac => alloc_ok (fst ac) /\ call_ok (snd ac) /\ within_machine K (snd ac)) cs ->
  u_brun K brk cs b0 f0 = MOk (os, b, f) -> fits K (b_data b).
Proof.
  intros HK Hf Hc E. apply u_fresh_ok in Hf as [_ Ht]. revert b0 f0 os Ht Hc E.
  induction cs as [|[al c] cs IH]; intros b0 f0 os Ht Hc E; cbn [u_brun] in E.
  - injection E as _ <- _. apply Ht.
  - inversion_clear Hc as [|? ? (H1 & H2 & H3) H']. cbn [fst snd] in *.
    destruct (u_bexec_ok K brk al c b0 f0 HK H1 H2 H3 Ht) as [X|[X T]]; rewrite X in E; [discriminate|].
    destruct (bexec brk al c b0 f0) as [[[o b1] f1]|]; [|discriminate]. cbn [of_res mbind] in E.
    specialize (T _ eq_refl). cbn [fst snd] in T.
    destruct (u_brun K brk cs b1 f1) as [[[os2 b2] f2]| | |] eqn:E2; try discriminate. cbn [mbind] in E.
    injection E as _ <- <-. exact (IH _ _ _ T H' E2).
Qed.

Lemma origin_in_bounds brk g : wf g -> in_bounds brk g (Pos 0 0) = Ok true.
Proof.
  intros (a & c & R). rewrite (in_bounds_halves _ _ _ _ _ R). unfold hsplit. destruct (hgs brk a c); reflexivity.
Qed.

Lemma reached_fits K brk b f : 1 <= K -> u_reached K brk b f -> fits K (b_data b).
Proof. intros HK (b0 & f0 & cs & os & Hf & Hc & E). exact (u_reached_fits _ _ _ _ _ _ _ _ HK Hf Hc E). Qed.

(** Exactly the ranges that start in the text and end on the last line number overflow. *)
Lemma range_overflows K brk al b f p q : 1 <= K -> u_reached K brk b f ->
  u_bexec K brk al (BDeleteRange p q) b f = MOverflow <->
  in_bounds brk (b_data b) (r_start (range_new p q)) = Ok true /\ 2 * K < line (r_end (range_new p q)).
Proof.
  intros HK Hr. pose proof (reached_fits _ _ _ _ HK Hr) as F. cbn [u_bexec].
  unfold u_buf_delete_range. cbn [u_op_run]. destruct (range_new p q) as [s e]. cbn [r_start r_end].
  rewrite u_read_ok by exact F. destruct (gb_read brk (b_data b) _) as [m|] eqn:Er; cbn [of_res mbind].
  - rewrite <- (delete_overflows K brk (b_data b) s e F).
    destruct (u_delete K brk (b_data b) (Rng s e)); cbn [mbind]; split; congruence.
  - split; [discriminate|]. intros [_ H]. exfalso. unfold gb_read in Er. cbn [r_start r_end] in Er. pose proof F as [(a & c & R) _].
    rewrite !(find_offset_ok _ _ _ _ _ R) in Er. cbn [bind] in Er.
    destruct (hsplit brk a c s) as [[? ?]|]; [|discriminate].
    destruct (hsplit brk a c e) as [[? ?]|] eqn:Eq; [|discriminate].
    assert (B : in_bounds brk (b_data b) e = Ok true) by (rewrite (in_bounds_halves _ _ _ _ _ R), Eq; reflexivity).
    apply (in_bounds_small K) in B as [B _]; [cbn in B; lia|exact F].
Qed.

Lemma largest_line K brk al b f : 1 <= K -> u_reached K brk b f ->
  u_bexec K brk al (BDeleteRange (Pos 0 0) (Pos (2 * K + 1) 0)) b f = MOverflow.
Proof.
  intros HK Hr. apply range_overflows; [exact HK|exact Hr|].
  replace (range_new (Pos 0 0) (Pos (2 * K + 1) 0)) with (Rng (Pos 0 0) (Pos (2 * K + 1) 0)).
  2:{ unfold range_new, pos_gtb, pos_cmp. cbn [line offset]. destruct (Nat.ltb_spec 0 (2 * K + 1)); [reflexivity|lia]. }
  cbn [r_start r_end line]. split; [apply origin_in_bounds, (reached_fits _ _ _ _ HK Hr)|lia].
Qed.

(** Every other call takes any position. *)
Lemma any_position K brk al b f c p q data : 1 <= K -> u_reached K brk b f -> alloc_ok al -> valid_text data ->
  u_in_bounds K brk (b_data b) p = of_res (in_bounds brk (b_data b) p)
  /\ u_read K brk (b_data b) (range_new p q) = of_res (gb_read brk (b_data b) (range_new p q))
  /\ u_move_to K brk (b_data b) c p = of_res (move_to brk (b_data b) c p)
  /\ (u_insert K brk al (b_data b) data p = MNoMemory
      \/ u_insert K brk al (b_data b) data p = of_res (gb_insert brk al (b_data b) data p)).
Proof.
  intros HK Hr Ha V. pose proof (reached_fits _ _ _ _ HK Hr) as F.
  split; [now apply u_in_bounds_ok|]. split; [now apply u_read_ok|]. split; [now apply u_move_to_ok|].
  destruct (u_insert_ok K brk al (b_data b) data p Ha V F) as [E|[E _]]; auto.
Qed.

(** Under the rules of UAX #29 nothing else goes wrong. *)
Lemma machine_no_panic K cls cs b f : 1 <= K -> cls LF = GC_LF -> u_fresh K f b ->
  Forall (fun ac => alloc_ok (fst ac) /\ call_ok (snd ac) /\ within_machine K (snd ac)) cs ->
  u_brun K (uax29 cls) cs b f = MNoMemory \/
  exists os b' f', u_brun K (uax29 cls) cs b f = MOk (os, b', f') /\ brun (uax29 cls) cs b f = Ok (os, b', f').
Proof.
  intros HK Hc Hf H. destruct (machine_run K (uax29 cls) cs b f HK Hf H) as [Hb [E|E]]; [now left|]. right.
  destruct (buffer_no_panic cls f b cs Hc Hb) as (os & b' & f' & X).
  { eapply Forall_impl; [|exact H]. cbn. tauto. }
  exists os, b', f'. rewrite E, X. now split.
Qed.
Lemma reached_reachable K brk b f : 1 <= K -> u_reached K brk b f -> reachable_buffer brk b f.
Proof.
  intros HK (b0 & f0 & cs & os & Hf & Hc & E). destruct (machine_run K brk cs b0 f0 HK Hf Hc) as [Hb [X|X]]; [congruence|].
  exists b0, f0, cs, os. split; [exact Hb|]. split; [eapply Forall_impl; [|exact Hc]; cbn; tauto|].
  rewrite X in E. destruct (brun brk cs b0 f0) as [[[? ?] ?]|]; [|discriminate]. cbn [of_res] in E. congruence.
Qed.

Lemma down_when K brk b f c : 1 <= K -> u_reached K brk b f ->
  u_move_down K brk (b_data b) c = MOverflow <-> 2 * K < line (c_pos c).
Proof. intros HK Hr. apply down_overflows. now apply (reached_fits K brk b f). Qed.
Lemma right_when K brk b f c : 1 <= K -> u_reached K brk b f ->
  u_move_right K brk (b_data b) c = MOverflow <-> 2 * K < offset (c_pos c).
Proof. intros HK Hr. apply right_overflows. now apply (reached_fits K brk b f). Qed.

(** [delete] overflows exactly from the largest line or offset. *)
Lemma delete_when K brk al b f c : 1 <= K -> u_reached K brk b f ->
  u_bexec K brk al BDelete (set_cursor b c) f = MOverflow <-> 2 * K < line (c_pos c) \/ 2 * K < offset (c_pos c).
Proof.
  intros HK Hr. pose proof (reached_fits _ _ _ _ HK Hr) as F. cbn [u_bexec]. unfold u_buf_delete. cbn [b_cursor b_data set_cursor].
  destruct c as [[l o] st]. cbn [c_pos line offset]. destruct (le_lt_dec o (2 * K)) as [Ho|Ho].
  2:{ rewrite uadd_over by lia. cbn [mbind]. split; [lia|reflexivity]. }
  rewrite uadd_ok by lia. cbn [mbind]. rewrite u_in_bounds_ok by exact F.
  assert (D : forall fin, line fin <= 2 * K -> l <= 2 * K -> u_buf_delete_range K brk al (set_cursor b (Cur (Pos l o) st)) (range_new (Pos l o) fin) <> MOverflow).
  { intros fin H1 H2. unfold u_buf_delete_range. cbn [u_op_run b_data set_cursor]. rewrite u_read_ok by exact F.
    destruct (gb_read brk (b_data b) _); cbn [of_res mbind]; [|discriminate].
    rewrite u_delete_ok by (first [exact F|apply range_new_line; cbn; assumption]).
    destruct (gb_delete brk (b_data b) _); cbn [of_res mbind]; discriminate. }
  destruct (in_bounds brk (b_data b) (Pos l (o + 1))) as [[|]|] eqn:Ei; cbn [of_res mbind].
  - apply (in_bounds_small K) in Ei as [Ei _]; [|exact F]. cbn in Ei. specialize (D (Pos l (o + 1))). cbn in D.
    destruct (u_buf_delete_range K brk al _ _) eqn:X; cbn [mbind]; split; try discriminate; try lia. intros _. exfalso. apply D; [lia|lia|reflexivity].
  - destruct (le_lt_dec l (2 * K)) as [Hl|Hl].
    2:{ rewrite uadd_over by lia. cbn [mbind]. split; [lia|reflexivity]. }
    rewrite uadd_ok by lia. cbn [mbind].
    destruct (le_lt_dec l (2 * K - 1)) as [Hm|Hm].
    + specialize (D (Pos (l + 1) 0)). cbn in D.
      destruct (u_buf_delete_range K brk al _ _) eqn:X; cbn [mbind]; split; try discriminate; try lia. intros _. exfalso. apply D; [lia|lia|reflexivity].
    + (* the range starts outside the text *)
      split; [|lia]. intros X. exfalso. unfold u_buf_delete_range in X. cbn [u_op_run b_data set_cursor] in X.
      rewrite u_read_ok in X by exact F.
      assert (E : range_new (Pos l o) (Pos (l + 1) 0) = Rng (Pos l o) (Pos (l + 1) 0)).
      { unfold range_new, pos_gtb, pos_cmp. cbn [line offset]. destruct (Nat.ltb_spec l (l + 1)); [reflexivity|lia]. }
      rewrite E in X. destruct (gb_read brk (b_data b) _); cbn [of_res mbind] in X; [|discriminate].
      destruct (u_delete K brk (b_data b) _) eqn:Y; cbn [mbind] in X; try discriminate.
      apply (delete_overflows K brk (b_data b)) in Y as [Y _]; [|exact F].
      apply (in_bounds_small K) in Y as [Y _]; [|exact F]. cbn in Y. lia.
  - exfalso. pose proof F as [(a & c & R) _]. rewrite (in_bounds_halves _ _ _ _ _ R) in Ei. discriminate.
Qed.

(** Undo of an insert at an assigned position overflows exactly if the position
    after the text does not fit. *)
Lemma undo_when K brk al b f p d os b' f' : 1 <= K -> u_reached K brk b f -> alloc_ok al -> valid_text d ->
  b_group b = None -> u_brun K brk [(al, BCursor p); (al, BInsert d)] b f = MOk (os, b', f') ->
  u_bexec K brk al BUndo b' f' = MOverflow <->
  2 * K + 1 < line p + length (lines_of d) \/
  (length (lines_of d) = 1 /\ 2 * K + 1 < offset p + length (graphemes brk d)).
Proof.
  intros HK Hr Ha V Hg E. pose proof (reached_fits _ _ _ _ HK Hr) as F. rewrite lines_count.
  cbn [u_brun u_bexec bexec of_res mbind] in E. unfold u_buf_insert in E. cbn [u_op_run b_data set_cursor b_cursor c_pos] in E.
  destruct (u_insert_ok K brk al (b_data b) d p Ha V F) as [X|[X Fg]]; rewrite X in E; [discriminate|].
  destruct (gb_insert brk al (b_data b) d p) as [g|]; [|discriminate]. specialize (Fg _ eq_refl).
  cbn [of_res mbind] in E. unfold store in E. cbn [notify set_data set_cursor b_group] in E. rewrite Hg in E.
  injection E as _ <- <-. cbn [u_bexec]. unfold u_buf_undo. cbn [set_history b_group set_group b_history].
  change (b_group (notify _ _)) with (b_group b). rewrite Hg.
  cbn [hist_previous h_previous hist_add set_history u_op_reverse b_data notify set_data].
  change (b_data (set_group _ _)) with g.
  unfold u_insert_end. destruct (le_lt_dec (line p + (count_lf d + 1)) (2 * K + 1)) as [H1|H1].
  2:{ split; [intros _; now left|intros _]. unfold uadd at 1. destruct (_ <=? _); [|reflexivity]. cbn [mbind].
      rewrite uadd_over by lia. reflexivity. }
  rewrite uadd_ok by lia. cbn [mbind]. rewrite uadd_ok by lia. cbn [mbind].
  unfold usub. rewrite (proj2 (Nat.leb_le _ _)) by lia. cbn [of_res mbind].
  assert (D : forall o, u_delete K brk g (range_new p (Pos (line p + (count_lf d + 1) - 1) o)) <> MOverflow).
  { intros o. rewrite u_delete_ok; [apply of_res_not_over|exact Fg|]. apply range_new_line; cbn [line]; lia. }
  destruct (Nat.eqb_spec (count_lf d + 1) 1) as [H2|H2].
  - destruct (le_lt_dec (offset p + length (graphemes brk d)) (2 * K + 1)) as [H3|H3].
    + rewrite uadd_ok by lia. cbn [mbind]. specialize (D (offset p + length (graphemes brk d))).
      destruct (u_delete K brk g _); cbn [mbind]; split; try discriminate; try lia. now contradiction D.
    + rewrite uadd_over by lia. cbn [mbind]. split; [intros _; right; now split|reflexivity].
  - split; [|lia]. destruct (last_line d) as [l|]; cbn [mbind]; [|discriminate]. specialize (D (length (graphemes brk l))).
    destruct (u_delete K brk g _); cbn [mbind]; try discriminate. now contradiction D.
Qed.
