(** Proofs about clones and callbacks after the whole text has been replaced. *)
From Verif Require Import Base Utf8 Utf8Proofs Grapheme Position GapBuffer Cursor PathModel Buffer
  ClusterSpec GraphemeProofs GapBufferProofs Spec Calls TextProofs UaxProofs HalvesProofs
  TextFacts GapProps CursorSpec CursorCalls CursorProofs BufferCalls Timeline OpProofs TimelineProofs
  AnyTextProofs Shared SharedSpec SharedProofs AttachSpec.

Lemma has_replace_not op : has_replace op = false <-> op_in_place op.
Proof.
  induction op as [d p|c r|s t|ops IH] using operation_induction; [cbn; easy..|].
  rewrite op_in_place_group. cbn [has_replace]. induction ops as [|o ops IHo]; [easy|].
  inversion_clear IH as [|? ? IH1 IH2]. cbn [existsb]. rewrite Bool.orb_false_iff, Forall_cons_iff. rewrite IH1.
  now rewrite <- IHo.
Qed.

Lemma nth_firstn {A} (l : list A) : forall i j, i < j -> nth_error (firstn j l) i = nth_error l i.
Proof. induction l as [|x l IH]; intros [|i] [|j] H; cbn; try reflexivity; try lia. apply IH. lia. Qed.
Lemma nth_skipn {A} (l : list A) : forall i j, nth_error (skipn j l) i = nth_error l (j + i).
Proof. induction l as [|x l IH]; intros i [|j]; cbn; try reflexivity; [now destruct i|]. apply IH. Qed.

Section Attach.
Variable brk : brk_rule.

Lemma group_run al o ops b h op' b' h' : rop_run brk reader al (OpGroup (o :: ops)) b h = Ok ((op', b'), h') ->
  exists o' b1 h1 x, rop_run brk reader al o b h = Ok ((o', b1), h1) /\
    rop_run brk reader al (OpGroup ops) b1 h1 = Ok ((x, b'), h').
Proof.
  cbn [rop_run]. set (go := fix go (ops : list operation) (b : rbuffer) : M (list operation * rbuffer) := _).
  intros E. change (go (o :: ops) b) with (let! (o', b1) := rop_run brk reader al o b in
    let! (rest', b2) := go ops b1 in ret (o' :: rest', b2)) in E. revert E.
  unfold mbind. destruct (rop_run brk reader al o b h) as [[[o' b1] h1]|] eqn:E1; cbn [bind]; [|discriminate].
  destruct (go ops b1 h1) as [[[ops' b2] h2]|] eqn:E2; cbn [bind ret]; [|discriminate].
  intros [= _ <- <-]. exists o', b1, h1, (OpGroup ops'). split; [reflexivity|]. now rewrite E2.
Qed.
Lemma group_reverse al o ops b h b' h' : rop_reverse brk reader al (OpGroup (o :: ops)) b h = Ok (b', h') ->
  exists b1 h1, rop_reverse brk reader al (OpGroup ops) b h = Ok (b1, h1) /\ rop_reverse brk reader al o b1 h1 = Ok (b', h').
Proof.
  cbn [rop_reverse]. set (go := fix go (ops : list operation) (b : rbuffer) : M rbuffer := _).
  unfold go at 1; fold go. unfold mbind. destruct (go ops b h) as [[b1 h1]|]; cbn [bind]; [|discriminate].
  intros E. now exists b1, h1.
Qed.

Lemma run_after al op h b v op' b' h' : alloc_ok al -> op_valid op -> sound h -> placed h b -> seen h b = Some v ->
  rop_run brk reader al op b h = Ok ((op', b'), h') -> exists v', after h b h' b' v'.
Proof.
  intros Hal Hv S P V E. pose proof (op_run_sim brk al op Hal Hv h b v S P V) as X.
  destruct (op_run brk al op v) as [[o' v']|]; [|congruence].
  destruct X as (b1 & h1 & E1 & A). rewrite E in E1. injection E1 as <- <- <-. now exists v'.
Qed.
Lemma reverse_after al op h b v b' h' : alloc_ok al -> op_valid op -> sound h -> placed h b -> seen h b = Some v ->
  rop_reverse brk reader al op b h = Ok (b', h') -> exists v', after h b h' b' v'.
Proof.
  intros Hal Hv S P V E. pose proof (op_reverse_sim brk al op Hal Hv h b v S P V) as X.
  destruct (op_reverse brk al op v) as [v'|]; [|congruence].
  destruct X as (b1 & h1 & E1 & A). rewrite E in E1. injection E1 as <- <-. now exists v'.
Qed.

Lemma leaves_on h b h1 b1 h2 b2 : evolves h b h1 b1 -> evolves h1 b1 h2 b2 ->
  length h <= rb_data b1 -> length h <= rb_data b2.
Proof. intros [A1 _ _ _ _ _] [_ _ _ [[-> _]|[B _]] _ _] L; lia. Qed.
Lemma leaves_later h b h1 b1 h2 b2 : evolves h b h1 b1 -> evolves h1 b1 h2 b2 ->
  length h1 <= rb_data b2 -> length h <= rb_data b2.
Proof. intros [A1 _ _ _ _ _] _ L; lia. Qed.

Lemma run_leaves al op : alloc_ok al -> op_valid op -> has_replace op = true -> forall h b v op' b' h',
  sound h -> placed h b -> seen h b = Some v ->
  rop_run brk reader al op b h = Ok ((op', b'), h') -> length h <= rb_data b'.
Proof.
  intros Hal. induction op as [d p|c r|s t|ops IH] using operation_induction; intros Hv Hr h b v op' b' h' S P V E;
    [discriminate..| |].
  - destruct Hv as [Vs Vt]. cbn [rop_run] in E. unfold mbind in E.
    destruct (rreplace_content_sim brk al t h b v S P V Vt) as (b1 & h1 & v1 & B1 & _ & _ & _ & _ & _ & D & _).
    rewrite B1 in E. injection E as _ <- _. lia.
  - apply op_valid_group in Hv. cbn [has_replace] in Hr.
    revert h b v op' b' h' S P V E. induction ops as [|o ops IHo]; [discriminate|]. intros h b v op' b' h' S P V E.
    inversion_clear IH as [|? ? IH1 IH2]. inversion_clear Hv as [|? ? V1 V2]. cbn [existsb] in Hr.
    destruct (group_run _ _ _ _ _ _ _ _ E) as (o' & b1 & h1 & x & E1 & E2).
    destruct (run_after al o h b v _ _ _ Hal V1 S P V E1) as (v1 & [A1 A2 A3 A4]).
    destruct (run_after al (OpGroup ops) h1 b1 v1 _ _ _ Hal ltac:(now apply op_valid_group) A2 A3 A1 E2) as (v2 & [_ _ _ B4]).
    destruct (has_replace o) eqn:Ho.
    + eapply leaves_on; [eassumption..|]. now apply (IH1 V1 eq_refl h b v o' b1 h1).
    + eapply leaves_later; [eassumption..|]. now apply (IHo IH2 V2 Hr h1 b1 v1 x b' h').
Qed.
Lemma reverse_leaves al op : alloc_ok al -> op_valid op -> has_replace op = true -> forall h b v b' h',
  sound h -> placed h b -> seen h b = Some v ->
  rop_reverse brk reader al op b h = Ok (b', h') -> length h <= rb_data b'.
Proof.
  intros Hal. induction op as [d p|c r|s t|ops IH] using operation_induction; intros Hv Hr h b v b' h' S P V E;
    [discriminate..| |].
  - destruct Hv as [Vs Vt]. cbn [rop_reverse] in E.
    destruct (rreplace_content_sim brk al s h b v S P V Vs) as (b1 & h1 & v1 & B1 & _ & _ & _ & _ & _ & D & _).
    rewrite B1 in E. injection E as <- _. lia.
  - apply op_valid_group in Hv. cbn [has_replace] in Hr.
    revert h b v b' h' S P V E. induction ops as [|o ops IHo]; [discriminate|]. intros h b v b' h' S P V E.
    inversion_clear IH as [|? ? IH1 IH2]. inversion_clear Hv as [|? ? V1 V2]. cbn [existsb] in Hr.
    destruct (group_reverse _ _ _ _ _ _ _ E) as (b1 & h1 & E1 & E2).
    destruct (reverse_after al (OpGroup ops) h b v _ _ Hal ltac:(now apply op_valid_group) S P V E1) as (v1 & [A1 A2 A3 A4]).
    destruct (reverse_after al o h1 b1 v1 _ _ Hal V1 A2 A3 A1 E2) as (v2 & [_ _ _ B4]).
    destruct (has_replace o) eqn:Ho.
    + eapply leaves_later; [eassumption..|]. now apply (IH1 V1 eq_refl h1 b1 v1 b' h').
    + eapply leaves_on; [eassumption..|]. now apply (IHo IH2 V2 Hr h b v b1 h1).
Qed.

(** [replace] and [reload]. *)
Lemma replace_leaves al s h b v b' h' : sound h -> placed h b -> seen h b = Some v -> valid_text s ->
  rreplace brk reader al b s h = Ok (b', h') ->
  (buf_data v = Ok s /\ b' = b /\ h' = h) \/
  (buf_data v <> Ok s /\ rb_data b' = length h /\ (forall r, r < length h -> nth_error h' r = nth_error h r) /\
   (forall r, rb_callback b = Some r -> exists t, text_at h r = Ok t /\ rb_log b' = rb_log b ++ [(Pos 0 0, t)])).
Proof.
  intros S P V Vs. unfold rreplace, mbind. rewrite (rdata_sim _ _ _ S P V).
  destruct (buf_data v) as [t|] eqn:Et; [|discriminate]. cbn [bind].
  destruct (list_N_eqb s t) eqn:Eq.
  - intros [= <- <-]. left. apply list_N_eqb_eq in Eq. now subst.
  - rewrite (rdata_sim _ _ _ S P V), Et. cbn [bind rop_run]. unfold mbind.
    destruct (rreplace_content_sim brk al s h b v S P V Vs) as (b1 & h1 & v1 & B1 & _ & _ & _ & _ & _ & D & F & T).
    rewrite B1. cbn [bind ret]. intros [= <- <-]. right.
    split. { intros [= ->]. rewrite list_N_eqb_refl in Eq. discriminate. }
    destruct (store_refs b1 (OpReplace t s)) as (-> & _ & _ & ->). auto.
Qed.

Lemma undo_place al h b v b' h' : alloc_ok al -> sound h -> placed h b -> seen h b = Some v -> wfb v ->
  rundo brk reader al b h = Ok (b', h') ->
  match to_undo v with
  | Some op => if has_replace op then length h <= rb_data b' else rb_data b' = rb_data b
  | None => rb_data b' = rb_data b
  end.
Proof.
  intros Hal S P V W E. destruct (seen_inv _ _ _ V) as (_ & _ & _ & Eh & Eg & _).
  assert (Run : forall op b1 v1, op_valid op -> same_refs b b1 -> seen h b1 = Some v1 ->
    rop_reverse brk reader al op b1 h = Ok (b', h') ->
    if has_replace op then length h <= rb_data b' else rb_data b' = rb_data b).
  { intros op b1 v1 Hv R V1 Er. destruct (has_replace op) eqn:Ho.
    - exact (reverse_leaves al op Hal Hv Ho h b1 v1 b' h' S (placed_same _ _ _ R P) V1 Er).
    - rewrite <- (proj1 R). eapply rop_reverse_data; [|eassumption]. now apply has_replace_not. }
  unfold rundo in E. unfold to_undo. rewrite Eg, Eh. cbn [rb_history rset_group] in E. unfold hist_previous in E.
  assert (Fin : (let '(op, b1) := (let '(op, x) := match h_previous (rb_history b) with
        | op :: rest => (Some op, Hist rest (op :: h_next (rb_history b)) (h_mark (rb_history b)))
        | [] => (None, rb_history b) end in
        (op, rset_history (rset_group b None) x)) in
      match op with Some op => rop_reverse brk reader al op b1 | None => ret b1 end) h = Ok (b', h') ->
    match hd_error (h_previous (rb_history b)) with
    | Some op => if has_replace op then length h <= rb_data b' else rb_data b' = rb_data b
    | None => rb_data b' = rb_data b
    end).
  { pose proof (wfb_prev _ W) as F. rewrite Eh in F. destruct (h_previous (rb_history b)) as [|o l]; cbn [hd_error].
    - now intros [= <- _].
    - inversion_clear F. refine (Run o _ _ _ _ (seen_history _ _ _ _ (seen_group _ _ _ None V))); [assumption|now repeat split]. }
  destruct (rb_group b) as [[|o ops]|] eqn:Er.
  - apply Fin. rewrite <- E. now destruct (h_previous (rb_history b)).
  - refine (Run _ _ _ _ _ (seen_group _ _ _ None V) E); [|now repeat split].
    pose proof (wfb_group _ W) as G. rewrite Eg in G. now apply op_valid_group.
  - apply Fin. rewrite <- E. now destruct (h_previous (rb_history b)).
Qed.
Lemma redo_place al h b v b' h' : alloc_ok al -> sound h -> placed h b -> seen h b = Some v -> wfb v ->
  rredo brk reader al b h = Ok (b', h') ->
  match to_redo v with
  | Some op => if has_replace op then length h <= rb_data b' else rb_data b' = rb_data b
  | None => rb_data b' = rb_data b
  end.
Proof.
  intros Hal S P V W E. destruct (seen_inv _ _ _ V) as (_ & _ & _ & Eh & Eg & _).
  unfold rredo in E. unfold to_redo. rewrite Eh. unfold hist_next in E.
  pose proof (wfb_next _ W) as F. rewrite Eh in F. destruct (h_next (rb_history b)) as [|op l]; cbn [hd_error].
  - now injection E as <- _.
  - inversion_clear F as [|? ? Hv _]. unfold mbind in E.
    set (b1 := rset_history b _) in E. assert (R : same_refs b b1) by now repeat split.
    destruct (rop_run brk reader al op b1 h) as [[[op' b2] h2]|] eqn:Er; [|discriminate]. injection E as <- _.
    destruct (has_replace op) eqn:Ho.
    + exact (run_leaves al op Hal Hv Ho h b1 _ op' b2 h2 S (placed_same _ _ _ R P) (seen_history _ _ _ _ V) Er).
    + rewrite <- (proj1 R). eapply rop_run_data; [|eassumption]. now apply has_replace_not.
Qed.

Lemma place_dec (x : option operation) (P Q : Prop) :
  match x with Some op => if has_replace op then P else Q | None => Q end ->
  ((exists op, x = Some op /\ has_replace op = true) -> P) /\ (~ (exists op, x = Some op /\ has_replace op = true) -> Q).
Proof.
  intros H. destruct x as [op|]; [destruct (has_replace op) eqn:E|]; split; intros H'; try assumption.
  - exfalso. apply H'. now exists op.
  - destruct H' as (? & [= <-] & ?). congruence.
  - now destruct H' as (? & ? & _).
Qed.

Lemma pbuffer_place al c f h b v o b' f' h' : alloc_ok al -> call_ok c -> sound h -> placed h b -> seen h b = Some v ->
  wfb v -> pbuffer brk reader al c b f h = Ok ((o, b', f'), h') ->
  (replaces (PBuffer c) v f -> length h <= rb_data b') /\ (~ replaces (PBuffer c) v f -> rb_data b' = rb_data b).
Proof.
  intros Hal Hc S P V W E. destruct (seen_inv _ _ _ V) as (_ & Ep & _).
  destruct (match c with BUndo | BRedo | BReplace _ | BReload => true | _ => false end) eqn:K.
  - destruct c; try discriminate; cbn [pbuffer replaces call_ok] in *; unfold mbind in E.
    + destruct (rreplace brk reader al b content h) as [[b1 h1]|] eqn:Er; [|discriminate]. injection E as _ <- _ _.
      destruct (replace_leaves al content h b v b1 h1 S P V Hc Er) as [(D & -> & _)|(D & L & _)].
      * split; [easy|reflexivity].
      * split; [lia|easy].
    + destruct (rundo brk reader al b h) as [[b1 h1]|] eqn:Er; [|discriminate]. injection E as _ <- _ _.
      apply place_dec, (undo_place al h b v b1 h1); assumption.
    + destruct (rredo brk reader al b h) as [[b1 h1]|] eqn:Er; [|discriminate]. injection E as _ <- _ _.
      apply place_dec, (redo_place al h b v b1 h1); assumption.
    + unfold rreload in E. rewrite Ep. destruct (rb_path b) as [q|].
      2:{ injection E as _ <- _ _. split; [|reflexivity]. now intros (? & ? & ? & _). }
      destruct (read_to_string f q) as [s|] eqn:Ef.
      2:{ injection E as _ <- _ _. split; [|reflexivity]. intros (? & ? & [= <-] & ? & _). congruence. }
      unfold mbind in E. destruct (rreplace brk reader al b s h) as [[b1 h1]|] eqn:Er; [|discriminate]. injection E as _ <- _ _.
      assert (Vs : valid_text s).
      { unfold read_to_string in Ef. destruct (fs_read f q); [|discriminate]. now apply decode_strict_valid in Ef as [? _]. }
      cbn [rb_data rset_history].
      destruct (replace_leaves al s h b v b1 h1 S P V Vs Er) as [(D & -> & _)|(D & L & _)].
      * split; [|reflexivity]. intros (? & ? & [= <-] & E2 & N). rewrite Ef in E2. injection E2 as <-. easy.
      * split; [lia|]. intros N. exfalso. apply N. now exists q, s.
  - assert (R : ~ replaces (PBuffer c) v f) by (destruct c; easy). split; [easy|]. intros _.
    assert (Edit : forall op h x, op_in_place op ->
      mbind (rop_run brk reader al op b) (fun '(op', b') => ret (rstore b' op')) h = Ok x -> rb_data (fst x) = rb_data b).
    { intros op h0 [b1 h1] Hop Ex. unfold mbind in Ex. destruct (rop_run brk reader al op b h0) as [[[op' b2] h2]|] eqn:Er; [|discriminate].
      injection Ex as <- _. cbn. rewrite (proj1 (store_refs b2 op')). eapply rop_run_data; eassumption. }
    destruct c; try discriminate; cbn [pbuffer] in *; try unfold mbind at 1 in E; try (now injection E as _ <- _ _).
    + destruct (rinsert brk reader al b data h) as [[b1 h1]|] eqn:Ex; [|discriminate]. injection E as _ <- _ _.
      unfold rinsert in Ex. apply (Edit (OpInsert data (c_pos (rc_at (rb_cursor b)))) _ _ I Ex).
    + destruct (rdelete brk reader al b h) as [[b1 h1]|] eqn:Ex; [|discriminate]. injection E as _ <- _ _.
      unfold rdelete in Ex. unfold mbind at 1 in Ex. destruct (reading _ _ h) as [[k h2]|]; [|discriminate].
      cbn [bind] in Ex. unfold rdelete_range in Ex.
      set (r := range_new _ _) in Ex. apply (Edit (OpDelete None r) _ _ I Ex).
    + destruct (rdelete_range brk reader al b (range_new p q) h) as [[b1 h1]|] eqn:Ex; [|discriminate]. injection E as _ <- _ _.
      apply (Edit (OpDelete None (range_new p q)) _ _ I Ex).
    + unfold rstart_group in E. injection E as _ <- _ _. now destruct (rb_group b).
    + unfold rend_group in E. injection E as _ <- _ _. now destruct (rb_group b) as [[|]|].
    + destruct (rmove brk m (rb_cursor b) h) as [[k h1]|]; [|discriminate]. now injection E as _ <- _ _.
    + destruct (rsave f w b h) as [[[[r b1] f1] h1]|] eqn:Ex; [|discriminate]. injection E as _ <- _ _.
      unfold rsave in Ex. destruct (rb_path b); [|now injection Ex as _ <- _ _].
      destruct (outcome _ _ w); [now injection Ex as _ <- _ _|..]; unfold mbind in Ex;
        (destruct (rdata b h) as [[d h2]|]; [|discriminate]); now injection Ex as _ <- _ _.
Qed.

(** One call of an ordinary program. *)
Lemma cursors_kept al c p o p' i k : ordinary c -> inv p -> pexec brk al c p = Ok (o, p') ->
  nth_error (pr_cursors p) i = Some k ->
  exists k', nth_error (pr_cursors p') i = Some k' /\ rc_data k' = rc_data k.
Proof.
  intros Ho I0 E Ek. assert (Li : i < length (pr_cursors p)) by (apply nth_error_Some; congruence).
  destruct p as [b ks h f]. destruct c as [c| |j m|j|j c]; cbn [pexec pr_buffer pr_cursors pr_heap pr_disk] in *.
  - destruct (pbuffer brk reader al c b f h) as [[[[o1 b1] f1] h1]|]; [|discriminate]. injection E as _ <-. now exists k.
  - injection E as _ <-. cbn. rewrite nth_error_app1 by assumption. now exists k.
  - destruct (nth_error ks j) as [kj|] eqn:Ej; [|injection E as _ <-; now exists k].
    pose proof (proj1 (Forall_forall _ _) (inv_clones _ I0) kj (nth_error_In _ _ Ej)) as Lk. cbn in Lk.
    destruct (rmove_any brk m kj h (inv_sound _ I0) Lk) as (g & c' & _ & _ & Er). rewrite Er in E. injection E as _ <-.
    cbn [pr_cursors]. assert (Lj : j < length ks) by (apply nth_error_Some; congruence).
    destruct (Nat.lt_trichotomy i j) as [L|[L|L]].
    + rewrite nth_error_app1 by (rewrite firstn_length_le; lia). rewrite nth_firstn by assumption. now exists k.
    + subst j. rewrite nth_error_app2; rewrite firstn_length_le by lia; [|lia]. rewrite Nat.sub_diag. eexists. split; [reflexivity|].
      cbn. congruence.
    + rewrite nth_error_app2; rewrite firstn_length_le by lia; [|lia].
      replace (i - j) with (S (i - (j + 1))) by lia. cbn [nth_error]. rewrite nth_skipn.
      replace (j + 1 + (i - (j + 1))) with i by lia. now exists k.
  - easy.
  - destruct (nth_error ks j) as [kj|] eqn:Ej; [|injection E as _ <-; now exists k].
    destruct (pstorage brk al c (rc_data kj) h) as [[o1 h1]|]; [|discriminate]. injection E as _ <-. now exists k.
Qed.

Lemma step_frame al c p v o p' : reaches brk ordinary p -> buffer_of p = Some v -> alloc_ok al -> pcall_ok c -> ordinary c ->
  pexec brk al c p = Ok (o, p') ->
  length (pr_heap p) <= length (pr_heap p') /\
  (forall r, r < length (pr_heap p) -> ~ attached p r -> nth_error (pr_heap p') r = nth_error (pr_heap p) r) /\
  (forall r, r < length (pr_heap p) -> attached p' r <-> attached p r /\ ~ replaces c v (pr_disk p)).
Proof.
  intros R V Ha Hc Ho E. pose proof (runs_inv brk _ _ R) as I0. pose proof (proj1 (ordinary_run brk _ R)) as T.
  destruct (inv_view _ I0) as (v' & V' & W). rewrite V in V'. injection V' as <-.
  pose proof (pexec_ordinary brk al c p v Ha Hc Ho I0 T V) as X.
  assert (Aside : forall ks, (forall k, c <> PBuffer k) -> p' = Prog (pr_buffer p) ks (pr_heap p) (pr_disk p) ->
    length (pr_heap p) <= length (pr_heap p') /\
    (forall r, r < length (pr_heap p) -> ~ attached p r -> nth_error (pr_heap p') r = nth_error (pr_heap p) r) /\
    (forall r, r < length (pr_heap p) -> attached p' r <-> attached p r /\ ~ replaces c v (pr_disk p))).
  { intros ks N ->. cbn. split; [auto|]. split; [auto|]. intros r _. unfold attached. cbn. split; [|tauto].
    intros ->. split; [reflexivity|]. destruct c; cbn; try tauto. now destruct (N c). }
  destruct c as [c| |i m|i|i c]; [|destruct X as (o' & ks & E' & _); rewrite E in E'; injection E' as -> ->; eapply Aside; [discriminate|reflexivity]..].
  destruct (bexec brk al c v (pr_disk p)) as [[[o' v'] f']|]; [|congruence].
  destruct X as (b' & h' & E' & V' & A). rewrite E in E'. injection E' as -> ->. cbn [pr_heap pr_buffer].
  assert (Ep : pbuffer brk reader al c (pr_buffer p) (pr_disk p) (pr_heap p) = Ok ((o', b', f'), h')).
  { cbn [pexec] in E. destruct (pbuffer brk reader al c _ _ _) as [[[[o1 b1] f1] h1]|]; [|discriminate].
    cbn [bind] in E. injection E as -> -> -> ->. reflexivity. }
  destruct (pbuffer_place al c _ _ _ v _ _ _ _ Ha Hc (inv_sound _ I0) (inv_placed _ I0) V W Ep) as [P1 P2].
  assert (Ev : length (pr_heap p) <= length h' /\
    (forall r, r < length (pr_heap p) -> ~ attached p r -> nth_error h' r = nth_error (pr_heap p) r)).
  { assert (Y : after (pr_heap p) (pr_buffer p) h' b' v' -> length (pr_heap p) <= length h' /\
      (forall r, r < length (pr_heap p) -> ~ attached p r -> nth_error h' r = nth_error (pr_heap p) r)).
    { intros [_ _ _ [Y1 Y2 _ _ _ _]]. split; [assumption|]. intros r Hr Hn. now apply Y2. }
    destruct c; try exact (Y A). destruct A as (-> & _ & _). auto. }
  split; [apply Ev|]. split; [apply Ev|]. intros r Hr. unfold attached. cbn [pr_buffer]. split.
  - intros ->. assert (N : ~ replaces (PBuffer c) v (pr_disk p)) by (intros N; apply P1 in N; lia).
    split; [now apply P2|assumption].
  - intros [-> N]. symmetry. now apply P2.
Qed.

Lemma follows_exactly al c p v o p' i k : reaches brk ordinary p -> buffer_of p = Some v -> alloc_ok al ->
  pcall_ok c -> ordinary c -> pexec brk al c p = Ok (o, p') -> nth_error (pr_cursors p) i = Some k ->
  exists k', nth_error (pr_cursors p') i = Some k' /\
    (attached p' (rc_data k') <-> attached p (rc_data k) /\ ~ replaces c v (pr_disk p)).
Proof.
  intros R V Ha Hc Ho E Ek. pose proof (runs_inv brk _ _ R) as I0.
  destruct (cursors_kept al c p o p' i k Ho I0 E Ek) as (k' & Ek' & D). exists k'. split; [assumption|]. rewrite D.
  apply (step_frame al c p v o p'); try assumption.
  exact (proj1 (Forall_forall _ _) (inv_clones _ I0) k (nth_error_In _ _ Ek)).
Qed.

Lemma clone_in p i k m al : reaches brk ordinary p -> nth_error (pr_cursors p) i = Some k ->
  exists g k' p', nth_error (pr_heap p) (rc_data k) = Some (Cell g Free) /\
    pexec brk al (PMove i m) p = Ok (PUnit, p') /\ nth_error (pr_cursors p') i = Some k' /\
    cexec brk g m (rc_at k) = Ok (rc_at k') /\ buffer_of p' = buffer_of p.
Proof.
  intros R Ek. pose proof (runs_inv brk _ _ R) as I0.
  pose proof (proj1 (Forall_forall _ _) (inv_clones _ I0) k (nth_error_In _ _ Ek)) as Lk. cbn in Lk.
  destruct (rmove_any brk m k (pr_heap p) (inv_sound _ I0) Lk) as (g & c' & E & Ec & Er).
  exists g. eexists _, _. cbn [pexec]. rewrite Ek, Er. cbn [bind]. split; [assumption|]. split; [reflexivity|]. cbn [pr_cursors].
  assert (Li : i < length (pr_cursors p)) by (apply nth_error_Some; congruence).
  split.
  { rewrite nth_error_app2; rewrite firstn_length_le by lia; [|lia]. rewrite Nat.sub_diag. reflexivity. }
  cbn [rc_at on]. now split.
Qed.

Lemma attached_moves p v i k m al : reaches brk ordinary p -> buffer_of p = Some v ->
  nth_error (pr_cursors p) i = Some k -> attached p (rc_data k) ->
  exists k' p', pexec brk al (PMove i m) p = Ok (PUnit, p') /\ nth_error (pr_cursors p') i = Some k' /\
    cexec brk (b_data v) m (rc_at k) = Ok (rc_at k') /\ buffer_of p' = Some v.
Proof.
  intros R V Ek A. destruct (clone_in p i k m al R Ek) as (g & k' & p' & G & E & E' & C & B).
  exists k', p'. split; [assumption|]. split; [assumption|]. split; [|congruence]. rewrite A in G.
  now rewrite (seen_data _ _ _ _ V G).
Qed.

Lemma reaches_more p cs os p' : reaches brk ordinary p ->
  Forall (fun ac => alloc_ok (fst ac) /\ pcall_ok (snd ac) /\ ordinary (snd ac)) cs ->
  prun brk cs p = Ok (os, p') -> reaches brk ordinary p'.
Proof.
  intros (f & p0 & cs0 & os0 & H0 & F0 & E0) F E. exists f, p0, (cs0 ++ cs), (os0 ++ os).
  split; [assumption|]. split; [now apply Forall_app|]. clear H0 F0 F. revert p0 os0 E0.
  induction cs0 as [|[al c] cs0 IH]; intros p0 os0 E0; cbn [prun app] in *.
  - now injection E0 as <- <-.
  - destruct (pexec brk al c p0) as [[o p1]|]; [|discriminate]. cbn [bind] in *.
    destruct (prun brk cs0 p1) as [[os1 p2]|] eqn:E1; [|discriminate]. cbn [bind] in E0. injection E0 as <- ->.
    now rewrite (IH p1 os1 E1).
Qed.

Lemma frozen cs : forall p os p' r, reaches brk ordinary p ->
  Forall (fun ac => alloc_ok (fst ac) /\ pcall_ok (snd ac) /\ ordinary (snd ac)) cs ->
  prun brk cs p = Ok (os, p') -> r < length (pr_heap p) -> ~ attached p r ->
  length (pr_heap p) <= length (pr_heap p') /\ ~ attached p' r /\ nth_error (pr_heap p') r = nth_error (pr_heap p) r /\
  (forall i k, nth_error (pr_cursors p) i = Some k -> rc_data k = r ->
    exists k', nth_error (pr_cursors p') i = Some k' /\ rc_data k' = r).
Proof.
  induction cs as [|[al c] cs IH]; intros p os p' r R F E Lr N; cbn [prun] in E.
  - injection E as _ <-. split; [auto|]. split; [assumption|]. split; [reflexivity|]. intros i k Ek D. now exists k.
  - pose proof (Forall_inv F) as (Fa & Fc & Fo). apply Forall_inv_tail in F. cbn [fst snd] in *.
    destruct (pexec brk al c p) as [[o p1]|] eqn:E1; [|discriminate]. cbn [bind] in E.
    destruct (prun brk cs p1) as [[os2 p2]|] eqn:E2; [|discriminate]. injection E as _ <-.
    pose proof (runs_inv brk _ _ R) as I0. destruct (inv_view _ I0) as (v & V & _).
    destruct (step_frame al c p v o p1 R V Fa Fc Fo E1) as (S1 & S2 & S3).
    assert (R1 : reaches brk ordinary p1).
    { apply (reaches_more p [(al, c)] [o]); [assumption|now repeat constructor|]. cbn. now rewrite E1. }
    destruct (IH p1 os2 p2 r R1 F E2 ltac:(lia)) as (Q1 & Q2 & Q3 & Q4); [rewrite S3 by assumption; tauto|].
    split; [lia|]. split; [assumption|]. split; [now rewrite Q3, S2|].
    intros i k Ek D. destruct (cursors_kept al c p o p1 i k Fo I0 E1 Ek) as (k1 & Ek1 & D1).
    apply (Q4 i k1 Ek1). congruence.
Qed.

Lemma detached_moves p i k cs os p' : reaches brk ordinary p -> nth_error (pr_cursors p) i = Some k ->
  ~ attached p (rc_data k) ->
  Forall (fun ac => alloc_ok (fst ac) /\ pcall_ok (snd ac) /\ ordinary (snd ac)) cs -> prun brk cs p = Ok (os, p') ->
  exists g k', nth_error (pr_heap p) (rc_data k) = Some (Cell g Free) /\
    nth_error (pr_cursors p') i = Some k' /\ ~ attached p' (rc_data k') /\
    forall m al, exists k2 p2, pexec brk al (PMove i m) p' = Ok (PUnit, p2) /\
      nth_error (pr_cursors p2) i = Some k2 /\ cexec brk g m (rc_at k') = Ok (rc_at k2) /\ buffer_of p2 = buffer_of p'.
Proof.
  intros R Ek N F E. pose proof (runs_inv brk _ _ R) as I0.
  pose proof (proj1 (Forall_forall _ _) (inv_clones _ I0) k (nth_error_In _ _ Ek)) as Lk. cbn in Lk.
  destruct (frozen cs p os p' _ R F E Lk N) as (_ & Q2 & Q3 & Q4). destruct (Q4 i k Ek eq_refl) as (k' & Ek' & D).
  destruct (sound_nth _ _ (inv_sound _ I0) Lk) as (g & G & _). exists g, k'. split; [assumption|]. split; [assumption|].
  rewrite D. split; [assumption|]. intros m al.
  destruct (clone_in p' i k' m al (reaches_more _ _ _ _ R F E) Ek') as (g' & k2 & p2 & G' & E1 & E2 & C & B).
  rewrite D, Q3, G in G'. injection G' as <-. now exists k2, p2.
Qed.

(** What is left behind by [replace] and [reload]. *)
Lemma replaced_frame al c p v o p' : reaches brk ordinary p -> buffer_of p = Some v -> alloc_ok al -> call_ok c ->
  match c with BReplace _ | BReload => True | _ => False end -> replaces (PBuffer c) v (pr_disk p) ->
  pexec brk al (PBuffer c) p = Ok (o, p') ->
  (forall r, r < length (pr_heap p) -> nth_error (pr_heap p') r = nth_error (pr_heap p) r) /\
  (forall r, rb_callback (pr_buffer p) = Some r ->
     exists t, text_at (pr_heap p) r = Ok t /\ rb_log (pr_buffer p') = rb_log (pr_buffer p) ++ [(Pos 0 0, t)]).
Proof.
  intros R V Ha Hc K Hr E. pose proof (runs_inv brk _ _ R) as I0.
  destruct (seen_inv _ _ _ V) as (_ & Ep & _). cbn [pexec] in E.
  destruct c; try easy; cbn [pbuffer replaces call_ok] in *; unfold mbind in E.
  - destruct (rreplace brk reader al _ content _) as [[b1 h1]|] eqn:Er; [|discriminate]. injection E as _ <-. cbn.
    destruct (replace_leaves al _ _ _ v _ _ (inv_sound _ I0) (inv_placed _ I0) V Hc Er) as [(D & _)|(_ & _ & F & T)]; [easy|auto].
  - destruct Hr as (q & s & E1 & E2 & N). rewrite Ep in E1. unfold rreload in E. rewrite E1, E2 in E. unfold mbind in E.
    destruct (rreplace brk reader al _ s _) as [[b1 h1]|] eqn:Er; [|discriminate]. injection E as _ <-. cbn.
    assert (Vs : valid_text s).
    { unfold read_to_string in E2. destruct (fs_read (pr_disk p) q); [|discriminate]. now apply decode_strict_valid in E2 as [? _]. }
    destruct (replace_leaves al _ _ _ v _ _ (inv_sound _ I0) (inv_placed _ I0) V Vs Er) as [(D & _)|(_ & _ & F & T)]; [easy|auto].
Qed.
Lemma left_behind al c p v o p' r : reaches brk ordinary p -> buffer_of p = Some v -> alloc_ok al -> call_ok c ->
  match c with BReplace _ | BReload => True | _ => False end -> replaces (PBuffer c) v (pr_disk p) ->
  pexec brk al (PBuffer c) p = Ok (o, p') -> attached p r ->
  text_at (pr_heap p') r = ptext p /\ ~ attached p' r.
Proof.
  intros R V Ha Hc K Hr E A. pose proof (runs_inv brk _ _ R) as I0.
  assert (L : r < length (pr_heap p)) by (rewrite A; apply (inv_placed _ I0)).
  destruct (replaced_frame al c p v o p' R V Ha Hc K Hr E) as [F _].
  destruct (step_frame al (PBuffer c) p v o p' R V Ha Hc I E) as (_ & _ & X). split.
  - unfold ptext, text_at. now rewrite F, <- A by assumption.
  - rewrite X by assumption. tauto.
Qed.

(** Callbacks. *)
Lemma attached_sees p v al c o p' r : reaches brk ordinary p -> buffer_of p = Some v ->
  rb_callback (pr_buffer p) = Some r -> attached p r -> alloc_ok al -> call_ok c -> keeps_callback c ->
  ~ replaces (PBuffer c) v (pr_disk p) -> pexec brk al (PBuffer c) p = Ok (o, p') ->
  exists l, rb_log (pr_buffer p') = rb_log (pr_buffer p) ++ l /\
    match rev l with
    | [] => ptext p' = ptext p
    | (_, t) :: _ => ptext p' = Ok t
    end.
Proof.
  intros R V C A Ha Hc Hk N E. pose proof (runs_inv brk _ _ R) as I0. pose proof (proj1 (ordinary_run brk _ R)) as T.
  assert (L : r < length (pr_heap p)) by (rewrite A; apply (inv_placed _ I0)).
  destruct (step_frame al (PBuffer c) p v o p' R V Ha Hc I E) as (_ & _ & X0).
  assert (D : attached p' r) by (apply X0; tauto).
  pose proof (pexec_ordinary brk al (PBuffer c) p v Ha Hc I I0 T V) as X. cbn beta iota in X.
  destruct (bexec brk al c v (pr_disk p)) as [[[o' v'] f']|]; [|congruence].
  destruct X as (b' & h' & E' & V' & A0). rewrite E in E'. injection E' as -> ->.
  assert (A' : after (pr_heap p) (pr_buffer p) h' b' v') by (destruct c; exact A0 || easy).
  unfold attached in *. cbn [pr_buffer] in D. rewrite A in C.
  destruct (ev_told _ _ _ _ (af_evolves _ _ _ _ _ A') C ltac:(congruence)) as (l & El & Tl). exists l. split; [assumption|].
  unfold ptext. cbn [pr_heap pr_buffer]. replace (rb_data b') with (rb_data (pr_buffer p)) by congruence.
  destruct (rev l) as [|[q t] l']; [|assumption]. unfold text_at. now rewrite Tl.
Qed.
Lemma detached_sees p v al c o p' r : reaches brk ordinary p -> buffer_of p = Some v ->
  rb_callback (pr_buffer p) = Some r -> ~ attached p r -> alloc_ok al -> call_ok c -> keeps_callback c ->
  pexec brk al (PBuffer c) p = Ok (o, p') ->
  text_at (pr_heap p') r = text_at (pr_heap p) r /\ ~ attached p' r /\
  exists l, rb_log (pr_buffer p') = rb_log (pr_buffer p) ++ l /\ Forall (fun e => text_at (pr_heap p) r = Ok (snd e)) l.
Proof.
  intros R V C N Ha Hc Hk E. pose proof (runs_inv brk _ _ R) as I0. pose proof (proj1 (ordinary_run brk _ R)) as T.
  assert (L : r < length (pr_heap p)) by (destruct (inv_placed _ I0) as (_ & _ & X); now rewrite C in X).
  destruct (step_frame al (PBuffer c) p v o p' R V Ha Hc I E) as (_ & F & X0).
  split; [unfold text_at; now rewrite F|]. split; [rewrite X0 by assumption; tauto|].
  pose proof (pexec_ordinary brk al (PBuffer c) p v Ha Hc I I0 T V) as X. cbn beta iota in X.
  destruct (bexec brk al c v (pr_disk p)) as [[[o' v'] f']|]; [|congruence].
  destruct X as (b' & h' & E' & V' & A0). rewrite E in E'. injection E' as -> ->.
  assert (A' : after (pr_heap p) (pr_buffer p) h' b' v') by (destruct c; exact A0 || easy).
  exact (ev_aside _ _ _ _ (af_evolves _ _ _ _ _ A') r C L N).
Qed.
Lemma reads_old p v al c o p' r : reaches brk ordinary p -> buffer_of p = Some v -> rb_callback (pr_buffer p) = Some r ->
  alloc_ok al -> call_ok c -> match c with BReplace _ | BReload => True | _ => False end ->
  replaces (PBuffer c) v (pr_disk p) -> pexec brk al (PBuffer c) p = Ok (o, p') ->
  exists t, rb_log (pr_buffer p') = rb_log (pr_buffer p) ++ [(Pos 0 0, t)] /\
    text_at (pr_heap p) r = Ok t /\ (attached p r -> ptext p = Ok t) /\ ~ attached p' r.
Proof.
  intros R V C Ha Hc K Hr E. pose proof (runs_inv brk _ _ R) as I0.
  assert (L : r < length (pr_heap p)) by (destruct (inv_placed _ I0) as (_ & _ & X); now rewrite C in X).
  destruct (replaced_frame al c p v o p' R V Ha Hc K Hr E) as [_ T]. destruct (T r C) as (t & Et & El).
  destruct (step_frame al (PBuffer c) p v o p' R V Ha Hc I E) as (_ & _ & X).
  exists t. split; [assumption|]. split; [assumption|]. split; [now intros ->|]. rewrite X by assumption. tauto.
Qed.
Lemma new_clone p al : reaches brk ordinary p ->
  exists k p', pexec brk al PClone p = Ok (PUnit, p') /\ nth_error (pr_cursors p') (length (pr_cursors p)) = Some k /\
    attached p' (rc_data k) /\ rc_at k = rc_at (rb_cursor (pr_buffer p)).
Proof.
  intros R. pose proof (proj1 (ordinary_run brk _ R)) as T. eexists _, _. split; [reflexivity|]. cbn [pr_cursors].
  rewrite nth_error_app2, Nat.sub_diag by lia. split; [reflexivity|]. split; [exact T|reflexivity].
Qed.
End Attach.
