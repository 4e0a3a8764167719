(** Buffers follow their timeline. *)
From Verif Require Import Base Utf8 Utf8Proofs Grapheme GraphemeProofs Position GapBuffer
  GapBufferProofs Cursor PathModel Buffer Spec CursorSpec CursorCalls Calls TextProofs HalvesProofs TextFacts GapProps
  CursorProofs OpProofs BufferCalls Timeline.

(** ** New edits *)

Lemma new_insert brk t d p : plain_newlines brk t -> clean_call brk (GInsert d p) t ->
  op_ok brk (OpInsert d p) t (spec_insert brk t d p).
Proof.
  intros Hp (V & Hd & Hc). unfold spec_insert.
  destruct (split_at brk t p) as [[a b]|] eqn:E; [|now constructor].
  pose proof (split_at_app _ _ _ _ _ E) as ->. now constructor.
Qed.

Lemma new_delete brk t p q : valid_text t -> plain_newlines brk t -> clean_call brk (GDelete p q) t ->
  exists_at brk t (second_of p q) = true \/ spec_delete brk t p q = t ->
  op_ok brk (OpDelete (spec_read brk t p q) (range_new p q)) t (spec_delete brk t p q).
Proof.
  intros V Hp Hc Hor.
  destruct (split_at brk t (first_of p q)) as [[a r]|] eqn:E1.
  - destruct (split_at brk t (second_of p q)) as [[a' b]|] eqn:E2.
    + destruct (split_at_mono _ _ _ _ _ _ _ _ Hp E1 E2 (first_second_ple p q)) as (m & -> & -> & S1 & S2).
      rewrite (spec_read_mid _ _ _ _ _ _ _ E1 E2). unfold spec_delete.
      cbn [clean_call] in Hc. rewrite (spec_cut_mid _ _ _ _ _ _ _ E1 E2) in *.
      pose proof (split_at_app _ _ _ _ _ E1) as ->. constructor; try assumption.
      apply valid_app in V as [_ V]. apply valid_app in V. tauto.
    + assert (Er : spec_read brk t p q = None) by (unfold spec_read; now rewrite E1, E2).
      rewrite Er. destruct Hor as [Hor|Hor].
      * unfold exists_at in Hor. rewrite E2 in Hor. discriminate.
      * rewrite Hor. now constructor.
  - assert (Er : spec_read brk t p q = None) by (unfold spec_read; now rewrite E1).
    assert (Ed : spec_delete brk t p q = t) by (unfold spec_delete, spec_cut; now rewrite E1).
    rewrite Er, Ed. now constructor.
Qed.

(** [delete] never has a missing end that matters. *)
Lemma char_end_ok brk t p : plain_newlines brk t ->
  exists_at brk t (second_of p (char_end brk t p)) = true \/ spec_delete brk t p (char_end brk t p) = t.
Proof.
  intros Hp.
  assert (L : ple p (char_end brk t p)).
  { unfold char_end. destruct (exists_at _ _ _); apply ple_spec; cbn [line offset]; lia. }
  destruct (first_of_le _ _ L) as [F1 F2]. rewrite F2.
  destruct (exists_at brk t (char_end brk t p)) eqn:E; [now left|right].
  unfold spec_delete, spec_cut. rewrite F1, F2.
  destruct (split_at brk t p) as [[a b]|] eqn:Ea; [|reflexivity].
  rewrite (exists_at_split _ _ _ E). unfold char_end in E |- *.
  destruct (exists_at brk t (Pos (line p) (offset p + 1))) eqn:E1; [congruence|].
  assert (Hp1 : exists_at brk t p = true) by (unfold exists_at; now rewrite Ea).
  assert (N1 : length (lines_of t) <= line p + 1).
  { destruct (Nat.le_gt_cases (length (lines_of t)) (line p + 1)); [assumption|].
    exfalso. apply not_true_iff_false in E. apply E. apply exists_at_width. cbn [line offset]. lia. }
  apply exists_at_width in Hp1 as [H1 H2].
  assert (N2 : offset p = line_width brk t (line p)).
  { destruct (Nat.le_gt_cases (offset p + 1) (line_width brk t (line p))); [|lia].
    exfalso. apply not_true_iff_false in E1. apply E1. apply exists_at_width. cbn [line offset]. lia. }
  cbn [line]. rewrite split_line_start. rewrite (proj2 (Nat.ltb_ge _ _)) by lia. rewrite app_nil_r.
  pose proof (split_at_app _ _ _ _ _ Ea) as Et.
  (* the prefix is the whole text *)
  clear E E1. unfold split_at, prefix_at in Ea.
  destruct (nth_error (lines_of t) (line p)) as [l|] eqn:El; [|discriminate].
  rewrite (line_width_nth _ _ _ _ El) in N2.
  rewrite (proj2 (Nat.leb_le _ _)) in Ea by lia. injection Ea as Ea _.
  rewrite N2, firstn_all, graphemes_concat in Ea. rewrite <- Ea.
  rewrite <- (join_lines t) at 2. rewrite <- (firstn_skipn (line p) (lines_of t)) at 2.
  assert (Es : skipn (line p) (lines_of t) = [l]).
  { pose proof (skipn_length (line p) (lines_of t)) as Lk.
    rewrite <- (firstn_skipn (line p) (lines_of t)) in El.
    rewrite nth_error_app2 in El by (rewrite firstn_length; lia).
    rewrite firstn_length, Nat.min_l, Nat.sub_diag in El by lia.
    destruct (skipn (line p) (lines_of t)) as [|x xs]; [discriminate|]. injection El as ->.
    cbn [length] in Lk. destruct xs; [reflexivity|]. cbn [length] in Lk. lia. }
  rewrite Es. now rewrite join_app.
Qed.

(** ** The invariant *)

Definition base_of (tl : timeline) : state :=
  match group tl with Some (Some s) => s | _ => now tl end.

Fixpoint back (brk : brk_rule) (ops : list operation) (ps : list state) (t : text) : Prop :=
  match ops, ps with
  | [], [] => True
  | op :: ops', s :: ps' => op_ok brk op (fst s) t /\ back brk ops' ps' (fst s)
  | _, _ => False
  end.
Fixpoint forth (brk : brk_rule) (ops : list operation) (fs : list state) (t : text) : Prop :=
  match ops, fs with
  | [], [] => True
  | op :: ops', s :: fs' => op_ok brk op t (fst s) /\ forth brk ops' fs' (fst s)
  | _, _ => False
  end.
Definition group_ok (brk : brk_rule) (bg : option (list operation)) (tl : timeline) : Prop :=
  match bg, group tl with
  | None, None => True
  | Some [], Some None => True
  | Some (o :: ops), Some (Some s) => ops_ok brk (o :: ops) (fst s) (tl_text tl) /\ snd (now tl) = false
  | _, _ => False
  end.
Definition is_mark (m : option nat) (i : nat) : bool :=
  match m with Some k => i =? k | None => false end.
Definition states (tl : timeline) : list state := rev (past tl) ++ base_of tl :: future tl.
Definition marks_ok (m : option nat) (l : list state) : Prop :=
  forall i s, nth_error l i = Some s -> snd s = is_mark m i.
Definition sync_ok (tl : timeline) : Prop :=
  forall s, In s (states tl) -> snd s = true -> synced tl = Some (fst s).

Record inv (brk : brk_rule) (b : buffer) (tl : timeline) : Prop := Inv {
  inv_data : bholds brk b (tl_text tl);
  inv_back : back brk (h_previous (b_history b)) (past tl) (fst (base_of tl));
  inv_forth : forth brk (h_next (b_history b)) (future tl) (fst (base_of tl));
  inv_group : group_ok brk (b_group b) tl;
  inv_mark : marks_ok (h_mark (b_history b)) (states tl);
  inv_sync : sync_ok tl }.

Lemma back_length brk ops : forall ps t, back brk ops ps t -> length ops = length ps.
Proof.
  induction ops as [|o ops IH]; intros [|s ps] t H; cbn in H; try contradiction; [reflexivity|].
  cbn [length]. f_equal. eapply IH. apply H.
Qed.

(** Only the text and the position in history matter. *)
Lemma inv_transfer brk b b' tl : inv brk b tl -> bholds brk b' (tl_text tl) ->
  b_history b' = b_history b -> b_group b' = b_group b -> inv brk b' tl.
Proof. intros [H1 H2 H3 H4 H5 H6] D E1 E2. split; rewrite ?E1, ?E2; assumption. Qed.

Lemma nth_error_snoc {A} (l : list A) x i y : nth_error (l ++ [x]) i = Some y ->
  nth_error l i = Some y \/ (i = length l /\ y = x).
Proof.
  intros H. destruct (Nat.lt_ge_cases i (length l)) as [L|L].
  - left. now rewrite nth_error_app1 in H.
  - rewrite nth_error_app2 in H by assumption. right.
    destruct (i - length l) as [|k] eqn:E; [|destruct k; discriminate].
    injection H as <-. split; [lia|reflexivity].
Qed.

Lemma marks_add m op prev next (ps : list state) (s : state) (fs : list state) t :
  length prev = length ps -> marks_ok m (rev ps ++ s :: fs) ->
  marks_ok (h_mark (hist_add (Hist prev next m) op)) (rev (s :: ps) ++ [(t, false)]).
Proof.
  intros L H i x Hx. cbn [hist_add h_previous h_mark length].
  apply nth_error_snoc in Hx as [Hx|[-> ->]].
  - assert (Hi : i < length (rev (s :: ps))) by (apply nth_error_Some; congruence).
    rewrite rev_length in Hi. cbn [length] in Hi.
    assert (Ho : nth_error (rev ps ++ s :: fs) i = Some x).
    { cbn [rev] in Hx. change (s :: fs) with ([s] ++ fs). rewrite app_assoc.
      rewrite nth_error_app1; [assumption|]. rewrite app_length, rev_length. simpl. lia. }
    rewrite (H _ _ Ho). destruct m as [k|]; [|reflexivity].
    destruct (Nat.leb_spec (S (length prev)) k) as [K|K]; cbn [is_mark]; [|reflexivity].
    apply Nat.eqb_neq. lia.
  - rewrite rev_length. cbn [length snd]. destruct m as [k|]; [|reflexivity].
    destruct (Nat.leb_spec (S (length prev)) k) as [K|K]; cbn [is_mark]; [reflexivity|].
    symmetry. apply Nat.eqb_neq. lia.
Qed.

Ltac tl_simp :=
  unfold sync_ok, states, base_of, group_ok, tl_text in *;
  cbn [past now future group synced fst snd b_data b_history b_group set_group set_history
       h_previous h_next h_mark] in *.

(** Storing an edit. *)
Lemma store_inv brk b b1 tl op t : inv brk b tl -> op_ok brk op (tl_text tl) t ->
  bholds brk b1 t -> same_rest b b1 -> inv brk (store b1 op) (tl_edit tl t).
Proof.
  intros [H1 H2 H3 H4 H5 H6] Hop Hb (E1 & E2 & E3 & E4 & E5 & E6).
  unfold store, tl_edit. rewrite E4, E3. destruct tl as [ps nw fs gr sy]. tl_simp.
  destruct (b_group b) as [[|o ops]|], gr as [[s|]|]; try contradiction.
  - (* empty group *)
    split; tl_simp; rewrite ?E3; try assumption. cbn [app]. split; [|reflexivity].
    econstructor; [exact Hop|constructor].
  - (* group with edits *)
    destruct H4 as [H4 _].
    split; tl_simp; rewrite ?E3; try assumption. cbn [app]. split; [|reflexivity].
    change (ops_ok brk ((o :: ops) ++ [op]) (fst s) t). eapply ops_snoc; eassumption.
  - (* no group *)
    destruct (b_history b) as [prev next mk] eqn:Eh.
    split; tl_simp.
    + exact Hb.
    + cbn [hist_add h_previous back]. now split.
    + exact I.
    + rewrite E4. exact I.
    + eapply marks_add; [|exact H5]. eapply back_length; eassumption.
    + intros x Hx Hs. apply in_app_or in Hx as [Hx|[<-|[]]]; [|discriminate].
      apply H6; [|assumption]. apply in_rev in Hx. apply in_or_app.
      destruct Hx as [<-|Hx]; [right; now left|left; now apply in_rev in Hx].
Qed.

Lemma same_list_marks m l l' : marks_ok m l -> l' = l -> marks_ok m l'.
Proof. now intros H ->. Qed.

Lemma undo_inv brk al b tl : alloc_ok al -> inv brk b tl ->
  exists b', buf_undo brk al b = Ok b' /\ inv brk b' (tl_undo tl).
Proof.
  intros Hal H. unfold buf_undo, tl_undo. destruct tl as [ps nw fs gr sy].
  assert (Hist : (b_group b = None \/ b_group b = Some []) -> (gr = None \/ gr = Some None) ->
    exists b', (let '(op, b1) :=
        (let '(op, h) := hist_previous (b_history (set_group b None)) in
         (op, set_history (set_group b None) h)) in
        match op with Some op => op_reverse brk al op b1 | None => Ok b1 end) = Ok b'
      /\ inv brk b' (match ps with
         | s :: ps => TL ps s (nw :: fs) None sy
         | [] => TL [] nw fs None sy end)).
  { intros _ Hg.
    assert (Hb : inv brk (set_group b None) (TL ps nw fs None sy)).
    { destruct H as [H1 H2 H3 H4 H5 H6]. destruct Hg as [-> | ->]; split; tl_simp; try assumption; exact I. }
    clear H Hg. revert Hb. generalize (set_group b None). clear b. intros b [H1 H2 H3 H4 H5 H6].
    unfold hist_previous. destruct (b_history b) as [prev next mk] eqn:Eh. tl_simp.
    destruct (b_group b) as [[|? ?]|] eqn:Eg; try contradiction.
    destruct prev as [|op prev], ps as [|s ps]; try contradiction.
    - eexists. split; [reflexivity|]. split; tl_simp; try assumption; now rewrite Eg.
    - destruct H2 as [Hop H2].
      set (b1 := set_history b {| h_previous := prev; h_next := op :: next; h_mark := mk |}).
      destruct (op_ok_reverse _ _ _ _ Hop al b1 Hal H1) as (b' & E & Hb' & (_ & _ & R3 & R4 & _)).
      exists b'. split; [exact E|]. cbn [b1 b_history b_group set_history] in R3, R4.
      split; tl_simp; rewrite ?R3, ?R4, ?Eg; tl_simp.
      + exact Hb'.
      + exact H2.
      + now split.
      + exact I.
      + eapply same_list_marks; [exact H5|]. cbn [rev]. now rewrite <- app_assoc.
      + intros x Hx. apply H6. cbn [rev]. now rewrite <- app_assoc. }
  pose proof H as [H1 H2 H3 H4 H5 H6]. tl_simp.
  destruct (b_group b) as [[|o ops]|] eqn:Eg, gr as [[s|]|]; try contradiction.
  - apply Hist; auto.
  - destruct H4 as [H4 _].
    pose proof (ok_group brk _ _ _ H4) as Hop.
    destruct (op_ok_reverse _ _ _ _ Hop al (set_group b None) Hal H1) as (b' & E & Hb' & (_ & _ & R3 & R4 & _)).
    exists b'. split; [exact E|]. cbn [b_history b_group set_group] in R3, R4.
    split; tl_simp; rewrite ?R3, ?R4; tl_simp; try assumption. exact I.
  - apply Hist; auto.
Qed.

Lemma no_edits_base tl : no_edits_open tl -> base_of tl = now tl.
Proof.
  intros Hn. unfold base_of. destruct (group tl) as [[s|]|] eqn:E; try reflexivity. now apply Hn in E.
Qed.
Lemma no_edits_cases ps nw fs gr sy : no_edits_open (TL ps nw fs gr sy) -> gr = None \/ gr = Some None.
Proof. intros H. destruct gr as [[s|]|]; auto. now destruct (H s). Qed.

Lemma redo_inv brk al b tl : alloc_ok al -> inv brk b tl -> no_edits_open tl ->
  exists b', buf_redo brk al b = Ok b' /\ inv brk b' (tl_redo tl).
Proof.
  intros Hal [H1 H2 H3 H4 H5 H6] Hn. unfold buf_redo, tl_redo, hist_next.
  destruct tl as [ps nw fs gr sy]. apply no_edits_cases in Hn.
  destruct (b_history b) as [prev next mk] eqn:Eh.
  assert (E0 : (match gr with Some (Some s) => s | _ => nw end) = nw) by (now destruct Hn as [-> | ->]).
  tl_simp. rewrite E0 in *.
  destruct next as [|op next], fs as [|s fs]; try contradiction.
  - eexists. split; [reflexivity|]. split; tl_simp; rewrite ?E0; assumption.
  - destruct H3 as [Hop H3].
    set (b1 := set_history b {| h_previous := op :: prev; h_next := next; h_mark := mk |}).
    destruct (op_ok_run _ _ _ _ Hop al b1 Hal H1) as (op' & b' & E & Hb' & (_ & _ & R3 & R4 & _)).
    rewrite E. cbn [bind]. exists b'. split; [reflexivity|].
    cbn [b1 b_history b_group set_history] in R3, R4.
    assert (E1 : (match gr with Some (Some s) => s | _ => s end) = s) by (now destruct Hn as [-> | ->]).
    split; tl_simp; rewrite ?R3, ?R4, ?E1; tl_simp.
    + exact Hb'.
    + now split.
    + exact H3.
    + destruct Hn as [-> | ->]; destruct (b_group b) as [[|? ?]|]; exact H4.
    + eapply same_list_marks; [exact H5|]. cbn [rev]. now rewrite <- app_assoc.
    + intros x Hx. apply H6. cbn [rev] in Hx. now rewrite <- app_assoc in Hx.
Qed.

Lemma start_inv brk b tl : inv brk b tl -> inv brk (start_group b) (tl_start tl).
Proof.
  intros [H1 H2 H3 H4 H5 H6]. unfold start_group, tl_start. destruct tl as [ps nw fs gr sy].
  tl_simp.
  destruct (b_group b) as [[|o ops]|] eqn:Eg, gr as [[s|]|]; try contradiction;
    split; tl_simp; rewrite ?Eg; try assumption; exact I.
Qed.

Lemma end_inv brk b tl : inv brk b tl -> inv brk (end_group b) (tl_end tl).
Proof.
  intros [H1 H2 H3 H4 H5 H6]. unfold end_group, tl_end. destruct tl as [ps nw fs gr sy]. tl_simp.
  destruct (b_group b) as [[|o ops]|] eqn:Eg, gr as [[s|]|]; try contradiction.
  - split; tl_simp; try assumption; exact I.
  - destruct H4 as [H4 Hf].
    destruct (b_history b) as [prev next mk] eqn:Eh.
    split; tl_simp.
    + exact H1.
    + cbn [hist_add h_previous back]. split; [now constructor|assumption].
    + exact I.
    + exact I.
    + replace nw with (fst nw, false) by (rewrite <- Hf; now destruct nw).
      eapply marks_add; [eapply back_length; eassumption|exact H5].
    + intros x Hx Hs.
      apply in_app_or in Hx as [Hx|[<-|[]]]; [|congruence].
      apply H6; [|assumption].
      apply in_rev in Hx. apply in_or_app.
      destruct Hx as [<-|Hx]; [right; now left|left; now apply in_rev in Hx].
  - split; tl_simp; rewrite ?Eg; try assumption; exact I.
Qed.

Lemma sync_inv brk b tl : inv brk b tl -> no_edits_open tl ->
  inv brk (set_history b (hist_mark (b_history b))) (tl_sync tl).
Proof.
  intros [H1 H2 H3 H4 H5 H6] Hn. destruct tl as [ps nw fs gr sy]. apply no_edits_cases in Hn.
  destruct (b_history b) as [prev next mk] eqn:Eh. unfold tl_sync, hist_mark.
  assert (E0 : forall x : state, (match gr with Some (Some s) => s | _ => x end) = x) by (intros; now destruct Hn as [-> | ->]).
  tl_simp. rewrite E0 in *.
  split; tl_simp; rewrite ?E0; tl_simp.
  - exact H1.
  - clear -H2. revert H2. generalize (fst nw). revert ps.
    induction prev as [|o prev IH]; intros [|s ps] t H; try contradiction; [exact I|]. cbn [map back] in *.
    destruct H as [Ho H]. split; [exact Ho|]. now apply IH.
  - clear -H3. revert H3. generalize (fst nw). revert fs.
    induction next as [|o next IH]; intros [|s fs] t H; try contradiction; [exact I|]. cbn [map forth] in *.
    destruct H as [Ho H]. split; [exact Ho|]. now apply IH.
  - destruct Hn as [-> | ->]; destruct (b_group b) as [[|? ?]|]; exact H4.
  - intros i x Hx. rewrite (back_length _ _ _ _ H2).
    rewrite <- map_rev in Hx.
    destruct (Nat.lt_trichotomy i (length ps)) as [L|[L|L]].
    + rewrite nth_error_app1 in Hx by (rewrite map_length, rev_length; assumption).
      rewrite nth_error_map in Hx. destruct (nth_error (rev ps) i); [|discriminate].
      injection Hx as <-. cbn [unsync snd is_mark]. symmetry. apply Nat.eqb_neq. lia.
    + subst i. rewrite nth_error_app2 in Hx by (rewrite map_length, rev_length; lia).
      rewrite map_length, rev_length, Nat.sub_diag in Hx. injection Hx as <-. cbn [snd is_mark].
      symmetry. apply Nat.eqb_refl.
    + rewrite nth_error_app2 in Hx by (rewrite map_length, rev_length; lia).
      rewrite map_length, rev_length in Hx. destruct (i - length ps) as [|k] eqn:E; [lia|].
      cbn [nth_error] in Hx. rewrite nth_error_map in Hx. destruct (nth_error fs k); [|discriminate].
      injection Hx as <-. cbn [unsync snd is_mark]. symmetry. apply Nat.eqb_neq. lia.
  - intros x Hx Hs. try rewrite E0 in Hx.
    assert (Hu : forall l, In x (map unsync l) -> False).
    { intros l Hl. apply in_map_iff in Hl as (y & <- & _). discriminate. }
    apply in_app_or in Hx as [Hx|[<-|Hx]].
    + exfalso. apply in_rev in Hx. eapply Hu; eassumption.
    + reflexivity.
    + exfalso. eapply Hu; eassumption.
Qed.

Lemma list_N_eqb_dec (x y : text) : list_N_eqb x y = if list_eq_dec N.eq_dec x y then true else false.
Proof.
  destruct (list_eq_dec N.eq_dec x y) as [->|H]; [now apply list_N_eqb_eq|].
  apply not_true_iff_false. intros E. now apply list_N_eqb_eq in E.
Qed.

Lemma replace_inv brk al b tl s : alloc_ok al -> inv brk b tl -> valid_text s -> plain_newlines brk s ->
  exists b', buf_replace brk al b s = Ok b' /\ inv brk b' (tl_replace tl s)
    /\ b_path b' = b_path b.
Proof.
  intros Hal H V Hs. pose proof (inv_data _ _ _ H) as Hd. unfold buf_replace, tl_replace.
  rewrite (bholds_data _ _ _ Hd). cbn [bind]. rewrite list_N_eqb_dec.
  destruct (list_eq_dec N.eq_dec s (tl_text tl)) as [->|Hne]; [eauto|].
  cbn [op_run]. destruct (replace_content_ok brk al s b V Hs) as (b1 & E & Hb1 & R). rewrite E. cbn [bind].
  eexists. split; [reflexivity|]. split.
  - apply store_inv with (b := b); try assumption. constructor; try assumption.
    + now apply bholds_valid in Hd.
    + apply Hd.
  - unfold store. destruct R as (_ & R2 & _). destruct (b_group b1); cbn; exact R2.
Qed.

(** ** Every legal call returns and follows the timeline *)

Lemma step_inv brk al c b f tl : alloc_ok al -> inv brk b tl ->
  legal brk c (c_pos (b_cursor b)) (file_of b f) tl ->
  exists o b' f', bexec brk al c b f = Ok (o, b', f')
    /\ inv brk b' (tl_step brk c (c_pos (b_cursor b)) (file_of b f) o tl).
Proof.
  intros Hal H Hl. pose proof (inv_data _ _ _ H) as Hd. pose proof (bholds_valid _ _ _ Hd) as V.
  unfold legal in Hl. destruct Hl as [Hl Ha].
  destruct c; cbn [bexec tl_step clean_edit allowed edited] in *.
  - (* insert *)
    unfold buf_insert. destruct (ins_run brk al b (c_pos (b_cursor b)) data _ Hal Hd Hl) as (b1 & E & H1 & R).
    rewrite E. cbn [bind]. do 3 eexists. split; [reflexivity|].
    eapply store_inv; [exact H|apply new_insert; [apply Hd|exact Hl]|exact H1|exact R].
  - (* delete *)
    unfold buf_delete. destruct Hd as [Hh Hp]. rewrite (holds_in_bounds _ _ _ _ Hh Hp). cbn [bind].
    fold (char_end brk (tl_text tl) (c_pos (b_cursor b))). unfold buf_delete_range.
    destruct (del_run brk al b (c_pos (b_cursor b)) (char_end brk (tl_text tl) (c_pos (b_cursor b))) _ (conj Hh Hp) Hl None)
      as (b1 & E & H1 & R).
    rewrite E. cbn [bind]. do 3 eexists. split; [reflexivity|].
    eapply store_inv; [exact H| |exact H1|exact R]. apply new_delete; try assumption. now apply char_end_ok.
  - (* delete_range *)
    rename Hl into Hc, Ha into Hor. unfold buf_delete_range.
    destruct (del_run brk al b p q _ Hd Hc None) as (b1 & E & H1 & R).
    rewrite E. cbn [bind]. do 3 eexists. split; [reflexivity|].
    eapply store_inv; [exact H| |exact H1|exact R]. apply new_delete; try assumption. apply Hd.
  - (* replace *)
    destruct Hl as [V' Hs]. destruct (replace_inv brk al b tl content Hal H V' Hs) as (b' & E & H' & _).
    rewrite E. cbn [bind]. eauto 6.
  - destruct (undo_inv brk al b tl Hal H) as (b' & E & H'). rewrite E. cbn [bind]. eauto 6.
  - destruct (redo_inv brk al b tl Hal H Ha) as (b' & E & H'). rewrite E. cbn [bind]. eauto 6.
  - do 3 eexists. split; [reflexivity|]. now apply start_inv.
  - do 3 eexists. split; [reflexivity|]. now apply end_inv.
  - (* cursor *)
    destruct (cexec_stays brk (b_data b) m (b_cursor b)) as (c' & E & _); [eapply holds_wf; apply Hd|].
    rewrite E. cbn [bind]. do 3 eexists. split; [reflexivity|]. now apply (inv_transfer _ b).
  - do 3 eexists. split; [reflexivity|]. now apply (inv_transfer _ b).
  - (* save *)
    unfold buf_save. destruct (b_path b) as [p|]; [|cbn [bind]; eauto 6].
    rewrite (bholds_data _ _ _ Hd). destruct (outcome f p w); cbn [bind]; do 3 eexists; (split; [reflexivity|]).
    + exact H.
    + exact H.
    + now apply sync_inv.
  - (* reload *)
    unfold buf_reload. unfold file_of in *. destruct (b_path b) as [p|]; [|cbn [bind]; eauto 6].
    destruct (read_to_string f p) as [s|] eqn:Ef; [|cbn [bind]; eauto 6].
    rename Ha into Hn, Hl into Hs.
    assert (V' : valid_text s).
    { unfold read_to_string in Ef. destruct (fs_read f p); [|discriminate]. now apply decode_strict_valid in Ef as [? _]. }
    destruct (replace_inv brk al b tl s Hal H V' (Hs s eq_refl)) as (b' & E & H' & _).
    rewrite E. cbn [bind]. do 3 eexists. split; [reflexivity|].
    apply sync_inv; [assumption|]. intros x.
    unfold tl_replace, tl_edit. destruct (list_eq_dec _ _ _); rewrite Hn; [discriminate|].
    cbn [group]. discriminate.
  - do 3 eexists. split; [reflexivity|]. now apply (inv_transfer _ b).
  - do 3 eexists. split; [reflexivity|]. now apply (inv_transfer _ b).
  - do 3 eexists. split; [reflexivity|]. now apply (inv_transfer _ b).
  - do 3 eexists. split; [reflexivity|]. now apply (inv_transfer _ b).
  - do 3 eexists. split; [reflexivity|]. now apply (inv_transfer _ b).
Qed.

(** ** Sessions *)

Lemma fresh_inv brk b t (k : bool) : holds brk (b_data b) t -> plain_newlines brk t ->
  b_history b = Hist [] [] (if k then Some 0 else None) -> b_group b = None ->
  inv brk b (TL [] (t, k) [] None (if k then Some t else None)).
Proof.
  intros H Hp Eh Eg. split; tl_simp; rewrite ?Eh, ?Eg; cbn; try exact I.
  - now split.
  - intros [|[|i]] s E; cbn in E; try discriminate. injection E as <-. now destruct k.
  - intros s [<-|[]] E. cbn [snd fst] in *. now rewrite E.
Qed.

Lemma session_inv brk b f tl : session brk b f tl -> inv brk b tl.
Proof.
  induction 1 as [al f b E|al f p b t E Ef Hp|al c b f o b' f' tl Hs IH Hal Hl E].
  - unfold buffer_new in E. destruct (holds_new brk al [] ltac:(constructor)) as (g & Eg & Hg).
    rewrite Eg in E. injection E as <-. apply (fresh_inv brk _ [] false); try reflexivity; [exact Hg|].
    intros x []. 
  - unfold from_file in E. rewrite Ef in E.
    assert (V : valid_text t).
    { unfold read_to_string in Ef. destruct (fs_read f p); [|discriminate]. now apply decode_strict_valid in Ef as [? _]. }
    destruct (holds_new brk al t V) as (g & Eg & Hg). rewrite Eg in E. cbn [bind] in E.
    destruct (fs_canon f p); [|discriminate]. injection E as <-. now apply (fresh_inv brk _ t true).
  - destruct (step_inv brk al c b f tl Hal IH Hl) as (o1 & b1 & f1 & E1 & H1).
    rewrite E in E1. now injection E1 as <- <- <-.
Qed.

Lemma session_text brk b f tl : session brk b f tl -> buf_data b = Ok (tl_text tl).
Proof. intros H. apply session_inv in H. eapply bholds_data, inv_data, H. Qed.

Lemma session_progress brk al c b f tl : session brk b f tl -> alloc_ok al ->
  legal brk c (c_pos (b_cursor b)) (file_of b f) tl ->
  exists o b' f', bexec brk al c b f = Ok (o, b', f')
    /\ session brk b' f' (tl_step brk c (c_pos (b_cursor b)) (file_of b f) o tl).
Proof.
  intros H Hal Hl. destruct (step_inv brk al c b f tl Hal (session_inv _ _ _ _ H) Hl) as (o & b' & f' & E & _).
  exists o, b', f'. split; [assumption|]. eapply session_step; eassumption.
Qed.

Lemma steps_session brk cs b f tl b' f' tl' : steps brk cs b f tl b' f' tl' ->
  session brk b f tl -> session brk b' f' tl'.
Proof. induction 1; intros Hs; [assumption|]. apply IHsteps. eapply session_step; eassumption. Qed.
