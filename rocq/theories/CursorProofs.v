(** Cursor movement. *)
From Verif Require Import Base Utf8 Utf8Proofs Grapheme GraphemeProofs Position GapBuffer
  GapBufferProofs Cursor Spec CursorSpec CursorCalls Calls TextProofs HalvesProofs TextFacts GapProps UaxProofs.

(** ** Any text *)

Definition wf (g : gapbuf) : Prop := exists a b, rep g a b.
Lemma reachable_wf brk g : reachable brk g -> wf g.
Proof. apply reachable_rep. Qed.
Lemma holds_wf brk g t : holds brk g t -> wf g.
Proof. intros (a & b & R & _). now exists a, b. Qed.
Lemma in_bounds_wf brk g p : wf g -> exists b, in_bounds brk g p = Ok b.
Proof. intros (a & b & R). rewrite (in_bounds_halves _ _ _ _ _ R). eauto. Qed.

Lemma move_to_wf brk g c p : wf g ->
  exists b, in_bounds brk g p = Ok b
    /\ move_to brk g c p = Ok (b, if b then Cur p (offset p) else c).
Proof.
  intros H. destruct (in_bounds_wf brk g p H) as (b & E). exists b. split; [assumption|].
  unfold move_to. rewrite E. now destruct b.
Qed.

Lemma move_to_stays brk g c p : wf g ->
  exists b c', move_to brk g c p = Ok (b, c') /\ in_or_same brk g c c'.
Proof.
  intros H. destruct (move_to_wf brk g c p H) as (b & E & M). exists b. eexists. split; [exact M|].
  destruct b; [now right|now left].
Qed.

Lemma to_string_total g : wf g -> exists t, gb_to_string g = Ok t.
Proof. intros (a & b & R). exists (a ++ b). now apply to_string_ok. Qed.

Lemma in_or_same_trans brk g a b c : in_or_same brk g a b -> in_or_same brk g b c -> in_or_same brk g a c.
Proof. unfold in_or_same. intros [E|E] [F|F]; rewrite ?F; auto. Qed.

Lemma move_to_line_stays brk g c l : wf g ->
  exists c', move_to_line brk g c l = Ok c' /\ in_or_same brk g c c'.
Proof.
  intros H. unfold move_to_line.
  destruct (move_to_stays brk g c (Pos l (c_sticky c)) H) as (b & c1 & E & S). rewrite E. cbn [bind].
  destruct b; [eauto|]. destruct (to_string_total g H) as (t & Et). rewrite Et. cbn [bind].
  destruct (move_to_stays brk g c1 (Pos l (line_length_or_zero brk t l)) H) as (b2 & c2 & E2 & S2).
  rewrite E2. cbn [bind]. eexists. split; [reflexivity|]. eapply in_or_same_trans; [exact S|].
  exact S2.
Qed.

Lemma cexec_stays brk g m c : wf g ->
  exists c', cexec brk g m c = Ok c' /\ in_or_same brk g c c'.
Proof.
  intros H.
  assert (Hm : forall p, exists c', (let* (_, c') := move_to brk g c p in Ok c') = Ok c'
                               /\ in_or_same brk g c c').
  { intros p. destruct (move_to_stays brk g c p H) as (b & c' & E & S). rewrite E. cbn [bind]. eauto. }
  assert (Hs : exists c', Ok c = Ok c' /\ in_or_same brk g c c') by (exists c; split; [reflexivity|now left]).
  destruct (to_string_total g H) as (t & Et).
  destruct m; cbn [cexec].
  - apply Hm.
  - unfold move_up. destruct (Nat.eqb_spec (line (c_pos c)) 0); [exact Hs|].
    unfold usub. rewrite (proj2 (Nat.leb_le _ _)) by lia. cbn [bind]. now apply move_to_line_stays.
  - now apply move_to_line_stays.
  - unfold move_left. destruct (Nat.eqb_spec (offset (c_pos c)) 0); [exact Hs|].
    unfold usub. rewrite (proj2 (Nat.leb_le _ _)) by lia. cbn [bind]. apply Hm.
  - apply Hm.
  - apply Hm.
  - unfold move_to_end_of_line. rewrite Et. cbn [bind]. destruct (nth_error _ _); [apply Hm|exact Hs].
  - unfold move_to_last_line. rewrite Et. cbn [bind]. destruct (last_line_loop _ _ _). apply Hm.
  - unfold move_to_first_line. rewrite Et. cbn [bind]. apply Hm.
Qed.

Lemma crun_wf brk g ms : wf g -> forall c,
  exists c', crun brk g ms c = Ok c' /\ in_or_same brk g c c'.
Proof.
  intros H. induction ms as [|m ms IH]; intros c; cbn [crun].
  - exists c. split; [reflexivity|now left].
  - destruct (cexec_stays brk g m c H) as (c1 & E & S). rewrite E. cbn [bind].
    destruct (IH c1) as (c2 & E2 & S2). exists c2. split; [assumption|]. eapply in_or_same_trans; eassumption.
Qed.

Lemma crun_in_wf brk g ms c : wf g -> in_bounds brk g (c_pos c) = Ok true ->
  exists c', crun brk g ms c = Ok c' /\ in_bounds brk g (c_pos c') = Ok true.
Proof.
  intros H Hb. destruct (crun_wf brk g ms H c) as (c' & E & [S|S]); exists c'; (split; [assumption|]).
  - now rewrite S.
  - assumption.
Qed.

Lemma move_to_any brk g c p : reachable brk g ->
  exists b, in_bounds brk g p = Ok b
    /\ move_to brk g c p = Ok (b, if b then Cur p (offset p) else c).
Proof. intros H. apply move_to_wf. eapply reachable_wf; eassumption. Qed.
Lemma crun_stays brk g ms : reachable brk g -> forall c,
  exists c', crun brk g ms c = Ok c' /\ in_or_same brk g c c'.
Proof. intros H. apply crun_wf. eapply reachable_wf; eassumption. Qed.
Lemma crun_in_bounds brk g ms c : reachable brk g -> in_bounds brk g (c_pos c) = Ok true ->
  exists c', crun brk g ms c = Ok c' /\ in_bounds brk g (c_pos c') = Ok true.
Proof. intros H. apply crun_in_wf. eapply reachable_wf; eassumption. Qed.

(** ** Plain text *)

Lemma line_width_nth brk t l s : nth_error (lines_of t) l = Some s ->
  line_width brk t l = length (graphemes brk s).
Proof. intros H. unfold line_width. now rewrite (nth_error_nth _ _ _ H). Qed.

Lemma exists_at_width brk t p :
  exists_at brk t p = true <-> line p < length (lines_of t) /\ offset p <= line_width brk t (line p).
Proof.
  rewrite exists_at_iff. split.
  - intros (s & E & H). rewrite (line_width_nth _ _ _ _ E). split; [|assumption].
    apply nth_error_Some. congruence.
  - intros [H1 H2]. destruct (nth_error (lines_of t) (line p)) as [s|] eqn:E.
    + exists s. split; [reflexivity|]. now rewrite (line_width_nth _ _ _ _ E) in H2.
    + apply nth_error_None in E. lia.
Qed.

Lemma line_length_width brk t l : no_crlf t -> line_length_or_zero brk t l = line_width brk t l.
Proof.
  intros H. rewrite line_length_ok by assumption. unfold line_width.
  destruct (nth_error (lines_of t) l) as [s|] eqn:E.
  - now rewrite (nth_error_nth _ _ _ E).
  - apply nth_error_None in E. now rewrite nth_overflow.
Qed.

Lemma last_line_loop_clusters brk t : plain_newlines brk t -> forall ln len,
  last_line_loop (graphemes brk t) ln len =
  (ln + (length (lines_of t) - 1),
   (if length (lines_of t) =? 1 then len else 0) + length (graphemes brk (last (lines_of t) []))).
Proof.
  induction t as [l Hl|l t Hl IH] using text_line_ind; intros Hp ln len.
  - rewrite lines_of_one by assumption. cbn [length last Nat.eqb].
    pose proof (no_lf_clusters brk l Hl) as Hn. revert ln len.
    induction (graphemes brk l) as [|g gs IHg]; intros ln len; simpl.
    + f_equal; lia.
    + rewrite (Hn g) by now left. rewrite IHg by (intros; apply Hn; now right). f_equal; lia.
  - destruct (plain_newlines_split _ _ _ Hp Hl) as [E Hp']. rewrite E.
    rewrite lines_of_app by assumption.
    assert (X : forall gs, (forall g, In g gs -> is_lf g = false) -> forall ln len,
      last_line_loop (gs ++ [LF] :: graphemes brk t) ln len = last_line_loop (graphemes brk t) (ln + 1) 0).
    { induction gs as [|g gs IHg]; intros Hn a b; simpl; [reflexivity|].
      rewrite (Hn g) by now left. apply IHg. intros; apply Hn; now right. }
    rewrite X by now apply no_lf_clusters. rewrite IH by assumption.
    pose proof (lines_of_ne t) as Hne. rewrite last_cons by assumption.
    cbn [length]. destruct (lines_of t) as [|x xs]; [contradiction|]. cbn [length].
    f_equal; [lia|]. destruct (S (length xs) =? 1) eqn:E1, (S (S (length xs)) =? 1) eqn:E2; try reflexivity.
    all: apply Nat.eqb_eq in E2; lia.
Qed.

Lemma last_nth {A} (l : list A) d : last l d = nth (length l - 1) l d.
Proof.
  induction l as [|x l IH]; [reflexivity|]. destruct l as [|y l]; [reflexivity|].
  rewrite last_cons by discriminate. rewrite IH. cbn [length nth].
  replace (S (length l) - 1) with (length l) by lia. replace (S (S (length l)) - 1) with (S (length l)) by lia.
  reflexivity.
Qed.

Lemma last_line_loop_spec brk t : plain_newlines brk t ->
  last_line_loop (graphemes brk t) 0 0 =
  (length (lines_of t) - 1, line_width brk t (length (lines_of t) - 1)).
Proof.
  intros H. rewrite last_line_loop_clusters by assumption. unfold line_width. rewrite last_nth.
  f_equal. now destruct (length (lines_of t) =? 1).
Qed.

Lemma str_lines_nth t l : no_crlf t ->
  nth_error (str_lines t) l =
  match nth_error (lines_of t) l with
  | Some [] => if S l =? length (lines_of t) then None else Some []
  | x => x
  end.
Proof.
  unfold str_lines. revert l. induction t as [s Hs|s t Hs IH] using text_line_ind; intros l H.
  - rewrite lines_of_one, split_inclusive_one by assumption. destruct s as [|c s].
    + destruct l as [|[|l]]; reflexivity.
    + cbn [map]. rewrite strip_eol_last by assumption. destruct l as [|[|l]]; reflexivity.
  - rewrite lines_of_app, split_inclusive_app by assumption. cbn [map].
    rewrite strip_eol_line; [|assumption|intros a E; apply (H a t); rewrite E, <- app_assoc; reflexivity].
    destruct l as [|l]; cbn [nth_error length].
    + destruct s; [|reflexivity]. pose proof (lines_of_ne t). destruct (lines_of t); [contradiction|]. reflexivity.
    + rewrite IH; [reflexivity|].
      intros a b E. apply (H (s ++ LF :: a) b). rewrite E, <- app_assoc. reflexivity.
Qed.

Section Plain.
  Variables (brk : brk_rule) (g : gapbuf) (t : text).
  Hypothesis Hc : holds brk g t /\ plain_newlines brk t.
  Hypothesis Hn : no_crlf t.

  Lemma move_to_plain c p :
    move_to brk g c p = Ok (exists_at brk t p, if exists_at brk t p then Cur p (offset p) else c).
  Proof.
    unfold move_to. rewrite (holds_in_bounds _ _ _ _ (proj1 Hc) (proj2 Hc)). cbn [bind].
    now destruct (exists_at brk t p).
  Qed.

  Lemma clean_string : gb_to_string g = Ok t.
  Proof. eapply holds_to_string. apply Hc. Qed.

  Lemma move_to_line_plain c l :
    move_to_line brk g c l =
    Ok (if l <? length (lines_of t)
        then Cur (Pos l (Nat.min (c_sticky c) (line_width brk t l))) (c_sticky c)
        else c).
  Proof.
    unfold move_to_line. rewrite move_to_plain. cbn [bind].
    destruct (exists_at brk t (Pos l (c_sticky c))) eqn:E.
    - apply exists_at_width in E as [E1 E2]. cbn [line offset] in *.
      rewrite (proj2 (Nat.ltb_lt _ _)) by assumption. now rewrite Nat.min_l.
    - rewrite clean_string. cbn [bind]. rewrite line_length_width by assumption.
      rewrite move_to_plain. cbn [bind]. destruct (Nat.ltb_spec l (length (lines_of t))) as [Hl|Hl].
      + assert (X : exists_at brk t (Pos l (line_width brk t l)) = true)
          by (apply exists_at_width; cbn [line offset]; lia).
        rewrite X. cbn [c_pos offset]. do 3 f_equal. symmetry. apply Nat.min_r.
        destruct (Nat.le_gt_cases (line_width brk t l) (c_sticky c)); [assumption|].
        assert (Y : exists_at brk t (Pos l (c_sticky c)) = true)
          by (apply exists_at_width; cbn [line offset]; lia). congruence.
      + destruct (exists_at brk t (Pos l (line_width brk t l))) eqn:F.
        * apply exists_at_width in F as [F _]. cbn [line] in F. lia.
        * cbn [offset]. now destruct c.
  Qed.

  Lemma exists_first k : k < length (lines_of t) -> exists_at brk t (Pos k 0) = true.
  Proof. intros H. apply exists_at_width. cbn [line offset]. lia. Qed.

  Lemma lines_pos : 0 < length (lines_of t).
  Proof. pose proof (lines_of_ne t). destruct (lines_of t); [contradiction|simpl; lia]. Qed.

  Lemma cexec_plain m c : exists c', cexec brk g m c = Ok c' /\ view c' = spec_move brk t m (view c).
  Proof.
    pose proof lines_pos as Hl0.
    assert (Hmt : forall p,
      exists c', (let* (_, c') := move_to brk g c p in Ok c') = Ok c'
        /\ view c' = (if exists_at brk t p then go p else view c)).
    { intros p. rewrite move_to_plain. cbn [bind]. eexists. split; [reflexivity|].
      now destruct (exists_at brk t p). }
    assert (Hgo : forall p, exists_at brk t p = true ->
      exists c', (let* (_, c') := move_to brk g c p in Ok c') = Ok c' /\ view c' = go p).
    { intros p Hp. destruct (Hmt p) as (c' & E & V). rewrite Hp in V. eauto. }
    assert (Hs : exists c', Ok c = Ok c' /\ view c' = view c) by (exists c; auto).
    assert (Hln : forall k, exists c', move_to_line brk g c k = Ok c' /\
      view c' = (if k <? length (lines_of t)
                 then SC (Pos k (Nat.min (c_sticky c) (line_width brk t k))) (c_sticky c) else view c)).
    { intros k. rewrite move_to_line_plain. eexists. split; [reflexivity|]. now destruct (k <? _). }
    destruct c as [[l o] s].
    destruct m; cbn [cexec view spec_move at_pos wish c_pos c_sticky line offset] in *.
    - apply Hmt.
    - unfold move_up. cbn [c_pos line]. destruct (Nat.eqb_spec l 0) as [->|Hz]; [exact Hs|].
      unfold usub. rewrite (proj2 (Nat.leb_le _ _)) by lia. cbn [bind]. apply Hln.
    - apply Hln.
    - unfold move_left. cbn [c_pos offset line]. destruct (Nat.eqb_spec o 0) as [->|Hz]; [exact Hs|].
      unfold usub. rewrite (proj2 (Nat.leb_le _ _)) by lia. cbn [bind]. apply Hmt.
    - apply Hmt.
    - apply Hmt.
    - unfold move_to_end_of_line. rewrite clean_string. cbn [bind c_pos line].
      rewrite str_lines_nth by assumption.
      destruct (nth_error (lines_of t) l) as [x|] eqn:Ex.
      + assert (Ew : line_width brk t l = length (graphemes brk x)) by now apply line_width_nth.
        assert (Hlt : l < length (lines_of t)) by (apply nth_error_Some; congruence).
        assert (Hmx : exists c', (let* (_, c') := move_to brk g (Cur (Pos l o) s) (Pos l (length (graphemes brk x))) in Ok c') = Ok c'
                       /\ view c' = (if exists_at brk t (Pos l (line_width brk t l))
                                     then go (Pos l (line_width brk t l)) else SC (Pos l o) s)).
        { rewrite Ew. apply Hmt. }
        destruct (Nat.eqb_spec l (length (lines_of t) - 1)) as [E|E]; cbn [andb].
        * destruct (Nat.eqb_spec (line_width brk t l) 0) as [Ez|Ez].
          -- assert (x = []) as ->.
             { apply (graphemes_nil_iff brk). destruct (graphemes brk x); [reflexivity|simpl in Ew; lia]. }
             rewrite (proj2 (Nat.eqb_eq _ _)) by lia. exact Hs.
          -- destruct x; [simpl in Ew; lia|]. exact Hmx.
        * destruct x; [|exact Hmx]. rewrite (proj2 (Nat.eqb_neq _ _)) by lia. exact Hmx.
      + apply nth_error_None in Ex. rewrite (proj2 (Nat.eqb_neq _ _)) by lia. cbn [andb].
        destruct (exists_at brk t (Pos l (line_width brk t l))) eqn:F; [|exact Hs].
        apply exists_at_width in F as [F _]. cbn [line] in F. lia.
    - unfold move_to_last_line. rewrite clean_string. cbn [bind].
      destruct Hc as [_ Hp].
      rewrite last_line_loop_spec by assumption. cbn [c_sticky].
      set (n := length (lines_of t) - 1) in *.
      assert (Hn' : n < length (lines_of t)) by (subst n; lia).
      destruct (Nat.ltb_spec (line_width brk t n) s).
      + rewrite Nat.min_r by lia. apply Hgo. apply exists_at_width. cbn [line offset]. lia.
      + rewrite Nat.min_l by lia. apply Hgo. apply exists_at_width. cbn [line offset]. lia.
    - unfold move_to_first_line. rewrite clean_string. cbn [bind].
      fold (line_length_or_zero brk t 0). rewrite line_length_width by assumption. cbn [c_sticky].
      destruct (Nat.ltb_spec (line_width brk t 0) s).
      + rewrite Nat.min_r by lia. apply Hgo. apply exists_at_width. cbn [line offset]. lia.
      + rewrite Nat.min_l by lia. apply Hgo. apply exists_at_width. cbn [line offset]. lia.
  Qed.

  Lemma spec_move_exists m s : exists_at brk t (at_pos s) = true ->
    exists_at brk t (at_pos (spec_move brk t m s)) = true.
  Proof.
    intros He. pose proof lines_pos as Hl0.
    assert (Hg : forall p, exists_at brk t (at_pos (if exists_at brk t p then go p else s)) = true).
    { intros p. now destruct (exists_at brk t p) eqn:E. }
    assert (Hk : forall k, k < length (lines_of t) ->
      exists_at brk t (Pos k (Nat.min (wish s) (line_width brk t k))) = true).
    { intros k Hk. apply exists_at_width. cbn [line offset]. lia. }
    assert (Hln : forall k, exists_at brk t (at_pos (if k <? length (lines_of t)
       then SC (Pos k (Nat.min (wish s) (line_width brk t k))) (wish s) else s)) = true).
    { intros k. destruct (Nat.ltb_spec k (length (lines_of t))); [now apply Hk|assumption]. }
    destruct m; cbn [spec_move]; try apply Hg; try apply Hln.
    - destruct (_ =? 0); [assumption|apply Hln].
    - destruct (_ =? 0); [assumption|apply Hg].
    - destruct (_ && _); [assumption|apply Hg].
    - apply Hk. lia.
    - apply Hk. lia.
  Qed.

  Lemma crun_plain ms : forall c,
    exists c', crun brk g ms c = Ok c'
      /\ view c' = fold_left (fun s m => spec_move brk t m s) ms (view c)
      /\ (exists_at brk t (c_pos c) = true -> exists_at brk t (c_pos c') = true).
  Proof.
    induction ms as [|m ms IH]; intros c; cbn [crun fold_left].
    - exists c. auto.
    - destruct (cexec_plain m c) as (c1 & E & V). rewrite E. cbn [bind].
      destruct (IH c1) as (c2 & E2 & V2 & He2). exists c2. rewrite <- V.
      repeat split; try assumption. intros He. apply He2.
      change (c_pos c1) with (at_pos (view c1)). rewrite V. now apply spec_move_exists.
  Qed.

  Lemma settled_exists c : settled brk t c -> exists_at brk t (c_pos c) = true.
  Proof. intros [H1 H2]. apply exists_at_width. rewrite H2. lia. Qed.

  Definition settled_at (s : spec_cursor) : Prop :=
    line (at_pos s) < length (lines_of t) /\
    offset (at_pos s) = Nat.min (wish s) (line_width brk t (line (at_pos s))).
  Lemma settled_spec m s : settled_at s -> settled_at (spec_move brk t m s).
  Proof.
    intros Hs. pose proof lines_pos as Hl0.
    assert (Hgo : forall p, exists_at brk t p = true -> settled_at (go p)).
    { intros p H. apply exists_at_width in H. unfold settled_at, go. cbn [at_pos wish]. lia. }
    assert (Hg : forall p, settled_at (if exists_at brk t p then go p else s)).
    { intros p. destruct (exists_at brk t p) eqn:E; [now apply Hgo|assumption]. }
    assert (Hln : forall k, settled_at (if k <? length (lines_of t)
       then SC (Pos k (Nat.min (wish s) (line_width brk t k))) (wish s) else s)).
    { intros k. destruct (Nat.ltb_spec k (length (lines_of t))); [|assumption].
      unfold settled_at. cbn [at_pos wish line offset]. lia. }
    destruct m; cbn [spec_move]; try apply Hg; try apply Hln.
    - destruct (_ =? 0); [assumption|apply Hln].
    - destruct (_ =? 0); [assumption|apply Hg].
    - destruct (_ && _); [assumption|apply Hg].
    - apply Hgo. apply exists_at_width. cbn [line offset]. lia.
    - apply Hgo. apply exists_at_width. cbn [line offset]. lia.
  Qed.

  Lemma settled_move m c c' : settled brk t c -> cexec brk g m c = Ok c' -> settled brk t c'.
  Proof.
    intros Hs E. destruct (cexec_plain m c) as (c1 & E1 & V).
    rewrite E in E1. injection E1 as <-. change (settled_at (view c')). rewrite V. now apply settled_spec.
  Qed.

  (** Ups and downs. *)
  Lemma vertical (ups : list bool) : forall c, settled brk t c ->
    exists c', crun brk g (map (fun u : bool => if u then MUp else MDown) ups) c = Ok c'
      /\ settled brk t c' /\ c_sticky c' = c_sticky c
      /\ line (c_pos c') = spec_lines (length (lines_of t)) ups (line (c_pos c)).
  Proof.
    induction ups as [|u ups IH]; intros c Hs; cbn [map crun spec_lines].
    - exists c. auto.
    - destruct (cexec_plain (if u then MUp else MDown) c) as (c1 & E & V).
      pose proof (settled_move _ _ _ Hs E) as Hs1. rewrite E. cbn [bind].
      destruct (IH c1 Hs1) as (c2 & E2 & S2 & K2 & L2). exists c2. split; [assumption|].
      split; [assumption|]. rewrite K2, L2. destruct Hs as [Hl _].
      destruct c1 as [p1 s1], c as [[l o] s]. cbn [c_pos c_sticky line] in *.
      destruct u; cbn [view spec_move c_pos c_sticky at_pos wish line offset] in V.
      + rewrite (proj2 (Nat.ltb_lt _ _)) in V by lia.
        destruct (Nat.eqb_spec l 0) as [->|]; injection V as -> ->; split; reflexivity.
      + destruct (Nat.ltb_spec (l + 1) (length (lines_of t))) as [Ee|Ee]; injection V as -> ->;
          (split; [reflexivity|]); f_equal; cbn [line]; lia.
  Qed.
End Plain.

(** UAX #29 texts with plain newlines have no "\r\n". *)
Lemma uax29_no_crlf cls t : cls CR = GC_CR -> cls LF = GC_LF ->
  plain_newlines (uax29 cls) t -> no_crlf t.
Proof.
  intros HC HL Hp a b ->.
  assert (X : exists g, In g (graphemes (uax29 cls) (a ++ CR :: LF :: b)) /\ In LF g /\ In CR g).
  { assert (Y : forall s cur, exists g, In g (seg_from (uax29 cls) cur (s ++ CR :: LF :: b))
              /\ In LF g /\ In CR g).
    { induction s as [|c s IH]; intros cur; cbn [app seg_from].
      - assert (Z : forall cur, exists g, In g (seg_from (uax29 cls) (cur ++ [CR]) (LF :: b))
                      /\ In LF g /\ In CR g).
        { intros cu. cbn [seg_from]. unfold uax29 at 1. rewrite map_app, rev_app_distr. cbn [map rev app].
          rewrite HC, HL. cbn [uax29_cls].
          destruct (seg_from_cons (uax29 cls) b ((cu ++ [CR]) ++ [LF])) as (u & us & E).
          rewrite E. eexists. split; [now left|]. rewrite <- !app_assoc. split.
          - apply in_or_app. right. right. now left.
          - apply in_or_app. right. now left. }
        destruct (uax29 cls cur CR).
        + destruct (Z []) as (g & G1 & G2). exists g. split; [now right|assumption].
        + apply (Z cur).
      - destruct (uax29 cls cur c).
        + destruct (IH [c]) as (g & G1 & G2). exists g. split; [now right|assumption].
        + apply IH. }
    destruct a as [|c a]; cbn [app graphemes].
    - destruct (Y [] []) as (g & G1 & G2). cbn [app seg_from] in G1.
      change (uax29 cls [] CR) with true in G1. cbv iota in G1.
      destruct G1 as [<-|G1]; [destruct G2 as [[] _]|]. exists g. split; assumption.
    - apply Y. }
  destruct X as (g & G1 & G2 & G3). rewrite (Hp g G1 G2) in G3. destruct G3 as [E|[]]. discriminate.
Qed.

(** ** The movements one by one *)

Section Moves.
  Variables (brk : brk_rule) (g : gapbuf) (t : text).
  Hypothesis Hc : holds brk g t /\ plain_newlines brk t.

  Lemma mt_some c p : exists_at brk t p = true ->
    (let* (_, c') := move_to brk g c p in Ok c') = Ok (cursor_new p).
  Proof. intros H. now rewrite (move_to_plain _ _ _ Hc), H. Qed.

  Lemma left_plain c : exists_at brk t (c_pos c) = true ->
    move_left brk g c =
    Ok (if offset (c_pos c) =? 0 then c
        else cursor_new (Pos (line (c_pos c)) (offset (c_pos c) - 1))).
  Proof.
    intros He. apply exists_at_width in He as [H1 H2]. unfold move_left.
    destruct (Nat.eqb_spec (offset (c_pos c)) 0); [reflexivity|].
    unfold usub. rewrite (proj2 (Nat.leb_le _ _)) by lia. cbn [bind]. apply mt_some.
    apply exists_at_width. cbn [line offset]. lia.
  Qed.

  Lemma right_plain c : exists_at brk t (c_pos c) = true ->
    move_right brk g c =
    Ok (if offset (c_pos c) =? line_width brk t (line (c_pos c)) then c
        else cursor_new (Pos (line (c_pos c)) (offset (c_pos c) + 1))).
  Proof.
    intros He. apply exists_at_width in He as [H1 H2]. unfold move_right.
    destruct (Nat.eqb_spec (offset (c_pos c)) (line_width brk t (line (c_pos c)))) as [E|E].
    - rewrite (move_to_plain _ _ _ Hc).
      destruct (exists_at brk t (Pos (line (c_pos c)) (offset (c_pos c) + 1))) eqn:F; [|reflexivity].
      apply exists_at_width in F as [_ F]. cbn [line offset] in F. lia.
    - apply mt_some. apply exists_at_width. cbn [line offset]. lia.
  Qed.

  Lemma start_plain c : exists_at brk t (c_pos c) = true ->
    move_to_start_of_line brk g c = Ok (cursor_new (Pos (line (c_pos c)) 0)).
  Proof.
    intros He. apply exists_at_width in He as [H1 H2]. unfold move_to_start_of_line.
    apply mt_some. apply exists_at_width. cbn [line offset]. lia.
  Qed.

  Lemma end_plain : no_crlf t -> forall c, exists_at brk t (c_pos c) = true ->
    exists c', move_to_end_of_line brk g c = Ok c'
      /\ c_pos c' = Pos (line (c_pos c)) (line_width brk t (line (c_pos c))).
  Proof.
    intros Hn c He. destruct (cexec_plain brk g t Hc Hn MEnd c) as (c' & E & V).
    exists c'. split; [exact E|]. apply exists_at_width in He as [H1 H2].
    destruct c' as [p' s'], c as [[l o] s]. cbn [view spec_move c_pos c_sticky at_pos wish line offset] in *.
    destruct ((l =? length (lines_of t) - 1) && (line_width brk t l =? 0)) eqn:B.
    - injection V as -> ->. apply andb_true_iff in B as [_ B]. apply Nat.eqb_eq in B. f_equal. lia.
    - rewrite (proj2 (exists_at_width _ _ _)) in V by (cbn [line offset]; lia). now injection V as -> ->.
  Qed.

  Lemma first_plain : no_crlf t -> forall c,
    move_to_first_line brk g c = Ok (cursor_new (Pos 0 (Nat.min (c_sticky c) (line_width brk t 0)))).
  Proof.
    intros Hn c. unfold move_to_first_line. rewrite (clean_string _ _ _ Hc). cbn [bind].
    fold (line_length_or_zero brk t 0). rewrite line_length_width by assumption.
    pose proof (lines_of_ne t) as Hne.
    assert (Hl : 0 < length (lines_of t)) by (destruct (lines_of t); [contradiction|simpl; lia]).
    destruct (Nat.ltb_spec (line_width brk t 0) (c_sticky c)).
    - rewrite Nat.min_r by lia. apply mt_some. apply exists_at_width. cbn [line offset]. lia.
    - rewrite Nat.min_l by lia. apply mt_some. apply exists_at_width. cbn [line offset]. lia.
  Qed.

  Lemma last_plain c :
    move_to_last_line brk g c =
    Ok (cursor_new (Pos (length (lines_of t) - 1)
          (Nat.min (c_sticky c) (line_width brk t (length (lines_of t) - 1))))).
  Proof.
    unfold move_to_last_line. rewrite (clean_string _ _ _ Hc). cbn [bind].
    destruct Hc as [_ Hp]. rewrite last_line_loop_spec by assumption.
    pose proof (lines_of_ne t) as Hne.
    assert (Hl : 0 < length (lines_of t)) by (destruct (lines_of t); [contradiction|simpl; lia]).
    set (n := length (lines_of t) - 1). assert (Hn' : n < length (lines_of t)) by (subst n; lia).
    destruct (Nat.ltb_spec (line_width brk t n) (c_sticky c)).
    - rewrite Nat.min_r by lia. apply mt_some. apply exists_at_width. cbn [line offset]. lia.
    - rewrite Nat.min_l by lia. apply mt_some. apply exists_at_width. cbn [line offset]. lia.
  Qed.
End Moves.

(** For buffers that read as their text. *)
Section Coherent.
  Variables (brk : brk_rule) (g : gapbuf) (t : text).
  Hypothesis Hc : coherent brk g t.
  Let Hh := coherent_holds _ _ _ Hc.

  Definition move_to_coherent := move_to_plain brk g t Hh.
  Definition crun_coherent := crun_plain brk g t Hh.
  Definition settled_coherent := settled_move brk g t Hh.
  Definition vertical_coherent := vertical brk g t Hh.
  Definition left_coherent := left_plain brk g t Hh.
  Definition right_coherent := right_plain brk g t Hh.
  Definition start_coherent := start_plain brk g t Hh.
  Definition end_coherent := end_plain brk g t Hh.
  Definition first_coherent := first_plain brk g t Hh.
  Definition last_coherent := last_plain brk g t Hh.
End Coherent.
