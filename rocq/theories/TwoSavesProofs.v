(** Two saves of one file: how long the file is, and what it holds when both had it
    open before either wrote. *)
From Verif Require Import Base Utf8 PathModel Buffer Saving SavingSpec SavingProofs.

(** What both saves have written, since both had the file open. *)
Definition alive (ph : phase) : Prop := match ph with Writing _ _ | Saved _ => True | _ => False end.
Definition len_inv (a b : list byte) (q : path) (ph ph' : phase) (f : fsys) : Prop :=
  one_inv a q ph /\ one_inv b q ph' /\
  match ph, ph' with
  | Opening, Opening | Failed _, _ | _, Failed _ => True
  | _, Opening => fs_node f q = Some (Regular (firstn (done_by a ph) a))
  | Opening, _ => fs_node f q = Some (Regular (firstn (done_by b ph') b))
  | _, _ => exists c, fs_node f q = Some (Regular c) /\
      (length c = Nat.max (done_by a ph) (done_by b ph') \/ c = firstn (done_by a ph) a \/ c = firstn (done_by b ph') b)
  end.
Lemma len_inv_swap a b q ph ph' f : len_inv a b q ph ph' f -> len_inv b a q ph' ph f.
Proof.
  intros (H1 & H2 & H3). split; [exact H2|]. split; [exact H1|].
  destruct ph, ph'; try exact H3; destruct H3 as (c & Hn & Hc); exists c; (split; [exact Hn|]); rewrite Nat.max_comm; tauto.
Qed.
Lemma write_end (a : list byte) pos n : pos <= length a ->
  write_at (firstn pos a) pos (firstn n (skipn pos a)) = firstn (pos + length (firstn n (skipn pos a))) a.
Proof.
  intros H. set (ch := firstn n (skipn pos a)). unfold write_at.
  assert (L : length (firstn pos a) = pos) by (rewrite firstn_length; lia).
  rewrite skipn_all2 by lia. rewrite app_nil_r.
  rewrite firstn_app, L, Nat.sub_diag, firstn_O, app_nil_r. rewrite firstn_firstn, Nat.min_id.
  apply firstn_more.
Qed.

Lemma len_step a b p q ph ph' f e : fs_target f p = Some q -> (forall g, e <> Other g) -> len_inv a b q ph ph' f ->
  let s := save_step p a e (ph, f) in len_inv a b q (fst s) ph' (snd s) /\ fs_target (snd s) = fs_target f.
Proof.
  intros Et He H. cbn zeta.
  assert (Hfail : forall q', (q' = None \/ q' = Some q) -> len_inv a b q (Failed q') ph' f).
  { intros q' Hq. destruct H as (_ & H2 & _). split; [|split; [exact H2|exact I]].
    split; [|exact I]. destruct q'; cbn; destruct Hq; auto. }
  destruct e as [| |n| | |g]; [| | | | |now destruct (He g)]; destruct ph as [|q' pos|q'|q']; cbn [save_step];
    try (split; [exact H|reflexivity]).
  - rewrite Et. destruct (fs_creatable f p); [|split; [apply Hfail; now left|reflexivity]]. cbn [fst snd]. split; [|reflexivity].
    destruct H as (_ & H2 & _). split; [apply advance_inv|]. split; [exact H2|].
    assert (D : done_by a (advance a q 0) = 0) by (apply advance_done; lia).
    assert (N := node_holding f q []). destruct (advance a q 0) as [|r k|r|r] eqn:Ea; try (unfold advance in Ea; destruct (_ <? _); discriminate);
      cbn [done_by] in D; destruct ph' as [|r' k'|r'|r']; try exact I; rewrite N; cbn [done_by]; rewrite ?D; try reflexivity;
      exists []; (split; [reflexivity|right; left; reflexivity]).
  - split; [apply Hfail; now left|reflexivity].
  - assert (q' = q). { destruct H as (([O|O] & _) & _); cbn in O; congruence. } subst q'.
    pose proof (write_end a pos n) as We. pose proof (firstn_more' a pos n) as Hl'.
    destruct (firstn n (skipn pos a)) as [|y ch] eqn:Ec.
    { split; [|reflexivity]. cbn [fst snd]. apply Hfail. now right. }
    rewrite <- Ec in *. set (chunk := firstn n (skipn pos a)) in *. cbn [fst snd]. split; [|reflexivity].
    destruct H as (H1 & H2 & H3). destruct H1 as [_ Hpos].
    rewrite app_length, firstn_length, Nat.min_l in Hl' by lia.
    split; [apply advance_inv|]. split; [exact H2|].
    assert (D : done_by a (advance a q (pos + length chunk)) = pos + length chunk) by (apply advance_done; lia).
    specialize (We ltac:(lia)).
    assert (Goal' : forall c c', fs_node f q = Some (Regular c) -> write_at c pos chunk = c' ->
       fs_node (holding f q (write_at (held f q) pos chunk)) q = Some (Regular c')).
    { intros c c' Hn <-. rewrite node_holding. unfold held. now rewrite Hn. }
    destruct (advance a q (pos + length chunk)) as [|r k|r|r] eqn:Ea; try (unfold advance in Ea; destruct (_ <? _); discriminate);
      cbn [done_by] in D; destruct ph' as [|r' k'|r'|r']; try exact I; cbn [done_by] in H3 |- *; rewrite D.
    1,4: apply (Goal' _ _ H3 We).
    all: destruct H3 as (c & Hn & Hc); exists (write_at c pos chunk); (split; [apply (Goal' _ _ Hn eq_refl)|]);
      destruct Hc as [Hc|[Hc|Hc]];
      [left; rewrite length_write_at, Hc; lia|right; left; rewrite Hc; exact We|].
    all: left; rewrite length_write_at, Hc, firstn_length; destruct H2 as [_ H2]; lia.
  - cbn [fst snd]. assert (q' = q). { destruct H as (([O|O] & _) & _); cbn in O; congruence. } subst q'.
    split; [apply Hfail; now right|reflexivity].
Qed.
Lemma len_run p p' a b q es : only_two es -> forall ph ph' f, fs_target f p = Some q -> fs_target f p' = Some q ->
  len_inv a b q ph ph' f -> let '(ph1, ph2, f') := saving_both p p' a b es (ph, ph', f) in len_inv a b q ph1 ph2 f'.
Proof.
  induction es as [|[k e] es IH]; intros H ph ph' f E1 E2 I; [exact I|].
  assert (H' : only_two es) by (intros k' g Hg; apply (H k' g); now right).
  assert (He : forall g, e <> Other g) by (intros g ->; apply (H k g); now left).
  cbn [saving_both fold_left]. destruct k; cbn [save_both].
  - destruct (len_step a b p q ph ph' f e E1 He I) as [I' T]. destruct (save_step p a e (ph, f)) as [ph1 f1].
    cbn [fst snd] in *. apply (IH H' ph1 ph' f1); [now rewrite T|now rewrite T|exact I'].
  - apply len_inv_swap in I. destruct (len_step b a p' q ph' ph f e E2 He I) as [I' T]. destruct (save_step p' b e (ph', f)) as [ph1 f1].
    cbn [fst snd] in *. apply (IH H' ph ph1 f1); [now rewrite T|now rewrite T|now apply len_inv_swap].
Qed.

Theorem saved_length : forall p p' a b es f q f' q1 q2, only_two es -> fs_target f p = Some q -> fs_target f p' = Some q ->
  saving_both p p' a b es (Opening, Opening, f) = (Saved q1, Saved q2, f') ->
  exists c, fs_node f' q = Some (Regular c) /\ (c = a \/ c = b \/ length c = Nat.max (length a) (length b)).
Proof.
  intros p p' a b es f q f' q1 q2 H E1 E2 E.
  assert (I0 : len_inv a b q Opening Opening f) by (repeat split; now left).
  pose proof (len_run p p' a b q es H Opening Opening f E1 E2 I0) as T. rewrite E in T. destruct T as (_ & _ & c & Hn & Hc).
  exists c. split; [exact Hn|]. cbn [done_by] in Hc. rewrite !firstn_all in Hc. tauto.
Qed.

(** Both had the file open before either wrote. *)
Definition tog_inv (a b : list byte) (q : path) (ph ph' : phase) (f : fsys) : Prop :=
  one_inv a q ph /\ one_inv b q ph' /\ ph <> Opening /\ ph' <> Opening /\
  (alive ph -> alive ph' -> exists c, fs_node f q = Some (Regular c) /\
      length c = Nat.max (done_by a ph) (done_by b ph') /\
      forall i x, nth_error c i = Some x -> nth_error a i = Some x \/ nth_error b i = Some x).
Lemma tog_inv_swap a b q ph ph' f : tog_inv a b q ph ph' f -> tog_inv b a q ph' ph f.
Proof.
  intros (H1 & H2 & H3 & H4 & H5). repeat (split; [assumption|]). intros A A'.
  destruct (H5 A' A) as (c & Hn & Hl & Hb). exists c. split; [exact Hn|]. split; [lia|]. intros i x E. specialize (Hb i x E). tauto.
Qed.
Lemma advance_alive data q k : alive (advance data q k).
Proof. unfold advance. now destruct (_ <? _). Qed.
Lemma advance_open data q k : advance data q k <> Opening.
Proof. unfold advance. now destruct (_ <? _). Qed.
Lemma tog_step a b p q ph ph' f e : fs_target f p = Some q -> (forall g, e <> Other g) -> tog_inv a b q ph ph' f ->
  let s := save_step p a e (ph, f) in tog_inv a b q (fst s) ph' (snd s) /\ fs_target (snd s) = fs_target f.
Proof.
  intros Et He H. cbn zeta.
  assert (Hfail : tog_inv a b q (Failed (Some q)) ph' f).
  { destruct H as (_ & H2 & _ & H4 & _). split; [split; [now right|exact I]|]. repeat (split; [first [assumption|discriminate]|]).
    intros []. }
  assert (Ho : ph <> Opening) by apply H.
  destruct e as [| |n| | |g]; [| | | | |now destruct (He g)]; destruct ph as [|q' pos|q'|q']; cbn [save_step];
    try (split; [exact H|reflexivity]); try (now destruct Ho).
  - assert (q' = q). { destruct H as (([O|O] & _) & _); cbn in O; congruence. } subst q'.
    pose proof (nth_chunk a n pos) as Nc. pose proof (firstn_more' a pos n) as Hl'.
    destruct (firstn n (skipn pos a)) as [|y ch] eqn:Ec; [split; [exact Hfail|reflexivity]|].
    rewrite <- Ec in *. set (chunk := firstn n (skipn pos a)) in *. cbn [fst snd]. split; [|reflexivity].
    destruct H as (H1 & H2 & _ & H4 & H5). destruct H1 as [_ Hpos].
    rewrite app_length, firstn_length, Nat.min_l in Hl' by lia.
    split; [apply advance_inv|]. split; [exact H2|]. split; [apply advance_open|]. split; [exact H4|]. intros _ A'.
    destruct (H5 I A') as (c & Hn & Hl & Hb). cbn [done_by] in Hl. exists (write_at c pos chunk).
    split; [rewrite node_holding; unfold held; now rewrite Hn|]. rewrite advance_done by lia. split; [rewrite length_write_at; lia|].
    intros i x. rewrite nth_write_at. destruct (i <? pos) eqn:L1.
    + apply Nat.ltb_lt in L1. replace (i <? length c) with true by (symmetry; apply Nat.ltb_lt; lia). apply Hb.
    + apply Nat.ltb_ge in L1. destruct (i <? pos + length chunk) eqn:L2; [|apply Hb]. apply Nat.ltb_lt in L2.
      rewrite Nc by lia. replace (pos + (i - pos)) with i by lia. now left.
  - assert (q' = q). { destruct H as (([O|O] & _) & _); cbn in O; congruence. } subst q'. split; [exact Hfail|reflexivity].
Qed.
Lemma tog_run p p' a b q es : only_two es -> forall ph ph' f, fs_target f p = Some q -> fs_target f p' = Some q ->
  tog_inv a b q ph ph' f -> let '(ph1, ph2, f') := saving_both p p' a b es (ph, ph', f) in tog_inv a b q ph1 ph2 f'.
Proof.
  induction es as [|[k e] es IH]; intros H ph ph' f E1 E2 I; [exact I|].
  assert (H' : only_two es) by (intros k' g Hg; apply (H k' g); now right).
  assert (He : forall g, e <> Other g) by (intros g ->; apply (H k g); now left).
  cbn [saving_both fold_left]. destruct k; cbn [save_both].
  - destruct (tog_step a b p q ph ph' f e E1 He I) as [I' T]. destruct (save_step p a e (ph, f)) as [ph1 f1].
    cbn [fst snd] in *. apply (IH H' ph1 ph' f1); [now rewrite T|now rewrite T|exact I'].
  - apply tog_inv_swap in I. destruct (tog_step b a p' q ph' ph f e E2 He I) as [I' T]. destruct (save_step p' b e (ph', f)) as [ph1 f1].
    cbn [fst snd] in *. apply (IH H' ph ph1 f1); [now rewrite T|now rewrite T|now apply tog_inv_swap].
Qed.
Theorem opened_together : forall p p' a b es f q f' q1 q2, only_two es -> fs_target f p = Some q -> fs_target f p' = Some q ->
  saving_both p p' a b ((true, Created) :: (false, Created) :: es) (Opening, Opening, f) = (Saved q1, Saved q2, f') ->
  exists c, fs_node f' q = Some (Regular c) /\ length c = Nat.max (length a) (length b) /\
    forall i x, nth_error c i = Some x -> nth_error a i = Some x \/ nth_error b i = Some x.
Proof.
  intros p p' a b es f q f' q1 q2 H E1 E2 E.
  assert (Fl : forall qq ph2 g es, fst (fst (saving_both p p' a b es (Failed qq, ph2, g))) = Failed qq).
  { intros qq ph2 g es0. revert ph2 g. induction es0 as [|[k e] es0 IH]; intros ph2 g; [reflexivity|].
    cbn [saving_both fold_left]. destruct k; cbn [save_both].
    - destruct e; cbn [save_step]; apply IH.
    - destruct (save_step p' b e (ph2, g)) as [x y]. apply IH. }
  assert (Fr : forall qq ph2 g es, snd (fst (saving_both p p' a b es (ph2, Failed qq, g))) = Failed qq).
  { intros qq ph2 g es0. revert ph2 g. induction es0 as [|[k e] es0 IH]; intros ph2 g; [reflexivity|].
    cbn [saving_both fold_left]. destruct k; cbn [save_both].
    - destruct (save_step p a e (ph2, g)) as [x y]. apply IH.
    - destruct e; cbn [save_step]; apply IH. }
  cbn [saving_both fold_left save_both] in E. destruct (save_step p a Created (Opening, f)) as [ph1 f1] eqn:S1.
  cbn [save_both] in E. destruct (save_step p' b Created (Opening, f1)) as [ph2 f2] eqn:S2. fold (saving_both p p' a b es (ph1, ph2, f2)) in E.
  cbn [save_step] in S1, S2. rewrite E1 in S1. destruct (fs_creatable f p).
  2:{ injection S1 as <- <-. pose proof (Fl None ph2 f2 es) as X. rewrite E in X. discriminate. }
  injection S1 as <- <-. cbn [holding fs_target] in S2. rewrite E2 in S2. fold (holding f q []) in S2.
  destruct (fs_creatable (holding f q []) p').
  2:{ injection S2 as <- <-. pose proof (Fr None (advance a q 0) (holding f q []) es) as X. rewrite E in X. discriminate. }
  injection S2 as <- <-.
  assert (I0 : tog_inv a b q (advance a q 0) (advance b q 0) (holding (holding f q []) q [])).
  { split; [apply advance_inv|]. split; [apply advance_inv|]. split; [apply advance_open|]. split; [apply advance_open|].
    intros _ _. exists []. split; [apply node_holding|]. rewrite !advance_done by lia. split; [reflexivity|]. intros [|i] x X; discriminate. }
  pose proof (tog_run p p' a b q es H _ _ (holding (holding f q []) q []) E1 E2 I0) as T.
  rewrite E in T. destruct T as (_ & _ & _ & _ & T). exact (T I I).
Qed.
