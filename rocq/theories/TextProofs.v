(** From halves to plain texts: positions found by the code are the positions
    of the specification. *)
From Verif Require Import Base Utf8 Utf8Proofs Grapheme GraphemeProofs Position GapBuffer
  GapBufferProofs Spec Calls.

(** ** Lines *)

Lemma lines_of_ne t : lines_of t <> [].
Proof.
  induction t as [|c t IH]; simpl; [discriminate|].
  destruct (lines_of t); [contradiction|]. destruct (N.eq_dec c LF); discriminate.
Qed.

Lemma lines_of_cons_lf t : lines_of (LF :: t) = [] :: lines_of t.
Proof.
  simpl. destruct (lines_of t) eqn:E; [now apply lines_of_ne in E|].
  reflexivity.
Qed.

Lemma lines_of_app l : ~ In LF l -> forall t,
  lines_of (l ++ LF :: t) = l :: lines_of t.
Proof.
  induction l as [|c l IH]; intros H t.
  - apply lines_of_cons_lf.
  - change (lines_of (c :: (l ++ LF :: t)) = (c :: l) :: lines_of t).
    assert (IH' := IH (fun X => H (or_intror X)) t).
    cbn [lines_of]. rewrite IH'.
    destruct (N.eq_dec c LF) as [->|]; [|reflexivity]. exfalso. apply H. now left.
Qed.

Lemma lines_of_one l : ~ In LF l -> lines_of l = [l].
Proof.
  induction l as [|c l IH]; intros H; [reflexivity|].
  cbn [lines_of]. rewrite IH by (intros X; apply H; now right).
  destruct (N.eq_dec c LF) as [->|]; [|reflexivity]. exfalso. apply H. now left.
Qed.

(** Every text is one line, or a line, a newline and a text. *)
Lemma text_line_ind (P : text -> Prop) :
  (forall l, ~ In LF l -> P l) ->
  (forall l t, ~ In LF l -> P t -> P (l ++ LF :: t)) ->
  forall t, P t.
Proof.
  intros H1 H2 t.
  enough (H : forall n t, length t <= n -> P t) by (apply (H (length t)); lia).
  clear t. induction n as [|n IH]; intros t Hn.
  - apply H1. destruct t; [easy|simpl in Hn; lia].
  - destruct (in_dec N.eq_dec LF t) as [Hin|Hin]; [|now apply H1].
    assert (X : exists l r, t = l ++ LF :: r /\ ~ In LF l).
    { clear -Hin. induction t as [|c t IH]; [contradiction|].
      destruct (N.eq_dec c LF) as [->|Hc].
      - exists [], t. split; [reflexivity|easy].
      - destruct Hin as [->|Hin]; [contradiction|]. destruct (IH Hin) as (l & r & -> & Hl).
        exists (c :: l), r. split; [reflexivity|]. intros [->|X]; contradiction. }
    destruct X as (l & r & -> & Hl). apply H2; [assumption|]. apply IH.
    rewrite app_length in Hn. simpl in Hn. lia.
Qed.

Lemma lines_of_join t : concat (map (fun l => l ++ [LF]) (lines_of t)) = t ++ [LF].
Proof.
  induction t as [l Hl|l t Hl IHt] using text_line_ind.
  - rewrite lines_of_one by assumption. simpl. now rewrite app_nil_r.
  - rewrite lines_of_app by assumption. cbn [map concat]. rewrite IHt.
    rewrite <- !app_assoc. reflexivity.
Qed.

Lemma lines_of_no_lf t : Forall (fun l => ~ In LF l) (lines_of t).
Proof.
  induction t as [l Hl|l t Hl IHt] using text_line_ind.
  - rewrite lines_of_one by assumption. now repeat constructor.
  - rewrite lines_of_app by assumption. now constructor.
Qed.

(** ** Cluster lists and lines *)

Lemma plain_newlines_pre brk t pre post :
  plain_newlines brk t -> graphemes brk t = pre ++ post -> plain_newlines brk (concat pre).
Proof.
  intros H E g Hg. rewrite (graphemes_pre _ _ _ _ E) in Hg. apply H. rewrite E.
  apply in_or_app. now left.
Qed.
Lemma plain_newlines_post brk t pre post :
  plain_newlines brk t -> graphemes brk t = pre ++ post -> plain_newlines brk (concat post).
Proof.
  intros H E g Hg. rewrite (graphemes_post _ _ _ _ E) in Hg. apply H. rewrite E.
  apply in_or_app. now right.
Qed.

Lemma concat_no_lf (gs : list grapheme) :
  ~ In LF (concat gs) -> forall g, In g gs -> ~ In LF g.
Proof.
  intros H g Hg X. apply H. apply in_concat. now exists g.
Qed.

Lemma split_clusters (gs : list grapheme) : forall l t,
  Forall (fun g => g <> []) gs ->
  (forall g, In g gs -> In LF g -> g = [LF]) ->
  concat gs = l ++ LF :: t -> ~ In LF l ->
  exists g1 g2, gs = g1 ++ [LF] :: g2 /\ concat g1 = l /\ concat g2 = t.
Proof.
  induction gs as [|g gs IH]; intros l t Hne Hc E Hl.
  - destruct l; discriminate.
  - simpl in E. inversion_clear Hne as [|? ? Hg Hne'].
    destruct (app_split_cases _ _ _ _ E) as [(m & -> & Em)|(m & -> & Em)].
    + destruct m as [|c m].
      * rewrite app_nil_r in *. simpl in Em.
        destruct (IH [] t) as (g1 & g2 & -> & H1 & H2); [assumption| | |easy|].
        { intros x Hx. apply Hc. now right. }
        { now symmetry. }
        exists (l :: g1), g2. simpl. rewrite H1, app_nil_r. now repeat split.
      * injection Em as <- Em.
        assert (X : l ++ LF :: m = [LF]).
        { apply Hc; [now left|]. apply in_or_app. right. now left. }
        destruct l as [|x l]; [|destruct l; discriminate X].
        injection X as ->. simpl in *. exists [], gs. now repeat split.
    + destruct (IH m t) as (g1 & g2 & -> & H1 & H2); [assumption| |assumption| |].
      { intros x Hx. apply Hc. now right. }
      { intros X. apply Hl. apply in_or_app. now right. }
      exists (g :: g1), g2. simpl. rewrite H1. now repeat split.
Qed.

Lemma plain_newlines_split brk l t :
  plain_newlines brk (l ++ LF :: t) -> ~ In LF l ->
  graphemes brk (l ++ LF :: t) = graphemes brk l ++ [LF] :: graphemes brk t
  /\ plain_newlines brk t.
Proof.
  intros H Hl.
  destruct (split_clusters (graphemes brk (l ++ LF :: t)) l t) as (g1 & g2 & E & H1 & H2).
  - apply graphemes_nonempty.
  - exact H.
  - apply graphemes_concat.
  - assumption.
  - destruct (graphemes_restart _ _ _ _ E) as [E1 E2]. rewrite H1 in E1.
    assert (E' : graphemes brk (l ++ LF :: t) = (g1 ++ [[LF]]) ++ g2)
      by (rewrite E, <- app_assoc; reflexivity).
    destruct (graphemes_restart _ _ _ _ E') as [_ E3]. rewrite H2 in E3.
    split; [now rewrite E, E1, E3|].
    rewrite <- H2. eapply plain_newlines_post; [exact H|exact E'].
Qed.

(** Offsets on a line without newlines. *)
Lemma pos_after_line gs : (forall g, In g gs -> is_lf g = false) -> forall a b,
  pos_after (Pos a b) gs = Pos a (b + length gs).
Proof.
  induction gs as [|g gs IH]; intros H a b; simpl.
  - now rewrite Nat.add_0_r.
  - unfold adv. rewrite (H g) by now left. simpl.
    rewrite IH by (intros x Hx; apply H; now right). f_equal. lia.
Qed.

Lemma no_lf_clusters brk l : ~ In LF l -> forall g, In g (graphemes brk l) -> is_lf g = false.
Proof.
  intros H g Hg. destruct (is_lf g) eqn:E; [|reflexivity].
  apply is_lf_iff in E. subst g. exfalso. apply H.
  rewrite <- (graphemes_concat brk l). apply in_concat. exists [LF]. split; [assumption|now left].
Qed.

Lemma gsplit_shift gs : forall a b c d,
  gsplit gs (Pos (S a) b) (Pos (S c) d) = gsplit gs (Pos a b) (Pos c d).
Proof.
  induction gs as [|g gs IH]; intros a b c d; simpl; unfold pos_eqb; simpl;
    destruct ((a =? c) && (b =? d)); try reflexivity.
  unfold adv; simpl. destruct (is_lf g); now rewrite IH.
Qed.

Lemma gsplit_line gs a b c d : (forall g, In g gs -> is_lf g = false) ->
  gsplit gs (Pos a b) (Pos c d) =
  if (a =? c) && (b <=? d) && (d <=? b + length gs)
  then Some (firstn (d - b) gs, skipn (d - b) gs) else None.
Proof.
  revert b. induction gs as [|g gs IH]; intros b H; simpl.
  - unfold pos_eqb; simpl. destruct (a =? c); simpl; [|reflexivity].
    destruct (Nat.eqb_spec b d) as [->|].
    + rewrite Nat.leb_refl. rewrite (proj2 (Nat.leb_le _ _)) by lia. simpl.
      now rewrite Nat.sub_diag.
    + destruct (Nat.leb_spec b d); destruct (Nat.leb_spec d (b + 0)); try reflexivity. lia.
  - unfold pos_eqb; simpl. unfold adv. rewrite (H g) by now left. simpl.
    rewrite IH by (intros x Hx; apply H; now right).
    destruct (a =? c); simpl; [|reflexivity].
    destruct (Nat.eqb_spec b d) as [->|].
    + rewrite Nat.leb_refl. rewrite (proj2 (Nat.leb_le _ _)) by lia. simpl.
      now rewrite Nat.sub_diag.
    + destruct (Nat.leb_spec b d) as [H1|H1].
      * rewrite (proj2 (Nat.leb_le (b + 1) d)) by lia. simpl.
        replace (b + S (length gs)) with (b + 1 + length gs) by lia.
        destruct (d <=? b + 1 + length gs); [|reflexivity].
        replace (d - b) with (S (d - (b + 1))) by lia. reflexivity.
      * rewrite (proj2 (Nat.leb_gt (b + 1) d)) by lia. reflexivity.
Qed.

(** The position lookup on the cluster list is the one of the specification. *)
Lemma gsplit_prefix brk t : plain_newlines brk t -> forall p,
  prefix_at brk t p =
  match gsplit (graphemes brk t) (Pos 0 0) p with
  | Some (pre, _) => Some (concat pre)
  | None => None
  end.
Proof.
  induction t as [l Hl|l t Hl IH] using text_line_ind; intros Hp [ln off].
  - unfold prefix_at; simpl line; simpl offset. rewrite lines_of_one by assumption.
    rewrite gsplit_line by now apply no_lf_clusters.
    destruct ln as [|ln]; simpl.
    + rewrite Nat.sub_0_r. destruct (off <=? _); reflexivity.
    + destruct ln; reflexivity.
  - destruct (plain_newlines_split _ _ _ Hp Hl) as [E Ht]. specialize (IH Ht).
    rewrite E, gsplit_app. rewrite gsplit_line by now apply no_lf_clusters.
    unfold prefix_at; simpl line; simpl offset. rewrite lines_of_app by assumption.
    destruct ln as [|ln].
    + simpl. rewrite Nat.sub_0_r. destruct (Nat.leb_spec off (length (graphemes brk l))); [reflexivity|].
      rewrite pos_after_line by now apply no_lf_clusters. simpl.
      unfold pos_eqb; simpl. destruct (Nat.eqb_spec (length (graphemes brk l)) off); [lia|].
      destruct (gsplit (graphemes brk t) (adv (Pos 0 (length (graphemes brk l))) [LF]) (Pos 0 off))
        as [[pre post]|] eqn:Eg; [|reflexivity].
      exfalso. apply gsplit_iff in Eg as [_ Eg].
      pose proof (pos_after_ple pre (adv (Pos 0 (length (graphemes brk l))) [LF])) as X.
      rewrite Eg in X. unfold adv in X. simpl in X. apply ple_spec in X. simpl in X. lia.
    + cbn [Nat.eqb andb nth_error firstn map concat].
      rewrite pos_after_line by now apply no_lf_clusters. cbn [plus gsplit].
      unfold pos_eqb; simpl line; simpl offset. cbn [Nat.eqb andb].
      unfold adv; simpl. rewrite gsplit_shift.
      specialize (IH (Pos ln off)). unfold prefix_at in IH; simpl line in IH; simpl offset in IH.
      destruct (gsplit (graphemes brk t) (Pos 0 0) (Pos ln off)) as [[pre post]|].
      * rewrite concat_app, graphemes_concat. cbn [concat].
        destruct (nth_error (lines_of t) ln) as [l'|]; [|discriminate].
        destruct (off <=? length (graphemes brk l')); [|discriminate].
        injection IH as <-. now rewrite <- !app_assoc.
      * destruct (nth_error (lines_of t) ln) as [l'|]; [|reflexivity].
        destruct (off <=? length (graphemes brk l')); [discriminate|reflexivity].
Qed.

Lemma gsplit_split_at brk t : plain_newlines brk t -> forall p,
  split_at brk t p =
  match gsplit (graphemes brk t) (Pos 0 0) p with
  | Some (pre, post) => Some (concat pre, concat post)
  | None => None
  end.
Proof.
  intros H p. unfold split_at. rewrite gsplit_prefix by assumption.
  destruct (gsplit (graphemes brk t) (Pos 0 0) p) as [[pre post]|] eqn:E; [|reflexivity].
  apply gsplit_iff in E as [E _]. do 2 f_equal.
  assert (Et : t = concat pre ++ concat post)
    by (rewrite <- (graphemes_concat brk t), E; apply concat_app).
  rewrite Et at 1. rewrite skipn_app, skipn_all, Nat.sub_diag. reflexivity.
Qed.

(** ** Order *)

Lemma before_plt p q : before p q = true <-> plt p q.
Proof.
  unfold before, plt. rewrite orb_true_iff, andb_true_iff, !Nat.ltb_lt, Nat.eqb_eq. reflexivity.
Qed.

Lemma first_second_ple p q : ple (first_of p q) (second_of p q).
Proof.
  unfold first_of, second_of. destruct (before q p) eqn:E.
  - right. now apply before_plt.
  - destruct (ple_total p q) as [H|H]; [assumption|]. apply before_plt in H. congruence.
Qed.

Lemma pos_gtb_before p q : pos_gtb p q = before q p.
Proof.
  unfold pos_gtb, pos_cmp, before.
  destruct (Nat.ltb_spec (line p) (line q)), (Nat.ltb_spec (line q) (line p)),
    (Nat.eqb_spec (line q) (line p)), (Nat.ltb_spec (offset p) (offset q)),
    (Nat.ltb_spec (offset q) (offset p)); try lia; reflexivity.
Qed.

Lemma range_new_ordered p q : range_new p q = Rng (first_of p q) (second_of p q).
Proof.
  unfold range_new, first_of, second_of. rewrite pos_gtb_before. now destruct (before q p).
Qed.

(** ** The gap buffer holds a plain text, split at a cluster boundary *)

Definition holds (brk : brk_rule) (g : gapbuf) (t : text) : Prop :=
  exists s1 s2, rep g s1 s2 /\ t = s1 ++ s2 /\ seam brk s1 s2.

Lemma holds_intro brk g a b t : rep g a b -> seam brk a b -> t = a ++ b -> holds brk g t.
Proof. intros H S E. exists a, b. now split. Qed.

Lemma holds_to_string brk g t : holds brk g t -> gb_to_string g = Ok t.
Proof. intros (s1 & s2 & H & -> & _). now apply to_string_ok. Qed.

Lemma holds_valid brk g t : holds brk g t -> valid_text t.
Proof. intros (s1 & s2 & H & -> & _). now apply rep_valid in H. Qed.

Lemma holds_new brk al s : valid_text s -> exists g, gb_new al s = Ok g /\ holds brk g s.
Proof.
  intros V. destruct (new_ok al s V) as (g & E & H). exists g. split; [assumption|].
  eapply holds_intro; [exact H|apply seam_nil_r|now rewrite app_nil_r].
Qed.

Lemma holds_in_bounds brk g t p : holds brk g t -> plain_newlines brk t ->
  in_bounds brk g p = Ok (exists_at brk t p).
Proof.
  intros (s1 & s2 & H & -> & S) Hp. rewrite (in_bounds_halves _ _ _ _ _ H).
  unfold exists_at. rewrite gsplit_split_at by assumption. unfold hsplit, hgs.
  rewrite S. destruct (gsplit _ _ _) as [[? ?]|]; reflexivity.
Qed.

Lemma no_merge3 brk a d b : no_merge brk [a; d; b] ->
  graphemes brk (a ++ d ++ b) = graphemes brk a ++ graphemes brk d ++ graphemes brk b.
Proof. unfold no_merge; simpl. now rewrite !app_nil_r. Qed.
Lemma no_merge2 brk a b : no_merge brk [a; b] <-> seam brk a b.
Proof. unfold no_merge, seam; simpl. now rewrite !app_nil_r. Qed.

Lemma no_merge3_seams brk a d b : no_merge brk [a; d; b] ->
  seam brk a d /\ seam brk (a ++ d) b /\ seam brk d b /\ seam brk a (d ++ b).
Proof.
  intros H. apply no_merge3 in H.
  assert (E1 : graphemes brk (a ++ d ++ b) = (graphemes brk a ++ graphemes brk d) ++ graphemes brk b)
    by now rewrite <- app_assoc.
  destruct (graphemes_restart _ _ _ _ E1) as [H1 _].
  rewrite concat_app, !graphemes_concat in H1.
  destruct (graphemes_restart _ _ _ _ H) as [_ H2].
  rewrite concat_app, !graphemes_concat in H2.
  unfold seam. rewrite <- !app_assoc, H1, H2. repeat split; [|assumption].
  now rewrite H, app_assoc.
Qed.

Lemma plain_newlines_app brk a b : seam brk a b ->
  plain_newlines brk (a ++ b) <-> plain_newlines brk a /\ plain_newlines brk b.
Proof.
  intros S. unfold plain_newlines. rewrite S. split.
  - intros H. split; intros g Hg; apply H, in_or_app; auto.
  - intros [H1 H2] g Hg. apply in_app_or in Hg as [Hg|Hg]; auto.
Qed.

Lemma plain_newlines_nil brk : plain_newlines brk [].
Proof. intros g []. Qed.

Lemma holds_insert brk al g t data p :
  alloc_ok al -> holds brk g t -> plain_newlines brk t ->
  clean_call brk (GInsert data p) t ->
  exists g', gb_insert brk al g data p = Ok g' /\ holds brk g' (spec_insert brk t data p)
    /\ plain_newlines brk (spec_insert brk t data p).
Proof.
  intros Hal (s1 & s2 & Hrep & -> & S) Hp (Vd & Hd & Hc).
  pose proof (insert_halves brk al g s1 s2 data p Hal Hrep Vd) as X.
  destruct (lookup_halves g data s1 s2) as [h1 h2] eqn:El.
  assert (Hh : h1 ++ h2 = s1 ++ s2 /\ seam brk h1 h2).
  { unfold lookup_halves in El. destruct (_ <? _); injection El as <- <-.
    - rewrite app_nil_r. split; [reflexivity|apply seam_nil_r].
    - now split. }
  destruct Hh as [Eh Sh]. rewrite <- Eh in *.
  destruct X as (g' & Eg & X). exists g'. split; [assumption|].
  unfold spec_insert. rewrite gsplit_split_at in * by assumption.
  unfold hsplit, hgs in X. rewrite <- Sh in X.
  destruct (gsplit (graphemes brk (h1 ++ h2)) (Pos 0 0) p) as [[pre post]|] eqn:Es.
  - apply no_merge3_seams in Hc as (S1 & S2 & S3 & S4).
    apply gsplit_iff in Es as [Es _].
    split.
    + eapply holds_intro; [exact X|assumption|now rewrite <- app_assoc].
    + apply plain_newlines_app; [assumption|]. split; [exact (plain_newlines_pre _ _ _ _ Hp Es)|].
      apply plain_newlines_app; [assumption|]. split; [assumption|].
      exact (plain_newlines_post _ _ _ _ Hp Es).
  - split; [|assumption]. now exists h1, h2.
Qed.

Lemma holds_read brk g t p q : holds brk g t -> plain_newlines brk t ->
  gb_read brk g (range_new p q) = Ok (spec_read brk t p q).
Proof.
  intros (s1 & s2 & Hrep & -> & S) Hp. rewrite range_new_ordered.
  rewrite (read_halves _ _ _ _ _ _ Hrep (first_second_ple p q)).
  unfold spec_read, hsplit, hgs. rewrite <- S. rewrite !gsplit_split_at by assumption.
  destruct (gsplit (graphemes brk (s1 ++ s2)) (Pos 0 0) (first_of p q)) as [[pre post]|] eqn:E1;
    [|reflexivity].
  destruct (gsplit (graphemes brk (s1 ++ s2)) (Pos 0 0) (second_of p q)) as [[pre' post']|] eqn:E2;
    [|reflexivity].
  destruct (gsplit_mono _ _ _ _ _ _ _ _ E1 E2 (first_second_ple p q)) as (m & -> & ->).
  rewrite concat_app, !skipn_app, !skipn_all, !Nat.sub_diag. reflexivity.
Qed.

Lemma delete_to_ok brk a b q pre post :
  seam brk a b -> gsplit (graphemes brk (a ++ b)) (Pos 0 0) q = Some (pre, post) ->
  (exists m, concat pre = a ++ m) -> delete_to brk a b q = Some (Some (concat post)).
Proof.
  intros S E (m & Em). unfold delete_to, hsplit, hgs. rewrite <- S, E.
  rewrite Em, blen_app. now rewrite (proj2 (Nat.ltb_ge _ _)) by lia.
Qed.

Lemma holds_delete brk g t p q :
  holds brk g t -> plain_newlines brk t -> clean_call brk (GDelete p q) t ->
  exists g', gb_delete brk g (range_new p q) = Ok g' /\ holds brk g' (spec_delete brk t p q)
    /\ plain_newlines brk (spec_delete brk t p q).
Proof.
  intros (s1 & s2 & Hrep & -> & S) Hp Hc. rewrite range_new_ordered.
  pose proof (delete_ok brk g s1 s2 (first_of p q) (second_of p q) Hrep) as X.
  unfold clean_call in Hc. unfold spec_delete, spec_cut in *.
  pose proof (first_second_ple p q) as Hle.
  set (p1 := first_of p q) in *. set (q1 := second_of p q) in *.
  rewrite gsplit_split_at in * by assumption.
  unfold hsplit, hgs in X. rewrite <- S in X.
  destruct (gsplit (graphemes brk (s1 ++ s2)) (Pos 0 0) p1) as [[pre post]|] eqn:E1.
  2:{ exists g. split; [assumption|]. split; [|assumption]. now exists s1, s2. }
  pose proof (proj1 (gsplit_iff _ _ _ _ _) E1) as [Es _].
  pose proof (seam_split _ _ _ _ Es) as S'.
  assert (Et : concat pre ++ concat post = s1 ++ s2).
  { rewrite <- (graphemes_concat brk (s1 ++ s2)), Es. symmetry. apply concat_app. }
  assert (Hpre : plain_newlines brk (concat pre)) by (exact (plain_newlines_pre _ _ _ _ Hp Es)).
  assert (D : forall r pre' post',
    gsplit (graphemes brk (s1 ++ s2)) (Pos 0 0) r = Some (pre', post') -> ple p1 r ->
    delete_to brk (concat pre) (concat post) r = Some (Some (concat post'))
    /\ plain_newlines brk (concat post')).
  { intros r pre' post' E2 Hr.
    destruct (gsplit_mono _ _ _ _ _ _ _ _ E1 E2 Hr) as (m & -> & ->). split.
    - eapply delete_to_ok; [assumption|rewrite Et; exact E2|].
      exists (concat m). apply concat_app.
    - apply gsplit_iff in E2 as [E2 _]. exact (plain_newlines_post _ _ _ _ Hp E2). }
  assert (N : forall r, gsplit (graphemes brk (s1 ++ s2)) (Pos 0 0) r = None ->
    delete_to brk (concat pre) (concat post) r = None).
  { intros r E2. unfold delete_to, hsplit, hgs. rewrite <- S', Et, E2. reflexivity. }
  rewrite (gsplit_split_at brk (s1 ++ s2) Hp q1) in *. unfold delete_halves in X.
  destruct (gsplit (graphemes brk (s1 ++ s2)) (Pos 0 0) q1) as [[pre' post']|] eqn:E2.
  - destruct (D _ _ _ E2 Hle) as [D1 D2]. rewrite D1 in X. destruct X as (g' & Eg & Hr).
    apply no_merge2 in Hc. exists g'. split; [assumption|]. split.
    + now exists (concat pre), (concat post').
    + now apply plain_newlines_app.
  - rewrite (N _ E2) in X.
    rewrite (gsplit_split_at brk (s1 ++ s2) Hp (Pos (line q1 + 1) 0)) in *.
    destruct (gsplit (graphemes brk (s1 ++ s2)) (Pos 0 0) (Pos (line q1 + 1) 0))
      as [[pre' post']|] eqn:E3.
    + destruct (D _ _ _ E3) as [D1 D2].
      { eapply ple_trans; [exact Hle|]. right. unfold plt; simpl. lia. }
      rewrite D1 in X. destruct X as (g' & Eg & Hr).
      apply no_merge2 in Hc. exists g'. split; [assumption|]. split.
      * now exists (concat pre), (concat post').
      * now apply plain_newlines_app.
    + rewrite (N _ E3) in X. destruct X as (g' & Eg & Hr).
      exists g'. split; [assumption|]. split.
      * eapply holds_intro; [exact Hr|apply seam_nil_r|reflexivity].
      * now rewrite app_nil_r.
Qed.

(** One call. *)
Lemma holds_call brk al g t c :
  alloc_ok al -> holds brk g t -> plain_newlines brk t -> clean_call brk c t ->
  exists g', gexec brk al c g = Ok (fst (spec_call brk c t), g')
    /\ holds brk g' (snd (spec_call brk c t))
    /\ plain_newlines brk (snd (spec_call brk c t)).
Proof.
  intros Hal H Hp Hc. destruct c as [data p|p q|p q|p|]; cbn [gexec spec_call fst snd].
  - destruct (holds_insert brk al g t data p Hal H Hp Hc) as (g' & -> & H1 & H2).
    exists g'. now split.
  - destruct (holds_delete brk g t p q H Hp Hc) as (g' & -> & H1 & H2).
    exists g'. now split.
  - rewrite (holds_read brk g t p q H Hp). exists g. now split.
  - rewrite (holds_in_bounds brk g t p H Hp). exists g. now split.
  - rewrite (holds_to_string brk g t H). exists g. now split.
Qed.

Lemma holds_calls brk cs : forall g t,
  Forall (fun ac => alloc_ok (fst ac)) cs ->
  holds brk g t -> plain_newlines brk t -> clean_calls brk (map snd cs) t ->
  exists g', grun brk cs g = Ok (fst (spec_calls brk (map snd cs) t), g')
    /\ holds brk g' (snd (spec_calls brk (map snd cs) t)).
Proof.
  induction cs as [|[al c] cs IH]; intros g t Hal H Hp Hc.
  - exists g. now split.
  - inversion_clear Hal as [|? ? Ha Hal']. destruct Hc as [Hc Hcs]. simpl in Ha.
    destruct (holds_call brk al g t c Ha H Hp Hc) as (g1 & E1 & H1 & Hp1).
    cbn [grun map spec_calls]. rewrite E1. cbn [bind].
    change (snd (al, c)) with c in *.
    destruct (spec_call brk c t) as [o t1]. cbn [fst snd] in *.
    destruct (IH g1 t1 Hal' H1 Hp1 Hcs) as (g2 & E2 & H2). rewrite E2. cbn [bind].
    destruct (spec_calls brk (map snd cs) t1) as [os t2]. exists g2. now split.
Qed.

Lemma holds_calls_plain brk cs : forall g t,
  Forall (fun ac => alloc_ok (fst ac)) cs ->
  holds brk g t -> plain_newlines brk t -> clean_calls brk (map snd cs) t ->
  plain_newlines brk (snd (spec_calls brk (map snd cs) t)).
Proof.
  induction cs as [|[al c] cs IH]; intros g t Hal H Hp Hc; [exact Hp|].
  inversion_clear Hal as [|? ? Ha Hal']. destruct Hc as [Hc Hcs]. simpl in Ha.
  destruct (holds_call brk al g t c Ha H Hp Hc) as (g1 & E1 & H1 & Hp1).
  cbn [map spec_calls]. change (snd (al, c)) with c in *.
  destruct (spec_call brk c t) as [o t1]. cbn [fst snd] in *.
  specialize (IH g1 t1 Hal' H1 Hp1 Hcs). now destruct (spec_calls brk (map snd cs) t1).
Qed.

Lemma session_refines brk al s cs : clean_session brk s cs ->
  exists g, gsession brk al s cs = Ok (fst (spec_calls brk (map snd cs) s), g)
    /\ holds brk g (snd (spec_calls brk (map snd cs) s))
    /\ plain_newlines brk (snd (spec_calls brk (map snd cs) s)).
Proof.
  intros (V & Hp & Hal & Hc). unfold gsession.
  destruct (holds_new brk al s V) as (g & -> & H). cbn [bind].
  destruct (holds_calls brk cs g s Hal H Hp Hc) as (g' & -> & H').
  exists g'. split; [reflexivity|]. split; [assumption|]. eapply holds_calls_plain; eassumption.
Qed.

Lemma session_refines_text brk al s cs : clean_session brk s cs ->
  exists g, gsession brk al s cs = Ok (fst (spec_calls brk (map snd cs) s), g)
    /\ gb_to_string g = Ok (snd (spec_calls brk (map snd cs) s)).
Proof.
  intros H. destruct (session_refines brk al s cs H) as (g & E & Hh & _). exists g.
  split; [assumption|]. now apply holds_to_string in Hh.
Qed.

Lemma clean_buffer_holds brk g t : clean_buffer brk g t -> holds brk g t /\ plain_newlines brk t.
Proof.
  intros (al & s & cs & os & Hc & E & Et).
  destruct (session_refines brk al s cs Hc) as (g' & E' & H1 & H2). rewrite E in E'.
  injection E' as _ <-. pose proof (holds_to_string _ _ _ H1) as X. rewrite Et in X. injection X as ->.
  now split.
Qed.

(** The text after one call does not need the clean condition of that call. *)
Lemma insert_text brk al g t data p :
  alloc_ok al -> valid_text data -> holds brk g t -> plain_newlines brk t ->
  exists g', gb_insert brk al g data p = Ok g' /\ gb_to_string g' = Ok (spec_insert brk t data p).
Proof.
  intros Hal Vd (s1 & s2 & Hrep & -> & S) Hp.
  pose proof (insert_halves brk al g s1 s2 data p Hal Hrep Vd) as X.
  destruct (lookup_halves g data s1 s2) as [h1 h2] eqn:El.
  assert (Hh : h1 ++ h2 = s1 ++ s2 /\ seam brk h1 h2).
  { unfold lookup_halves in El. destruct (_ <? _); injection El as <- <-.
    - rewrite app_nil_r. split; [reflexivity|apply seam_nil_r].
    - now split. }
  destruct Hh as [Eh Sh]. rewrite <- Eh in *.
  destruct X as (g' & Eg & X). exists g'. split; [assumption|].
  unfold spec_insert. rewrite gsplit_split_at in * by assumption.
  unfold hsplit, hgs in X. rewrite <- Sh in X.
  destruct (gsplit (graphemes brk (h1 ++ h2)) (Pos 0 0) p) as [[pre post]|].
  - rewrite (to_string_ok _ _ _ X). now rewrite <- app_assoc.
  - now apply to_string_ok.
Qed.

Lemma delete_text brk g t p q :
  holds brk g t -> plain_newlines brk t ->
  exists g', gb_delete brk g (range_new p q) = Ok g'
    /\ gb_to_string g' = Ok (spec_delete brk t p q).
Proof.
  intros H Hp. pose proof H as (s1 & s2 & Hrep & -> & S). rewrite range_new_ordered.
  pose proof (delete_ok brk g s1 s2 (first_of p q) (second_of p q) Hrep) as X.
  unfold spec_delete, spec_cut. pose proof (first_second_ple p q) as Hle.
  set (p1 := first_of p q) in *. set (q1 := second_of p q) in *.
  rewrite gsplit_split_at in * by assumption.
  unfold hsplit, hgs in X. rewrite <- S in X.
  destruct (gsplit (graphemes brk (s1 ++ s2)) (Pos 0 0) p1) as [[pre post]|] eqn:E1.
  2:{ exists g. split; [assumption|]. now apply to_string_ok. }
  pose proof (proj1 (gsplit_iff _ _ _ _ _) E1) as [Es _].
  pose proof (seam_split _ _ _ _ Es) as S'.
  assert (Et : concat pre ++ concat post = s1 ++ s2).
  { rewrite <- (graphemes_concat brk (s1 ++ s2)), Es. symmetry. apply concat_app. }
  assert (D : forall r pre' post',
    gsplit (graphemes brk (s1 ++ s2)) (Pos 0 0) r = Some (pre', post') -> ple p1 r ->
    delete_to brk (concat pre) (concat post) r = Some (Some (concat post'))).
  { intros r pre' post' E2 Hr.
    destruct (gsplit_mono _ _ _ _ _ _ _ _ E1 E2 Hr) as (m & -> & ->).
    eapply delete_to_ok; [assumption|rewrite Et; exact E2|].
    exists (concat m). apply concat_app. }
  assert (N : forall r, gsplit (graphemes brk (s1 ++ s2)) (Pos 0 0) r = None ->
    delete_to brk (concat pre) (concat post) r = None).
  { intros r E2. unfold delete_to, hsplit, hgs. rewrite <- S', Et, E2. reflexivity. }
  rewrite (gsplit_split_at brk (s1 ++ s2) Hp q1) in *. unfold delete_halves in X.
  destruct (gsplit (graphemes brk (s1 ++ s2)) (Pos 0 0) q1) as [[pre' post']|] eqn:E2.
  - rewrite (D _ _ _ E2 Hle) in X. destruct X as (g' & Eg & Hr).
    exists g'. split; [assumption|]. now apply to_string_ok.
  - rewrite (N _ E2) in X.
    rewrite (gsplit_split_at brk (s1 ++ s2) Hp (Pos (line q1 + 1) 0)) in *.
    destruct (gsplit (graphemes brk (s1 ++ s2)) (Pos 0 0) (Pos (line q1 + 1) 0))
      as [[pre' post']|] eqn:E3.
    + rewrite (D _ _ _ E3) in X.
      2:{ eapply ple_trans; [exact Hle|]. right. unfold plt; simpl. lia. }
      destruct X as (g' & Eg & Hr). exists g'. split; [assumption|]. now apply to_string_ok.
    + rewrite (N _ E3) in X. destruct X as (g' & Eg & Hr).
      exists g'. split; [assumption|]. now apply to_string_ok.
Qed.

(** ** Texts over a family of clusters that never merge *)

Definition newline_family (U : text -> Prop) : Prop :=
  forall u, U u -> valid_text u /\ (In LF u -> u = [LF]).

Lemma words_plain brk U t : indep brk U -> newline_family U -> words U t -> plain_newlines brk t.
Proof.
  intros HI HU Ht g Hg. pose proof (words_graphemes _ _ _ HI Ht) as HF.
  rewrite Forall_forall in HF. now apply HU, HF.
Qed.

Lemma words_valid U t : newline_family U -> words U t -> valid_text t.
Proof.
  intros HU (us & Hu & ->). apply valid_concat. eapply Forall_impl; [|exact Hu].
  intros u Hx. now apply HU.
Qed.

Lemma words_split_at brk U t p a b : indep brk U -> newline_family U -> words U t ->
  split_at brk t p = Some (a, b) -> words U a /\ words U b.
Proof.
  intros HI HU Ht. rewrite gsplit_split_at by (eapply words_plain; eassumption).
  destruct (gsplit _ _ _) as [[pre post]|] eqn:E; [|discriminate].
  apply gsplit_iff in E as [E _]. intros X; injection X as <- <-.
  eapply words_split; eassumption.
Qed.

Lemma words_cut brk U t p q a b : indep brk U -> newline_family U -> words U t ->
  spec_cut brk t p q = Some (a, b) -> words U a /\ words U b.
Proof.
  intros HI HU Ht. unfold spec_cut.
  destruct (split_at brk t (first_of p q)) as [[a0 b0]|] eqn:E1; [|discriminate].
  apply (words_split_at brk U) in E1 as [W1 _]; [|assumption ..].
  destruct (split_at brk t (second_of p q)) as [[a1 b1]|] eqn:E2.
  - apply (words_split_at brk U) in E2 as [_ W2]; [|assumption ..].
    intros X; injection X as <- <-. now split.
  - destruct (split_at brk t (Pos (line (second_of p q) + 1) 0)) as [[a2 b2]|] eqn:E3.
    + apply (words_split_at brk U) in E3 as [_ W3]; [|assumption ..].
      intros X; injection X as <- <-. now split.
    + intros X; injection X as <- <-. split; [assumption|apply words_nil].
Qed.

Lemma words_no_merge3 brk U a d b : indep brk U -> words U a -> words U d -> words U b ->
  no_merge brk [a; d; b].
Proof.
  intros HI Ha Hd Hb. unfold no_merge; simpl. rewrite !app_nil_r.
  rewrite (words_seam brk U a (d ++ b) HI Ha (words_app _ _ _ Hd Hb)).
  now rewrite (words_seam brk U d b HI Hd Hb).
Qed.

Lemma words_clean brk U c t : indep brk U -> newline_family U -> words U t ->
  inserts (words U) c -> clean_call brk c t /\ words U (snd (spec_call brk c t)).
Proof.
  intros HI HU Ht Hi. destruct c as [d p|p q|p q|p|]; simpl in *; try now split.
  - unfold spec_insert. destruct (split_at brk t p) as [[a b]|] eqn:E.
    + destruct (words_split_at _ _ _ _ _ _ HI HU Ht E) as [Wa Wb]. split.
      * split; [eapply words_valid; eassumption|].
        split; [eapply words_plain; eassumption|]. now apply (words_no_merge3 brk U).
      * now apply words_app; [|apply words_app].
    + split; [|assumption]. split; [eapply words_valid; eassumption|].
      split; [eapply words_plain; eassumption|exact I].
  - unfold spec_delete. destruct (spec_cut brk t p q) as [[a b]|] eqn:E.
    + destruct (words_cut _ _ _ _ _ _ _ HI HU Ht E) as [Wa Wb]. split.
      * apply no_merge2. now apply (words_seam brk U).
      * now apply words_app.
    + now split.
Qed.

Lemma words_clean_calls brk U cs : indep brk U -> newline_family U -> forall t, words U t ->
  Forall (inserts (words U)) cs -> clean_calls brk cs t.
Proof.
  intros HI HU. induction cs as [|c cs IH]; intros t Ht HF; simpl; [exact I|].
  inversion_clear HF as [|? ? Hc HF'].
  destruct (words_clean brk U c t HI HU Ht Hc) as [H1 H2]. split; [assumption|]. now apply IH.
Qed.
