(** Lines, columns and end positions of plain texts. *)
From Verif Require Import Base Utf8 Utf8Proofs Grapheme GraphemeProofs Position GapBuffer
  GapBufferProofs Cursor Spec TextProofs.

(** ** Lines *)

Lemma split_lf_lines t : split_lf t = lines_of t.
Proof.
  induction t as [|c t IH]; [reflexivity|]. cbn [split_lf lines_of]. rewrite IH.
  destruct (lines_of t) eqn:E; [now apply lines_of_ne in E|].
  destruct (N.eq_dec c LF) as [->|Hc]; [now rewrite N.eqb_refl|].
  destruct (N.eqb_spec LF c); [congruence|reflexivity].
Qed.

Lemma count_lf_app a b : count_lf (a ++ b) = count_lf a + count_lf b.
Proof. unfold count_lf. now rewrite filter_app, app_length. Qed.
Lemma count_lf_none l : ~ In LF l -> count_lf l = 0.
Proof.
  intros H. unfold count_lf. induction l as [|c l IH]; [reflexivity|]. cbn [filter].
  destruct (N.eqb_spec LF c) as [E|]; [exfalso; apply H; left; now symmetry|].
  apply IH. intros X; apply H; now right.
Qed.
Lemma count_lf_cons_lf t : count_lf (LF :: t) = S (count_lf t).
Proof. reflexivity. Qed.
Lemma count_lf_zero l : count_lf l = 0 -> ~ In LF l.
Proof.
  intros H X. apply in_split in X as (a & b & ->). rewrite count_lf_app, count_lf_cons_lf in H. lia.
Qed.

Lemma lines_count t : length (lines_of t) = count_lf t + 1.
Proof.
  induction t as [l Hl|l t Hl IH] using text_line_ind.
  - now rewrite lines_of_one, count_lf_none.
  - rewrite lines_of_app, count_lf_app, count_lf_cons_lf, (count_lf_none l) by assumption. simpl. lia.
Qed.


Lemma join_cons l ls : ls <> [] -> join (l :: ls) = l ++ LF :: join ls.
Proof. now destruct ls. Qed.

Lemma join_lines t : join (lines_of t) = t.
Proof.
  induction t as [l Hl|l t Hl IH] using text_line_ind.
  - now rewrite lines_of_one.
  - rewrite lines_of_app, join_cons, IH by (assumption || apply lines_of_ne). reflexivity.
Qed.

Lemma lines_join ls : ls <> [] -> Forall (fun l => ~ In LF l) ls -> lines_of (join ls) = ls.
Proof.
  induction ls as [|l ls IH]; intros Hne HF; [contradiction|]. inversion_clear HF as [|? ? Hl HF'].
  destruct ls as [|l' ls]; [now apply lines_of_one|].
  rewrite join_cons by discriminate. rewrite lines_of_app by assumption. rewrite IH; [reflexivity| |assumption].
  discriminate.
Qed.

Lemma join_app a b : b <> [] -> join (a ++ b) = concat (map (fun l => l ++ [LF]) a) ++ join b.
Proof.
  intros Hb. induction a as [|l a IH]; [reflexivity|]. cbn [app map concat].
  rewrite join_cons by (destruct a; [exact Hb|discriminate]). rewrite IH.
  rewrite <- !app_assoc. reflexivity.
Qed.

Lemma split_line_start brk t l :
  split_at brk t (Pos l 0) =
  if l <? length (lines_of t)
  then Some (concat (map (fun l => l ++ [LF]) (firstn l (lines_of t))), join (skipn l (lines_of t)))
  else None.
Proof.
  unfold split_at, prefix_at. cbn [line offset].
  destruct (Nat.ltb_spec l (length (lines_of t))) as [H|H].
  - destruct (nth_error (lines_of t) l) as [x|] eqn:E; [|apply nth_error_None in E; lia].
    cbn [Nat.leb firstn concat]. rewrite app_nil_r. do 2 f_equal.
    rewrite <- (join_lines t) at 2. rewrite <- (firstn_skipn l (lines_of t)) at 2.
    rewrite join_app.
    + rewrite skipn_app, skipn_all, Nat.sub_diag. reflexivity.
    + intros X. apply (f_equal (@length _)) in X. rewrite skipn_length in X. simpl in X. lia.
  - apply nth_error_None in H. now rewrite H.
Qed.

(** ** Positions and columns *)

Lemma exists_at_iff brk t p :
  exists_at brk t p = true <->
  exists l, nth_error (lines_of t) (line p) = Some l /\ offset p <= length (graphemes brk l).
Proof.
  unfold exists_at, split_at, prefix_at.
  destruct (nth_error (lines_of t) (line p)) as [l|]; [|split; [discriminate|intros (l & H & _); discriminate]].
  destruct (Nat.leb_spec (offset p) (length (graphemes brk l))) as [H|H].
  - split; [|reflexivity]. intros _. now exists l.
  - split; [discriminate|]. intros (l' & E & Hl). injection E as ->. lia.
Qed.

Lemma split_at_app brk t p a b : split_at brk t p = Some (a, b) -> t = a ++ b.
Proof.
  unfold split_at, prefix_at.
  destruct (nth_error (lines_of t) (line p)) as [l|] eqn:El; [|discriminate].
  destruct (offset p <=? length (graphemes brk l)); [|discriminate].
  intros H; injection H as <- <-.
  set (x := concat (map (fun l => l ++ [LF]) (firstn (line p) (lines_of t)))).
  assert (Ht : t = x ++ join (skipn (line p) (lines_of t))).
  { rewrite <- (join_lines t) at 1. rewrite <- (firstn_skipn (line p) (lines_of t)) at 1.
    apply join_app. intros X. apply (f_equal (@length _)) in X. rewrite skipn_length in X. simpl in X.
    assert (line p < length (lines_of t)) by (apply nth_error_Some; congruence). lia. }
  assert (Hs : exists r, join (skipn (line p) (lines_of t)) = l ++ r).
  { clear -El. revert El. generalize (lines_of t) (line p). induction l0 as [|y ys IH]; intros n E.
    - destruct n; discriminate.
    - destruct n as [|n]; cbn [nth_error skipn] in *; [|now apply IH].
      injection E as ->. destruct ys; [exists []; now rewrite app_nil_r|]. rewrite join_cons by discriminate. eauto. }
  destruct Hs as (r & Hs). rewrite Hs in Ht.
  rewrite <- (graphemes_concat brk l), <- (firstn_skipn (offset p) (graphemes brk l)), concat_app in Ht.
  rewrite <- app_assoc, app_assoc in Ht. rewrite Ht at 2.
  rewrite skipn_app, skipn_all, Nat.sub_diag. cbn [skipn app]. exact Ht.
Qed.

(** Where a position ends up after a text. *)
Definition end_from (brk : brk_rule) (p : position) (d : text) : position :=
  Pos (line p + count_lf d)
      (if count_lf d =? 0 then offset p + length (graphemes brk d)
       else length (graphemes brk (last (lines_of d) []))).

Lemma last_cons {A} (x : A) l d : l <> [] -> last (x :: l) d = last l d.
Proof. now destruct l. Qed.

Lemma pos_after_text brk d : plain_newlines brk d -> forall p,
  pos_after p (graphemes brk d) = end_from brk p d.
Proof.
  induction d as [l Hl|l t Hl IH] using text_line_ind; intros Hp [ln off].
  - rewrite pos_after_line by now apply no_lf_clusters. unfold end_from.
    rewrite count_lf_none by assumption. simpl. f_equal. lia.
  - destruct (plain_newlines_split _ _ _ Hp Hl) as [E Ht]. rewrite E, pos_after_app.
    rewrite pos_after_line by now apply no_lf_clusters. cbn [pos_after fold_left].
    unfold adv at 2. cbn [is_lf list_N_eqb]. rewrite (proj2 (is_lf_iff [LF]) eq_refl). cbn [line offset].
    fold (pos_after (Pos (ln + 1) 0) (graphemes brk t)). rewrite IH by assumption.
    unfold end_from. rewrite count_lf_app, count_lf_cons_lf, (count_lf_none l) by assumption.
    rewrite lines_of_app, last_cons by (assumption || apply lines_of_ne). cbn [line offset].
    replace (0 + S (count_lf t)) with (S (count_lf t)) by lia. cbn [Nat.eqb].
    f_equal; [lia|]. destruct (Nat.eqb_spec (count_lf t) 0) as [H0|H0]; [|reflexivity].
    rewrite lines_of_one by now apply count_lf_zero. reflexivity.
Qed.

Lemma split_at_end brk a b : seam brk a b -> plain_newlines brk (a ++ b) ->
  split_at brk (a ++ b) (end_from brk (Pos 0 0) a) = Some (a, b).
Proof.
  intros S Hp. rewrite gsplit_split_at by assumption.
  pose proof (proj1 (plain_newlines_app _ _ _ S) Hp) as [Ha _].
  rewrite (proj2 (gsplit_iff _ _ _ (graphemes brk a) (graphemes brk b))).
  - now rewrite !graphemes_concat.
  - split; [exact S|]. now apply pos_after_text.
Qed.

Lemma split_at_inv brk t p a b : plain_newlines brk t -> split_at brk t p = Some (a, b) ->
  seam brk a b /\ p = end_from brk (Pos 0 0) a /\ plain_newlines brk a /\ plain_newlines brk b
  /\ t = a ++ b.
Proof.
  intros Hp. rewrite gsplit_split_at by assumption.
  destruct (gsplit _ _ _) as [[pre post]|] eqn:E; [|discriminate].
  intros H; injection H as <- <-. apply gsplit_iff in E as [E Ep].
  split; [eapply seam_split; exact E|].
  assert (Ha : plain_newlines brk (concat pre)) by exact (plain_newlines_pre _ _ _ _ Hp E).
  split; [|split; [assumption|split; [exact (plain_newlines_post _ _ _ _ Hp E)|]]].
  - rewrite <- (pos_after_text brk (concat pre) Ha), (graphemes_pre _ _ _ _ E). now symmetry.
  - rewrite <- (graphemes_concat brk t), E. apply concat_app.
Qed.

Lemma end_from_app brk p a b : plain_newlines brk (a ++ b) -> seam brk a b ->
  end_from brk p (a ++ b) = end_from brk (end_from brk p a) b.
Proof.
  intros Hp S. pose proof (proj1 (plain_newlines_app _ _ _ S) Hp) as [Ha Hb].
  rewrite <- !pos_after_text by assumption. now rewrite S, pos_after_app.
Qed.

(** After inserting [d] at [p], the end of the inserted text. *)
Lemma split_at_inserted brk t p a b d :
  plain_newlines brk t -> plain_newlines brk d -> split_at brk t p = Some (a, b) ->
  no_merge brk [a; d; b] ->
  split_at brk (a ++ d ++ b) p = Some (a, d ++ b)
  /\ split_at brk (a ++ d ++ b) (end_from brk p d) = Some (a ++ d, b).
Proof.
  intros Hp Hd E H. destruct (split_at_inv _ _ _ _ _ Hp E) as (S & Ep & Ha & Hb & ->).
  apply no_merge3_seams in H as (S1 & S2 & S3 & S4).
  assert (Hall : plain_newlines brk (a ++ d ++ b)).
  { apply plain_newlines_app; [assumption|]. split; [assumption|]. now apply plain_newlines_app. }
  split.
  - rewrite Ep. now apply split_at_end.
  - rewrite app_assoc in Hall |- *.
    assert (Had : plain_newlines brk (a ++ d)) by now apply plain_newlines_app.
    rewrite Ep, <- end_from_app by assumption. now apply split_at_end.
Qed.

(** [Insert::reverse] computes that end. *)
Lemma last_rev {A} (l : list A) d : l <> [] -> exists r, rev l = last l d :: r.
Proof.
  intros H. destruct (exists_last H) as (x & y & ->). rewrite rev_app_distr, last_last. simpl. eauto.
Qed.

Lemma last_line_last t : last_line t = Some (last (lines_of t) []).
Proof.
  unfold last_line. rewrite split_lf_lines.
  destruct (last_rev (lines_of t) [] (lines_of_ne t)) as (r & ->). reflexivity.
Qed.

(** Order of positions and prefixes. *)
Lemma split_at_mono brk t p q a b a' b' : plain_newlines brk t ->
  split_at brk t p = Some (a, b) -> split_at brk t q = Some (a', b') -> ple p q ->
  exists m, a' = a ++ m /\ b = m ++ b' /\ seam brk m b' /\ seam brk a m.
Proof.
  intros Hp. rewrite !gsplit_split_at by assumption.
  destruct (gsplit _ _ p) as [[pre post]|] eqn:E1; [|discriminate].
  destruct (gsplit _ _ q) as [[pre' post']|] eqn:E2; [|discriminate].
  intros H H'; injection H as <- <-; injection H' as <- <-. intros Hle.
  destruct (gsplit_mono _ _ _ _ _ _ _ _ E1 E2 Hle) as (m & -> & ->).
  exists (concat m). rewrite !concat_app. split; [reflexivity|]. split; [reflexivity|].
  apply gsplit_iff in E1 as [E1 _]. split.
  - destruct (graphemes_restart _ _ _ _ E1) as [_ H]. eapply seam_split. exact H.
  - rewrite app_assoc in E1. destruct (graphemes_restart _ _ _ _ E1) as [H _]. eapply seam_split. exact H.
Qed.

(** ** [str::lines] *)

Lemma strip_suffix_snoc c l : strip_suffix c (l ++ [c]) = Some l.
Proof. unfold strip_suffix. rewrite rev_app_distr. simpl. now rewrite N.eqb_refl, rev_involutive. Qed.

Lemma strip_suffix_some c l m : strip_suffix c l = Some m -> l = m ++ [c].
Proof.
  unfold strip_suffix. destruct (rev l) as [|x r] eqn:E; [discriminate|].
  destruct (N.eqb_spec x c) as [->|]; [|discriminate]. intros H; injection H as <-.
  rewrite <- (rev_involutive l), E. reflexivity.
Qed.

Lemma split_inclusive_app l t : ~ In LF l -> split_inclusive (l ++ LF :: t) = (l ++ [LF]) :: split_inclusive t.
Proof.
  induction l as [|c l IH]; intros H; cbn [app split_inclusive].
  - reflexivity.
  - destruct (N.eqb_spec LF c) as [E|]; [exfalso; apply H; left; now symmetry|].
    rewrite IH by (intros X; apply H; now right). reflexivity.
Qed.
Lemma split_inclusive_one l : ~ In LF l -> split_inclusive l = match l with [] => [] | _ => [l] end.
Proof.
  induction l as [|c l IH]; intros H; cbn [split_inclusive]; [reflexivity|].
  destruct (N.eqb_spec LF c) as [E|]; [exfalso; apply H; left; now symmetry|].
  rewrite IH by (intros X; apply H; now right). destruct l; reflexivity.
Qed.

Lemma strip_eol_line l : ~ In LF l -> (forall a, l <> a ++ [CR]) -> strip_eol (l ++ [LF]) = l.
Proof.
  intros _ H. unfold strip_eol. rewrite strip_suffix_snoc.
  destruct (strip_suffix CR l) as [m|] eqn:E; [|reflexivity].
  apply strip_suffix_some in E. now apply H in E.
Qed.
Lemma strip_eol_last l : ~ In LF l -> strip_eol l = l.
Proof.
  intros H. unfold strip_eol. destruct (strip_suffix LF l) as [m|] eqn:E; [|reflexivity].
  apply strip_suffix_some in E. subst l. exfalso. apply H. apply in_or_app. right. now left.
Qed.

(** The lines that [str::lines] yields are those of the text, without a final
    empty one. *)
Lemma str_lines_lines t : no_crlf t ->
  lines_of t = str_lines t \/ lines_of t = str_lines t ++ [[]].
Proof.
  unfold str_lines. induction t as [l Hl|l t Hl IH] using text_line_ind; intros H.
  - rewrite lines_of_one, split_inclusive_one by assumption. destruct l as [|c l]; [now right|].
    left. cbn [map]. now rewrite strip_eol_last.
  - rewrite lines_of_app, split_inclusive_app by assumption. cbn [map].
    rewrite strip_eol_line; [|assumption|].
    + destruct IH as [IH|IH].
      * intros a b E. apply (H (l ++ LF :: a) b). rewrite E, <- app_assoc. reflexivity.
      * left. now rewrite IH.
      * right. now rewrite IH.
    + intros a E. apply (H a t). rewrite E, <- app_assoc. reflexivity.
Qed.

Lemma line_length_ok brk t k : no_crlf t ->
  line_length_or_zero brk t k =
  match nth_error (lines_of t) k with Some l => length (graphemes brk l) | None => 0 end.
Proof.
  intros H. unfold line_length_or_zero. destruct (str_lines_lines t H) as [E|E]; rewrite E; [reflexivity|].
  destruct (Nat.lt_ge_cases k (length (str_lines t))) as [Hk|Hk].
  - now rewrite nth_error_app1.
  - rewrite nth_error_app2 by assumption. rewrite (proj2 (nth_error_None _ _) Hk).
    destruct (k - length (str_lines t)) as [|[|n]]; reflexivity.
Qed.
