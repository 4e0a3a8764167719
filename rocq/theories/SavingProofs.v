(** Proofs about saves step by step. *)
From Verif Require Import Base Utf8 Utf8Proofs Grapheme Position GapBuffer Cursor PathModel Buffer Spec
  BufferCalls AnyTextProofs BufferProps BufferIoProps Saving SavingSpec.

Lemma path_eqb_eq p q : path_eqb p q = true -> p = q.
Proof. unfold path_eqb. now destruct (path_eq_dec p q). Qed.
Lemma node_holding f q bs : fs_node (holding f q bs) q = Some (Regular bs).
Proof. cbn. now rewrite path_eqb_refl. Qed.
Lemma node_holding_other f q bs x : x <> q -> fs_node (holding f q bs) x = fs_node f x.
Proof. intros H. cbn. destruct (path_eqb x q) eqn:E; [apply path_eqb_eq in E; contradiction|reflexivity]. Qed.

Lemma write_at_end bs chunk : write_at bs (length bs) chunk = bs ++ chunk.
Proof.
  unfold write_at. rewrite firstn_app, firstn_all, Nat.sub_diag, firstn_O, app_nil_r.
  rewrite (skipn_all2 bs) by lia. now rewrite app_nil_r.
Qed.
Lemma firstn_plus (l : list byte) k m : firstn (k + m) l = firstn k l ++ firstn m (skipn k l).
Proof.
  revert l; induction k as [|k IH]; intros l; [reflexivity|]. destruct l as [|x l]; [cbn; now rewrite firstn_nil|].
  cbn. now rewrite IH.
Qed.
Lemma firstn_taken (l : list byte) n : firstn (length (firstn n l)) l = firstn n l.
Proof. revert l; induction n as [|n IH]; intros [|x l]; cbn; try reflexivity. now rewrite IH. Qed.
Lemma firstn_more (l : list byte) k n : firstn k l ++ firstn n (skipn k l) = firstn (k + length (firstn n (skipn k l))) l.
Proof. now rewrite firstn_plus, firstn_taken. Qed.
Lemma firstn_more' (l : list byte) k n : length (firstn k l ++ firstn n (skipn k l)) <= length l.
Proof. rewrite firstn_more. rewrite firstn_length. lia. Qed.

(** What is true at any moment: [g] is the disk others left, [q] was where [p] led. *)
Definition so_far (data : list byte) (g : fsys) (ph : phase) (f : fsys) : Prop :=
  match ph with
  | Opening | Failed None => f = g
  | Writing q _ | Saved q | Failed (Some q) =>
    (exists k, k <= length data /\ fs_node f q = Some (Regular (firstn k data)) /\
      match ph with Writing _ pos => k = pos /\ pos < length data | Saved _ => k = length data | _ => True end) /\
    (forall x, x <> q -> fs_node f x = fs_node g x) /\ fs_target f = fs_target g
  end.

Lemma so_far_advance data g q k f : k <= length data -> fs_node f q = Some (Regular (firstn k data)) ->
  (forall x, x <> q -> fs_node f x = fs_node g x) -> fs_target f = fs_target g -> so_far data g (advance data q k) f.
Proof.
  intros Hk Hn Ho Ht. unfold advance. destruct (k <? length data) eqn:E; cbn.
  - apply Nat.ltb_lt in E. split; [|split; assumption]. exists k. repeat split; assumption.
  - apply Nat.ltb_ge in E. assert (k = length data) by lia. split; [|split; assumption]. exists k. repeat split; assumption.
Qed.
Lemma so_far_step p data g e ph f : so_far data g ph f ->
  match e, opened ph with Other f', Some q => fs_node f' q = fs_node f q | _, _ => True end ->
  so_far data (left_by_others [e] g) (fst (save_step p data e (ph, f))) (snd (save_step p data e (ph, f))).
Proof.
  intros I U. destruct e as [| |n| | |f']; cbn [left_by_others].
  - destruct ph as [|q pos|q|q]; try exact I. cbn in I. subst g. cbn [save_step].
    destruct (fs_target f p) as [q|] eqn:Et; [|reflexivity]. destruct (fs_creatable f p); [|reflexivity].
    cbn [fst snd]. apply so_far_advance; [lia|apply node_holding|apply node_holding_other|reflexivity].
  - destruct ph as [|q pos|q|q]; try exact I.
  - destruct ph as [|q pos|q|q]; try exact I. cbn in I. destruct I as ((k & Hk & Hn & -> & Hp) & Ho & Ht).
    cbn [save_step]. pose proof (firstn_more data pos n) as Hm. pose proof (firstn_more' data pos n) as Hl.
    destruct (firstn n (skipn pos data)) as [|x chunk] eqn:Ec.
    + cbn. split; [|split; assumption]. exists pos. repeat split; assumption.
    + cbn [fst snd]. unfold held. rewrite Hn.
      replace (write_at (firstn pos data) pos (x :: chunk)) with (firstn pos data ++ x :: chunk).
      2:{ pose proof (write_at_end (firstn pos data) (x :: chunk)) as W. rewrite firstn_length, Nat.min_l in W by lia. now rewrite W. }
      apply so_far_advance.
      * rewrite app_length, firstn_length, Nat.min_l in Hl by lia. exact Hl.
      * rewrite node_holding, Hm. reflexivity.
      * intros y Hy. rewrite node_holding_other by assumption. now apply Ho.
      * exact Ht.
  - destruct ph as [|q pos|q|q]; exact I.
  - destruct ph as [|q pos|q|q]; try exact I. cbn in *. destruct I as ((k & Hk & Hn & -> & Hp) & Ho & Ht).
    split; [|split; assumption]. exists pos. repeat split; assumption.
  - cbn [save_step fst snd]. destruct ph as [|q pos|q|[q|]]; cbn in *; try reflexivity;
      destruct I as ((k & Hk & Hn & X) & Ho & Ht); (split; [|split; [reflexivity|reflexivity]]); exists k; rewrite U; auto.
Qed.
Lemma left_cons e es f : left_by_others (e :: es) f = left_by_others es (left_by_others [e] f).
Proof. destruct e; reflexivity. Qed.
Lemma so_far_run p data es : forall g ph f, so_far data g ph f -> undisturbed p data es (ph, f) ->
  so_far data (left_by_others es g) (fst (saving p data es (ph, f))) (snd (saving p data es (ph, f))).
Proof.
  induction es as [|e es IH]; intros g ph f I U; [exact I|].
  cbn [undisturbed fst snd] in U. destruct U as [U1 U2]. rewrite left_cons. cbn [saving fold_left].
  pose proof (so_far_step p data g e ph f I U1) as I'.
  change (fold_left _ es _) with (saving p data es (save_step p data e (ph, f))).
  destruct (save_step p data e (ph, f)) as [ph' f']. cbn [fst snd] in I'. now apply IH.
Qed.

(** Where the file that is open came from. *)
Lemma opened_step p data e ph f : opened ph <> None -> opened (fst (save_step p data e (ph, f))) = opened ph.
Proof.
  intros H. destruct ph as [|q pos|q|[q|]]; cbn in H; try contradiction; destruct e; try reflexivity; cbn [save_step].
  destruct (firstn n (skipn pos data)); [reflexivity|]. cbn [fst]. unfold advance. destruct (_ <? _); reflexivity.
Qed.
Lemma opened_run p data es : forall ph f, opened ph <> None -> opened (fst (saving p data es (ph, f))) = opened ph.
Proof.
  induction es as [|e es IH]; intros ph f H; [reflexivity|]. cbn [saving fold_left].
  change (fold_left _ es _) with (saving p data es (save_step p data e (ph, f))).
  pose proof (opened_step p data e ph f H) as E. destruct (save_step p data e (ph, f)) as [ph' f']. cbn [fst] in E.
  rewrite IH by congruence. exact E.
Qed.
Lemma failed_run p data es : forall f, fst (saving p data es (Failed None, f)) = Failed None.
Proof. induction es as [|e es IH]; intros f; [reflexivity|]. destruct e; cbn; apply IH. Qed.
Lemma opened_from p data es : forall f q, opened (fst (saving p data es (Opening, f))) = Some q ->
  exists es1 es2, es = es1 ++ Created :: es2 /\ fs_target (left_by_others es1 f) p = Some q.
Proof.
  induction es as [|e es IH]; intros f q H; [discriminate|].
  destruct e as [| |n| | |f'].
  - cbn [saving fold_left save_step] in H. exists [], es. split; [reflexivity|]. cbn.
    change (fun s e => save_step p data e s) with (fun s e => save_step p data e s) in H.
    destruct (fs_target f p) as [q'|] eqn:Et.
    + destruct (fs_creatable f p).
      * change (opened (fst (saving p data es (advance data q' 0, holding f q' []))) = Some q) in H.
        rewrite opened_run in H; unfold advance in *; destruct (_ <? _); cbn in *; congruence.
      * change (opened (fst (saving p data es (Failed None, f))) = Some q) in H. rewrite failed_run in H. discriminate.
    + change (opened (fst (saving p data es (Failed None, f))) = Some q) in H. rewrite failed_run in H. discriminate.
  - change (opened (fst (saving p data es (Failed None, f))) = Some q) in H. rewrite failed_run in H. discriminate.
  - destruct (IH f q H) as (es1 & es2 & -> & E). exists (Wrote n :: es1), es2. now split.
  - destruct (IH f q H) as (es1 & es2 & -> & E). exists (Interrupted :: es1), es2. now split.
  - destruct (IH f q H) as (es1 & es2 & -> & E). exists (WriteError :: es1), es2. now split.
  - destruct (IH f' q H) as (es1 & es2 & -> & E). exists (Other f' :: es1), es2. now split.
Qed.

Theorem any_moment : forall p data es f ph f', saving p data es (Opening, f) = (ph, f') ->
  undisturbed p data es (Opening, f) ->
  match opened ph with
  | None => f' = left_by_others es f
  | Some q =>
    (exists es1 es2, es = es1 ++ Created :: es2 /\ fs_target (left_by_others es1 f) p = Some q) /\
    (exists k, k <= length data /\ fs_node f' q = Some (Regular (firstn k data)) /\ (ph = Saved q -> k = length data)) /\
    (forall x, x <> q -> fs_node f' x = fs_node (left_by_others es f) x) /\
    fs_target f' = fs_target (left_by_others es f)
  end.
Proof.
  intros p data es f ph f' E U.
  pose proof (so_far_run p data es f Opening f eq_refl U) as I. rewrite E in I. cbn [fst snd] in I.
  pose proof (opened_from p data es f) as O. rewrite E in O. cbn [fst] in O.
  destruct (opened ph) as [q|] eqn:Eo.
  - split; [now apply O|]. destruct ph as [|q' pos|q'|[q'|]]; cbn in *; try discriminate; injection Eo as ->;
      destruct I as ((k & Hk & Hn & X) & Ho & Ht); (split; [exists k; split; [assumption|split; [assumption|congruence]]|split; assumption]).
  - destruct ph as [|q' pos|q'|[q'|]]; cbn in *; try discriminate; exact I.
Qed.

Lemma alone_cons e es : alone (e :: es) -> alone es /\ forall f, e <> Other f.
Proof. intros H. split; [intros f Hf; apply (H f); now right|intros f ->; apply (H f); now left]. Qed.
Lemma alone_left es : alone es -> forall f, left_by_others es f = f.
Proof.
  induction es as [|e es IH]; intros H f; [reflexivity|]. apply alone_cons in H. destruct H as [H1 H2].
  destruct e; cbn; auto. now destruct (H2 f0).
Qed.
Lemma alone_app es1 es2 : alone (es1 ++ es2) -> alone es1.
Proof. intros H f Hf. apply (H f). apply in_or_app. now left. Qed.
Lemma alone_undisturbed p data es : alone es -> forall s, undisturbed p data es s.
Proof.
  induction es as [|e es IH]; intros H s; [exact Logic.I|]. apply alone_cons in H. destruct H as [H1 H2].
  split; [|now apply IH]. destruct e; try exact Logic.I. now destruct (H2 f).
Qed.

(** Alone, nothing but the file at the path is touched. *)
Theorem alone_moment : forall p data es f ph f', saving p data es (Opening, f) = (ph, f') -> alone es ->
  match opened ph with
  | None => f' = f
  | Some q => fs_target f p = Some q /\ exists k, k <= length data /\ same_disk f' (fs_write f p (firstn k data)) /\
      (ph = Saved q -> k = length data)
  end.
Proof.
  intros p data es f ph f' E A. pose proof (any_moment p data es f ph f' E (alone_undisturbed p data es A _)) as M.
  rewrite (alone_left es A f) in M. destruct (opened ph) as [q|]; [|exact M].
  destruct M as ((es1 & es2 & He & Hq) & (k & Hk & Hn & Hs) & Ho & Ht).
  subst es. rewrite (alone_left es1 (alone_app _ _ A)) in Hq. split; [exact Hq|]. exists k. split; [exact Hk|]. split; [|exact Hs].
  unfold fs_write. rewrite Hq. split; [exact Ht|]. intros x. cbn. destruct (path_eqb x q) eqn:Ex.
  - apply path_eqb_eq in Ex. now subst x.
  - apply Ho. intros ->. rewrite path_eqb_refl in Ex. discriminate.
Qed.

(** ** Step by step and in one step *)

Lemma same_disk_refl f : same_disk f f.
Proof. now split. Qed.
Lemma refused_by p data f : fs_creatable f p = false -> save_step p data Created (Opening, f) = (Failed None, f).
Proof. intros H. cbn. destruct (fs_target f p); [now rewrite H|reflexivity]. Qed.

(** Nothing is created where nothing can be. *)
Lemma opened_creatable p data es : alone es -> forall f q, opened (fst (saving p data es (Opening, f))) = Some q ->
  fs_creatable f p = true.
Proof.
  induction es as [|e es IH]; intros A f q H; [discriminate|]. apply alone_cons in A. destruct A as [A1 A2].
  destruct e as [| |n| | |f'].
  - destruct (fs_creatable f p) eqn:Ec; [reflexivity|]. cbn [saving fold_left] in H. rewrite refused_by in H by assumption.
    change (opened (fst (saving p data es (Failed None, f))) = Some q) in H. rewrite failed_run in H. discriminate.
  - change (opened (fst (saving p data es (Failed None, f))) = Some q) in H. rewrite failed_run in H. discriminate.
  - now apply (IH A1 f q).
  - now apply (IH A1 f q).
  - now apply (IH A1 f q).
  - now destruct (A2 f').
Qed.

Theorem steps_are_saves : forall b p t es f ph f' r, b_path b = Some p -> buf_data b = Ok t ->
  saving p (enc t) es (Opening, f) = (ph, f') -> alone es -> answer ph = Some r ->
  exists w b' f'', buf_save f w b = Ok (r, b', f'') /\ same_disk f' f''.
Proof.
  intros b p t es f ph f' r Ep Et E A Ha.
  pose proof (alone_moment _ _ _ _ _ _ E A) as M.
  pose proof (opened_creatable p (enc t) es A f) as C. rewrite E in C. cbn [fst] in C.
  unfold buf_save. rewrite Ep.
  destruct ph as [|q pos|q|[q|]]; cbn in Ha; try discriminate; injection Ha as <-; cbn [opened] in M, C.
  - destruct M as (Hq & k & Hk & Hd & Hs). rewrite (Hs eq_refl), firstn_all in Hd.
    exists WriteSucceeds. unfold outcome. rewrite (C q eq_refl), Et. cbn [bind]. do 2 eexists. split; [reflexivity|exact Hd].
  - destruct M as (Hq & k & Hk & Hd & Hs).
    exists (WriteFails k). unfold outcome. rewrite (C q eq_refl), Et. cbn [bind]. do 2 eexists. split; [reflexivity|exact Hd].
  - subst f'. exists CreateFails. replace (outcome f p CreateFails) with CreateFails by (unfold outcome; now destruct (fs_creatable f p)).
    do 2 eexists. split; [reflexivity|apply same_disk_refl].
Qed.

Lemma created p data f : fs_creatable f p = true -> exists q, fs_target f p = Some q /\
  save_step p data Created (Opening, f) = (advance data q 0, holding f q []).
Proof.
  intros H. cbn. assert (H' := H). unfold fs_creatable in H'. destruct (fs_target f p) as [q|]; [|discriminate]. rewrite H. eauto.
Qed.
(** A file after [File::create] and one write. *)
Lemma one_write p data f k : fs_creatable f p = true -> 0 < k -> k <= length data -> exists q, fs_target f p = Some q /\
  exists f', saving p data [Created; Wrote k] (Opening, f) = (advance data q k, f') /\ same_disk f' (fs_write f p (firstn k data)).
Proof.
  intros H Hk Hl. destruct (created p data f H) as (q & Eq & Ec). exists q. split; [exact Eq|].
  cbn [saving fold_left]. rewrite Ec. unfold advance at 1. replace (0 <? length data) with true by (symmetry; apply Nat.ltb_lt; lia).
  cbn [save_step]. change (skipn 0 data) with data.
  destruct (firstn k data) as [|x ch] eqn:Ef; [destruct data, k; cbn in *; lia || discriminate|].
  replace (0 + length (x :: ch)) with k by (rewrite <- Ef, firstn_length; lia).
  eexists. split; [reflexivity|]. unfold fs_write. rewrite Eq. split; [reflexivity|]. intros y. cbn [fs_node holding].
  destruct (path_eqb y q); [|reflexivity]. unfold held. rewrite node_holding. unfold write_at. cbn [firstn app].
  rewrite skipn_nil, app_nil_r. reflexivity.
Qed.
Lemma saving_app p data es1 es2 s : saving p data (es1 ++ es2) s = saving p data es2 (saving p data es1 s).
Proof. apply fold_left_app. Qed.

Ltac alone_tac := intros ? Hf; cbn in Hf; repeat match type of Hf with _ \/ _ => destruct Hf as [Hf|Hf]; [discriminate|] end; try contradiction; discriminate.
Theorem saves_are_steps : forall b p t w f r b' f'', b_path b = Some p -> buf_data b = Ok t ->
  (forall k, w = WriteFails k -> k < length (enc t)) -> buf_save f w b = Ok (r, b', f'') ->
  exists es ph f', alone es /\ saving p (enc t) es (Opening, f) = (ph, f') /\ answer ph = Some r /\ same_disk f' f''.
Proof.
  intros b p t w f r b' f'' Ep Et Hw. unfold buf_save. rewrite Ep, Et.
  assert (Hr : Ok (RErr (A:=unit) IoError, b, f) = Ok (r, b', f'') ->
    exists es ph f', alone es /\ saving p (enc t) es (Opening, f) = (ph, f') /\ answer ph = Some r /\ same_disk f' f'').
  { intros X. injection X as <- <- <-. exists [Refused], (Failed None), f. split; [alone_tac|]. repeat split. }
  unfold outcome. destruct (fs_creatable f p) eqn:Ec; [|exact Hr].
  destruct w as [|k|]; [exact Hr| |]; cbn [bind]; intros X; injection X as <- <- <-.
  - specialize (Hw k eq_refl). destruct k as [|k].
    + destruct (created p (enc t) f Ec) as (q & Eq & Es).
      exists [Created; WriteError], (Failed (Some q)), (holding f q []). split; [alone_tac|].
      cbn [saving fold_left]. rewrite Es. unfold advance. replace (0 <? length (enc t)) with true by (symmetry; apply Nat.ltb_lt; lia).
      split; [reflexivity|]. split; [reflexivity|]. unfold fs_write. rewrite Eq. now split.
    + destruct (one_write p (enc t) f (S k) Ec ltac:(lia) ltac:(lia)) as (q & Eq & f' & Es & Hd).
      exists ([Created; Wrote (S k)] ++ [WriteError]), (Failed (Some q)), f'. split; [alone_tac|].
      rewrite saving_app, Es. unfold advance. replace (S k <? length (enc t)) with true by (symmetry; apply Nat.ltb_lt; lia).
      split; [reflexivity|]. split; [reflexivity|exact Hd].
  - destruct (length (enc t)) as [|n] eqn:El.
    + destruct (enc t) as [|] eqn:Ed; [|discriminate].
      destruct (created p [] f Ec) as (q & Eq & Es).
      exists [Created], (Saved q), (holding f q []). split; [alone_tac|].
      cbn [saving fold_left]. rewrite Es. split; [reflexivity|]. split; [reflexivity|]. unfold fs_write. rewrite Eq. now split.
    + destruct (one_write p (enc t) f (S n) Ec ltac:(lia) ltac:(lia)) as (q & Eq & f' & Es & Hd).
      exists [Created; Wrote (S n)], (Saved q), f'. split; [alone_tac|].
      rewrite Es. unfold advance. replace (S n <? length (enc t)) with false by (symmetry; apply Nat.ltb_ge; lia).
      split; [reflexivity|]. split; [reflexivity|]. rewrite <- El, firstn_all in Hd. exact Hd.
Qed.

(** ** After a crash *)

Lemma cut_text t k u : valid_text t -> k <= length (enc t) ->
  (decode_strict (firstn k (enc t)) = Some u <-> beginning u t /\ length (enc u) = k).
Proof.
  intros V Hk. split.
  - intros E. apply decode_strict_valid in E. destruct E as [Vu Eu]. split.
    + exists (decode_lossy (skipn k (enc t))). rewrite <- (decode_enc t V) at 1.
      rewrite <- (firstn_skipn k (enc t)) at 1. rewrite <- Eu. now rewrite decode_enc_app.
    + rewrite Eu, firstn_length. lia.
  - intros [(v & ->) <-]. rewrite enc_app, firstn_app, firstn_all, Nat.sub_diag, firstn_O, app_nil_r.
    apply decode_strict_enc. now apply valid_app in V.
Qed.
Lemma same_disk_reads f f' : same_disk f f' -> forall p, fs_read f p = fs_read f' p.
Proof. intros [H1 H2] p. unfold fs_read. rewrite H1. destruct (fs_target f' p); [|reflexivity]. now rewrite H2. Qed.

Theorem after_crash : forall brk b f p t es ph f', reachable_buffer brk b f -> b_path b = Some p -> buf_data b = Ok t ->
  saving p (enc t) es (Opening, f) = (ph, f') -> alone es ->
  f' = f \/
  exists k, (forall p' u, same_file f p' p -> (read_to_string f' p' = Some u <-> beginning u t /\ length (enc u) = k)) /\
    (forall p', ~ same_file f p' p -> fs_read f' p' = fs_read f p') /\
    (forall r, answer ph = Some (ROk r) -> k = length (enc t)).
Proof.
  intros brk b f p t es ph f' R Ep Et E A.
  assert (V : valid_text t). { apply reachable_wfb in R. destruct (wfb_data_total _ R) as (t' & Et' & V). congruence. }
  pose proof (alone_moment _ _ _ _ _ _ E A) as M.
  pose proof (opened_creatable p (enc t) es A f) as C. rewrite E in C. cbn [fst] in C.
  destruct (opened ph) as [q|] eqn:Eo; [right|now left].
  destruct M as (Hq & k & Hk & Hd & Hs). exists k. split; [|split].
  - intros p' u Hp. unfold read_to_string. rewrite (same_disk_reads _ _ Hd).
    rewrite write_reads by (try assumption; now apply (C q)). now apply cut_text.
  - intros p' Hp. rewrite (same_disk_reads _ _ Hd). now apply write_others.
  - intros r Ha. apply Hs. destruct ph as [|q' pos|q'|[q'|]]; cbn in *; try discriminate. congruence.
Qed.

(** ** Two saves of one file *)

Lemma nth_write_at bs pos chunk i :
  nth_error (write_at bs pos chunk) i =
  if i <? pos then (if i <? length bs then nth_error bs i else Some 0%N)
  else if i <? pos + length chunk then nth_error chunk (i - pos) else nth_error bs i.
Proof.
  assert (Hl : length (firstn pos (bs ++ repeat 0%N pos)) = pos) by (rewrite firstn_length, app_length, repeat_length; lia).
  unfold write_at. destruct (i <? pos) eqn:E1.
  - apply Nat.ltb_lt in E1. rewrite nth_error_app1 by lia.
    assert (H : forall (l : list byte) n j, j < n -> nth_error (firstn n l) j = nth_error l j).
    { intros l n; revert l; induction n as [|n IH]; intros l j Hj; [lia|]. destruct l, j; cbn; try reflexivity. apply IH. lia. }
    rewrite H by assumption. destruct (i <? length bs) eqn:E2.
    + apply Nat.ltb_lt in E2. now rewrite nth_error_app1.
    + apply Nat.ltb_ge in E2. rewrite nth_error_app2 by lia. apply nth_error_repeat. lia.
  - apply Nat.ltb_ge in E1. rewrite nth_error_app2 by lia. rewrite Hl. destruct (i <? pos + length chunk) eqn:E2.
    + apply Nat.ltb_lt in E2. rewrite nth_error_app1 by lia. reflexivity.
    + apply Nat.ltb_ge in E2. rewrite nth_error_app2 by lia.
      assert (H : forall (l : list byte) n j, nth_error (skipn n l) j = nth_error l (n + j)).
      { intros l n; revert l; induction n as [|n IH]; intros l j; [reflexivity|]. destruct l; cbn; [now destruct j|apply IH]. }
      rewrite H. f_equal. lia.
Qed.
Lemma length_write_at bs pos chunk : length (write_at bs pos chunk) = Nat.max (length bs) (pos + length chunk).
Proof. unfold write_at. rewrite !app_length, firstn_length, app_length, repeat_length, skipn_length. lia. Qed.
Lemma nth_chunk (data : list byte) n pos i : i < length (firstn n (skipn pos data)) ->
  nth_error (firstn n (skipn pos data)) i = nth_error data (pos + i).
Proof.
  intros H. rewrite firstn_length, skipn_length in H.
  assert (H1 : forall (l : list byte) m j, j < m -> nth_error (firstn m l) j = nth_error l j).
  { intros l m; revert l; induction m as [|m IH]; intros l j Hj; [lia|]. destruct l, j; cbn; try reflexivity. apply IH. lia. }
  assert (H2 : forall (l : list byte) m j, nth_error (skipn m l) j = nth_error l (m + j)).
  { intros l m; revert l; induction m as [|m IH]; intros l j; [reflexivity|]. destruct l; cbn; [now destruct j|apply IH]. }
  rewrite H1 by lia. apply H2.
Qed.

Definition of_either (a b : list byte) (i : nat) (x : byte) : Prop := nth_error a i = Some x \/ nth_error b i = Some x.
Definition covered (a b c : list byte) (k : nat) : Prop := forall i, i < k -> exists x, nth_error c i = Some x /\ of_either a b i x.
Definition done_by (data : list byte) (ph : phase) : nat :=
  match ph with Writing _ pos => pos | Saved _ => length data | _ => 0 end.
Definition one_inv (data : list byte) (q : path) (ph : phase) : Prop :=
  (opened ph = None \/ opened ph = Some q) /\ match ph with Writing _ pos => pos < length data | _ => True end.
Definition two_inv (a b : list byte) (q : path) (ph ph' : phase) (f : fsys) : Prop :=
  one_inv a q ph /\ one_inv b q ph' /\
  (opened ph <> None \/ opened ph' <> None -> exists c, fs_node f q = Some (Regular c) /\
     length c <= Nat.max (length a) (length b) /\
     (forall i x, nth_error c i = Some x -> of_either a b i x \/ x = 0%N) /\
     ((opened ph <> None /\ covered a b c (done_by a ph)) \/ (opened ph' <> None /\ covered a b c (done_by b ph')))).

Lemma of_either_swap a b i x : of_either a b i x <-> of_either b a i x.
Proof. unfold of_either. tauto. Qed.
Lemma covered_swap a b c k : covered a b c k -> covered b a c k.
Proof. intros H i Hi. destruct (H i Hi) as (x & E & O). exists x. split; [exact E|]. now apply of_either_swap. Qed.
Lemma two_inv_swap a b q ph ph' f : two_inv a b q ph ph' f -> two_inv b a q ph' ph f.
Proof.
  intros (H1 & H2 & H3). split; [exact H2|]. split; [exact H1|]. intros O.
  destruct H3 as (c & Hn & Hl & Hb & Hc); [tauto|]. exists c. split; [exact Hn|]. split; [lia|]. split.
  - intros i x E. rewrite of_either_swap. now apply Hb.
  - destruct Hc as [[O' C]|[O' C]]; [right|left]; (split; [exact O'|]); now apply covered_swap.
Qed.
Lemma advance_opened data q k : opened (advance data q k) = Some q.
Proof. unfold advance. now destruct (_ <? _). Qed.
Lemma advance_done data q k : k <= length data -> done_by data (advance data q k) = k.
Proof. intros H. unfold advance. destruct (k <? length data) eqn:E; cbn; [reflexivity|]. apply Nat.ltb_ge in E. lia. Qed.
Lemma advance_inv data q k : one_inv data q (advance data q k).
Proof.
  split; [right; apply advance_opened|]. unfold advance. destruct (k <? length data) eqn:E; [|exact I]. now apply Nat.ltb_lt.
Qed.

Lemma two_step a b p q ph ph' f e : fs_target f p = Some q -> (forall g, e <> Other g) -> two_inv a b q ph ph' f ->
  let s := save_step p a e (ph, f) in two_inv a b q (fst s) ph' (snd s) /\ fs_target (snd s) = fs_target f.
Proof.
  intros Et He I. cbn zeta.
  assert (Hfail : forall q', ph <> Opening -> opened ph = opened (Failed q') -> two_inv a b q (Failed q') ph' f).
  { intros q' _ Eo. destruct I as (H1 & H2 & H3). split; [|split; [exact H2|]].
    - destruct H1 as [H1 _]. split; [|exact Logic.I]. now rewrite <- Eo.
    - intros O. destruct H3 as (c & Hn & Hl & Hb & Hc); [rewrite Eo; exact O|]. exists c. split; [exact Hn|]. split; [exact Hl|].
      split; [exact Hb|]. destruct Hc as [[O' C]|[O' C]]; [left|now right]. split; [now rewrite <- Eo|]. intros i Hi. cbn in Hi. lia. }
  assert (Hfail0 : ph = Opening -> two_inv a b q (Failed None) ph' f).
  { intros ->. destruct I as (H1 & H2 & H3). split; [split; [now left|exact Logic.I]|]. split; [exact H2|]. intros O.
    destruct H3 as (c & Hn & Hl & Hb & Hc); [exact O|]. exists c. split; [exact Hn|]. split; [exact Hl|]. split; [exact Hb|].
    destruct Hc as [[O' C]|[O' C]]; [now destruct O'|now right]. }
  destruct e as [| |n| | |g]; [| | | | |now destruct (He g)]; destruct ph as [|q' pos|q'|q']; cbn [save_step];
    try (split; [exact I|reflexivity]).
  - rewrite Et. destruct (fs_creatable f p); [|split; [now apply Hfail0|reflexivity]]. cbn [fst snd]. split; [|reflexivity].
    destruct I as (_ & H2 & _). split; [apply advance_inv|]. split; [exact H2|]. intros _. exists [].
    split; [apply node_holding|]. split; [cbn; lia|]. split; [intros [|i] x E; discriminate|]. left.
    rewrite advance_opened, advance_done by lia. split; [discriminate|]. intros i Hi. lia.
  - assert (q' = q). { destruct I as (([O|O] & _) & _); cbn in O; congruence. } subst q'.
    pose proof (nth_chunk a n pos) as Nc. pose proof (firstn_more' a pos n) as Hl'.
    destruct (firstn n (skipn pos a)) as [|y ch] eqn:Ec.
    { split; [|reflexivity]. cbn [fst snd]. now apply Hfail. }
    rewrite <- Ec in *. set (chunk := firstn n (skipn pos a)) in *. cbn [fst snd]. split; [|reflexivity].
    destruct I as (H1 & H2 & H3). destruct H1 as [_ Hpos]. destruct H3 as (c & Hn & Hl & Hb & Hc); [left; discriminate|].
    split; [apply advance_inv|]. split; [exact H2|]. intros _. unfold held. rewrite Hn.
    rewrite app_length, firstn_length, Nat.min_l in Hl' by lia.
    exists (write_at c pos chunk). split; [apply node_holding|]. split; [rewrite length_write_at; lia|].
    assert (Hnew : forall i, pos <= i -> i < pos + length chunk -> exists x, nth_error (write_at c pos chunk) i = Some x /\ nth_error a i = Some x).
    { intros i Hi1 Hi2. rewrite nth_write_at. replace (i <? pos) with false by (symmetry; apply Nat.ltb_ge; lia).
      replace (i <? pos + length chunk) with true by (symmetry; apply Nat.ltb_lt; lia).
      rewrite Nc by lia. replace (pos + (i - pos)) with i by lia.
      destruct (nth_error a i) as [x|] eqn:Ex; [now exists x|]. apply nth_error_None in Ex. lia. }
    assert (Hkeep : forall k, covered a b c k -> covered a b (write_at c pos chunk) k).
    { intros k Hk i Hi. destruct (Hk i Hi) as (x & Ex & Ox). destruct (Nat.lt_ge_cases i pos) as [Hp|Hp].
      - exists x. split; [|exact Ox]. rewrite nth_write_at. replace (i <? pos) with true by (symmetry; apply Nat.ltb_lt; lia).
        replace (i <? length c) with true; [exact Ex|]. symmetry. apply Nat.ltb_lt. apply nth_error_Some. congruence.
      - destruct (Nat.lt_ge_cases i (pos + length chunk)) as [Hq|Hq].
        + destruct (Hnew i Hp Hq) as (z & Ez & Az). exists z. split; [exact Ez|now left].
        + exists x. split; [|exact Ox]. rewrite nth_write_at. replace (i <? pos) with false by (symmetry; apply Nat.ltb_ge; lia).
          replace (i <? pos + length chunk) with false by (symmetry; apply Nat.ltb_ge; lia). exact Ex. }
    split.
    + intros i x Ex. destruct (Nat.lt_ge_cases i pos) as [Hp|Hp].
      * rewrite nth_write_at in Ex. replace (i <? pos) with true in Ex by (symmetry; apply Nat.ltb_lt; lia).
        destruct (i <? length c); [now apply Hb|]. right. congruence.
      * destruct (Nat.lt_ge_cases i (pos + length chunk)) as [Hq|Hq].
        -- destruct (Hnew i Hp Hq) as (z & Ez & Az). left. left. congruence.
        -- rewrite nth_write_at in Ex. replace (i <? pos) with false in Ex by (symmetry; apply Nat.ltb_ge; lia).
           replace (i <? pos + length chunk) with false in Ex by (symmetry; apply Nat.ltb_ge; lia). now apply Hb.
    + destruct Hc as [[O C]|[O C]].
      * left. rewrite advance_opened, advance_done by lia. split; [discriminate|]. cbn in C. intros i Hi.
        destruct (Nat.lt_ge_cases i pos) as [Hp|Hp]; [now apply (Hkeep pos)|].
        destruct (Hnew i Hp Hi) as (z & Ez & Az). exists z. split; [exact Ez|now left].
      * right. split; [exact O|]. now apply Hkeep.
  - split; [|reflexivity]. cbn [fst snd]. now apply Hfail.
Qed.

Lemma two_run p p' a b q es : only_two es -> forall ph ph' f, fs_target f p = Some q -> fs_target f p' = Some q ->
  two_inv a b q ph ph' f -> let '(ph1, ph2, f') := saving_both p p' a b es (ph, ph', f) in two_inv a b q ph1 ph2 f'.
Proof.
  induction es as [|[k e] es IH]; intros H ph ph' f E1 E2 I; [exact I|].
  assert (H' : only_two es) by (intros k' g Hg; apply (H k' g); now right).
  assert (He : forall g, e <> Other g) by (intros g ->; apply (H k g); now left).
  cbn [saving_both fold_left]. destruct k; cbn [save_both].
  - destruct (two_step a b p q ph ph' f e E1 He I) as [I' T]. destruct (save_step p a e (ph, f)) as [ph1 f1].
    cbn [fst snd] in *. apply (IH H' ph1 ph' f1); [now rewrite T|now rewrite T|exact I'].
  - apply two_inv_swap in I. destruct (two_step b a p' q ph' ph f e E2 He I) as [I' T]. destruct (save_step p' b e (ph', f)) as [ph1 f1].
    cbn [fst snd] in *. apply (IH H' ph ph1 f1); [now rewrite T|now rewrite T|now apply two_inv_swap].
Qed.

(** Any interleaving, when both saves succeed. *)
Theorem both_saved : forall p p' a b es f q f' q1 q2, only_two es -> fs_target f p = Some q -> fs_target f p' = Some q ->
  saving_both p p' a b es (Opening, Opening, f) = (Saved q1, Saved q2, f') ->
  exists c, fs_node f' q = Some (Regular c) /\
    Nat.min (length a) (length b) <= length c <= Nat.max (length a) (length b) /\
    (forall i x, nth_error c i = Some x ->
       nth_error a i = Some x \/ nth_error b i = Some x \/ (x = 0%N /\ Nat.min (length a) (length b) <= i)) /\
    (a = b -> c = a).
Proof.
  intros p p' a b es f q f' q1 q2 H E1 E2 E.
  assert (I0 : two_inv a b q Opening Opening f).
  { split; [split; [now left|exact I]|]. split; [split; [now left|exact I]|]. intros [O|O]; now destruct O. }
  pose proof (two_run p p' a b q es H Opening Opening f E1 E2 I0) as T. rewrite E in T. destruct T as (_ & _ & T).
  destruct T as (c & Hn & Hl & Hb & Hc); [left; discriminate|].
  assert (C : covered a b c (Nat.min (length a) (length b))).
  { destruct Hc as [[_ C]|[_ C]]; cbn in C; intros i Hi; apply C; lia. }
  assert (Hmin : Nat.min (length a) (length b) <= length c).
  { destruct (Nat.le_gt_cases (Nat.min (length a) (length b)) (length c)) as [X|X]; [exact X|].
    destruct (C (length c) X) as (x & Ex & _). assert (length c < length c) by (apply nth_error_Some; congruence). lia. }
  exists c. split; [exact Hn|]. split; [lia|]. split.
  - intros i x Ex. destruct (Nat.lt_ge_cases i (Nat.min (length a) (length b))) as [Hi|Hi].
    + destruct (C i Hi) as (y & Ey & [O|O]); [left|right; left]; congruence.
    + destruct (Hb i x Ex) as [[O|O]| ->]; auto.
  - intros ->. rewrite Nat.min_id in *. rewrite Nat.max_id in Hl. assert (L : length c = length b) by lia.
    assert (X : forall (l m : list byte), length l = length m -> (forall i, i < length l -> nth_error l i = nth_error m i) -> l = m).
    { induction l as [|x l IH]; intros [|y m] Hlm Hi; try discriminate; [reflexivity|].
      pose proof (Hi 0 ltac:(cbn; lia)) as X0. cbn in X0. injection X0 as ->. f_equal. apply IH; [cbn in Hlm; lia|].
      intros i Hii. apply (Hi (S i)). cbn. lia. }
    apply X; [exact L|]. intros i Hi. destruct (C i ltac:(lia)) as (x & Ex & [O|O]); congruence.
Qed.

(** A save that starts when the other is over. *)
Lemma both_first p p' a b es : forall ph ph' f, saving_both p p' a b (map (pair true) es) (ph, ph', f)
  = let '(ph1, f1) := saving p a es (ph, f) in (ph1, ph', f1).
Proof.
  induction es as [|e es IH]; intros ph ph' f; [reflexivity|]. cbn [map saving_both saving fold_left save_both].
  destruct (save_step p a e (ph, f)) as [ph1 f1]. apply IH.
Qed.
Lemma both_second p p' a b es : forall ph ph' f, saving_both p p' a b (map (pair false) es) (ph, ph', f)
  = let '(ph1, f1) := saving p' b es (ph', f) in (ph, ph1, f1).
Proof.
  induction es as [|e es IH]; intros ph ph' f; [reflexivity|]. cbn [map saving_both saving fold_left save_both].
  destruct (save_step p' b e (ph', f)) as [ph1 f1]. apply IH.
Qed.
Theorem one_after_the_other : forall p p' a b es1 es2 f q ph1 q2 f', alone es1 -> alone es2 ->
  fs_target f p' = Some q ->
  saving_both p p' a b (map (pair true) es1 ++ map (pair false) es2) (Opening, Opening, f) = (ph1, Saved q2, f') ->
  fs_node f' q = Some (Regular b).
Proof.
  intros p p' a b es1 es2 f q ph1 q2 f' A1 A2 Eq E. unfold saving_both in E. rewrite fold_left_app in E.
  fold (saving_both p p' a b (map (pair true) es1) (Opening, Opening, f)) in E. rewrite both_first in E.
  destruct (saving p a es1 (Opening, f)) as [ph f1] eqn:Ef.
  fold (saving_both p p' a b (map (pair false) es2) (ph, Opening, f1)) in E. rewrite both_second in E.
  destruct (saving p' b es2 (Opening, f1)) as [ph2 f2] eqn:Ef2. injection E as -> -> ->.
  assert (T : fs_target f1 = fs_target f).
  { pose proof (alone_moment _ _ _ _ _ _ Ef A1) as M. destruct (opened ph1); [|now subst].
    destruct M as (Hq & k & _ & [Hd _] & _). rewrite Hd. apply write_targets. }
  pose proof (alone_moment _ _ _ _ _ _ Ef2 A2) as M. cbn in M. destruct M as (Hq & k & _ & [_ Hd] & Hs).
  rewrite T, Eq in Hq. injection Hq as <-. rewrite Hd, (Hs eq_refl), firstn_all. unfold fs_write. rewrite T, Eq. cbn.
  now rewrite path_eqb_refl.
Qed.

(** ** Saves come to an end *)

Lemma writes_finish p data q es : Forall accepting es -> forall pos f, pos <= length data ->
  length data <= pos + length (filter is_write es) -> exists f', saving p data es (advance data q pos, f) = (Saved q, f').
Proof.
  induction 1 as [|e es He Hes IH]; intros pos f Hp Hc.
  - cbn in Hc. exists f. unfold advance. replace (pos <? length data) with false by (symmetry; apply Nat.ltb_ge; lia). reflexivity.
  - cbn [saving fold_left]. change (fold_left _ es ?s) with (saving p data es s).
    destruct e as [| |n| | |g]; cbn in He; try contradiction.
    + cbn [filter is_write length] in Hc. unfold advance. destruct (pos <? length data) eqn:E.
      * apply Nat.ltb_lt in E. cbn [save_step].
        assert (L : 0 < length (firstn n (skipn pos data)) /\ pos + length (firstn n (skipn pos data)) <= length data)
          by (rewrite firstn_length, skipn_length; lia).
        destruct (firstn n (skipn pos data)) as [|x ch] eqn:Ec; [cbn in L; lia|]. rewrite <- Ec in *. apply IH; lia.
      * apply Nat.ltb_ge in E. cbn [save_step]. pose proof (IH pos f Hp ltac:(lia)) as X. unfold advance in X.
        now replace (pos <? length data) with false in X by (symmetry; apply Nat.ltb_ge; lia).
    + cbn [filter is_write] in Hc. pose proof (IH pos f Hp Hc) as X. unfold advance in *. destruct (pos <? length data); exact X.
Qed.
Theorem finishes : forall p data es f, fs_creatable f p = true -> Forall accepting es ->
  length data <= length (filter is_write es) ->
  exists ph f', saving p data (Created :: es) (Opening, f) = (ph, f') /\ answer ph = Some (ROk tt).
Proof.
  intros p data es f Hc Ha Hl. destruct (created p data f Hc) as (q & _ & E).
  destruct (writes_finish p data q es Ha 0 (holding f q []) ltac:(lia) Hl) as (f' & E').
  exists (Saved q), f'. cbn [saving fold_left]. rewrite E. split; [exact E'|reflexivity].
Qed.
