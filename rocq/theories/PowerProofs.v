(** Proofs about saves and power failures. *)
From Verif Require Import Base Utf8 Grapheme Position GapBuffer Cursor PathModel Buffer Spec BufferCalls
  BufferIoProps Saving SavingSpec SavingProofs Power.

Lemma powered_sees p data evs : forall ph f g, let '(ph', f', _) := powered p data evs (ph, f, g) in
  saving p data (deeds evs) (ph, f) = (ph', f').
Proof.
  induction evs as [|[e|q] evs IH]; intros ph f g; [reflexivity| |].
  - cbn [powered fold_left power_step deeds flat_map app saving].
    destruct (save_step p data e (ph, f)) as [ph1 f1] eqn:E. apply IH.
  - cbn [powered fold_left power_step deeds flat_map app]. apply IH.
Qed.
Lemma powered_app p data evs1 evs2 s : powered p data (evs1 ++ evs2) s = powered p data evs2 (powered p data evs1 s).
Proof. apply fold_left_app. Qed.
Lemma calm_alone evs : calm evs -> alone (deeds evs).
Proof.
  intros H f Hf. apply in_flat_map in Hf as ([e|q] & Hi & He); [|destruct He].
  destruct He as [->|[]]. exact (H f Hi).
Qed.

(** What a file can hold in memory while a save goes on alone. *)
Lemma seen_file p data es f ph f' x : alone es -> saving p data es (Opening, f) = (ph, f') ->
  fs_node f' x = fs_node f x \/ (fs_target f p = Some x /\ exists k, k <= length data /\ fs_node f' x = Some (Regular (firstn k data))).
Proof.
  intros A E. pose proof (alone_moment _ _ _ _ _ _ E A) as M. destruct (opened ph) as [q|]; [|subst; now left].
  destruct M as (Hq & k & Hk & [_ Hd] & _). rewrite Hd. unfold fs_write. rewrite Hq. cbn.
  destruct (path_eqb x q) eqn:Ex; [|now left]. apply path_eqb_eq in Ex. subst x. right. split; [reflexivity|]. exists k. auto.
Qed.
Theorem after_power_failure : forall p data evs f g ph f' g', calm evs ->
  powered p data evs (Opening, f, g) = (ph, f', g') -> forall x,
  fs_node g' x = fs_node g x \/ fs_node g' x = fs_node f x \/
  (fs_target f p = Some x /\ exists k, k <= length data /\ fs_node g' x = Some (Regular (firstn k data))).
Proof.
  intros p data evs. induction evs as [|ev evs IH] using rev_ind; intros f g ph f' g' C E x.
  - injection E as _ _ <-. now left.
  - assert (C' : calm evs) by (intros h Hh; apply (C h), in_or_app; now left).
    rewrite powered_app in E. destruct (powered p data evs (Opening, f, g)) as [[ph1 f1] g1] eqn:E1.
    specialize (IH f g ph1 f1 g1 C' E1 x). pose proof (powered_sees p data evs Opening f g) as S. rewrite E1 in S.
    destruct ev as [e|q]; cbn [powered fold_left power_step] in E.
    + destruct (save_step p data e (ph1, f1)) as [ph2 f2]. injection E as _ _ <-. exact IH.
    + injection E as _ _ <-. cbn [flush fs_node]. destruct (path_eqb x q) eqn:Ex; [|exact IH]. apply path_eqb_eq in Ex. subst q.
      destruct (seen_file p data (deeds evs) f ph1 f1 x (calm_alone _ C') S) as [H|H]; auto.
Qed.

(** Once the file was taken to the device after the save returned. *)
Theorem flushed_in_time : forall p data evs1 evs2 f g q f1 g1 ph f' g', calm (evs1 ++ evs2) ->
  powered p data evs1 (Opening, f, g) = (Saved q, f1, g1) ->
  powered p data (evs1 ++ Flush q :: evs2) (Opening, f, g) = (ph, f', g') ->
  fs_node g' q = Some (Regular data).
Proof.
  intros p data evs1 evs2 f g q f1 g1 ph f' g' C E1 E.
  rewrite powered_app, E1 in E. cbn [powered fold_left power_step] in E.
  assert (C1 : calm evs1) by (intros h Hh; apply (C h), in_or_app; now left).
  assert (C2 : calm evs2) by (intros h Hh; apply (C h), in_or_app; now right). clear C.
  assert (Hn : fs_node f1 q = Some (Regular data)).
  { pose proof (powered_sees p data evs1 Opening f g) as S. rewrite E1 in S.
    pose proof (alone_moment _ _ _ _ _ _ S (calm_alone _ C1)) as M. cbn [opened] in M. destruct M as (Hq & k & Hk & [_ Hd] & Hs).
    rewrite Hd, (Hs eq_refl), firstn_all. unfold fs_write. rewrite Hq. cbn. now rewrite path_eqb_refl. }
  assert (Hg : fs_node (flush f1 g1 q) q = Some (Regular data)) by (cbn; now rewrite path_eqb_refl).
  clear E1. revert E Hg. generalize (flush f1 g1 q) as h. induction evs2 as [|[e|r] evs2 IH]; intros h E Hg.
  - injection E as _ _ <-. exact Hg.
  - assert (C' : calm evs2) by (intros k Hk; apply (C2 k); now right). cbn [fold_left power_step] in E.
    assert (X : save_step p data e (Saved q, f1) = (Saved q, f1)).
    { destruct e as [| |n| | |k]; try reflexivity. exfalso. apply (C2 k). now left. }
    rewrite X in E. exact (IH C' h E Hg).
  - assert (C' : calm evs2) by (intros k Hk; apply (C2 k); now right). cbn [fold_left power_step] in E.
    apply (IH C' _ E). cbn. destruct (path_eqb q r) eqn:Er; [|exact Hg]. apply path_eqb_eq in Er. now subst r.
Qed.
