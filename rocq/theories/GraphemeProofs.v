(** Facts about the segmentation model, for every break rule. *)
From Verif Require Export ClusterSpec.
From Verif Require Import Base Utf8 Utf8Proofs Grapheme.

Lemma seg_from_concat brk s : forall cur, concat (seg_from brk cur s) = cur ++ s.
Proof.
  induction s as [|c s IH]; intros cur; simpl; [reflexivity|].
  destruct (brk cur c); simpl; rewrite IH; [reflexivity|].
  now rewrite <- app_assoc.
Qed.

Lemma graphemes_concat brk s : concat (graphemes brk s) = s.
Proof. destruct s; simpl; [reflexivity|]. apply seg_from_concat. Qed.

Lemma seg_from_nonempty brk s : forall cur, cur <> [] ->
  Forall (fun g => g <> []) (seg_from brk cur s).
Proof.
  induction s as [|c s IH]; intros cur Hc; simpl; [now constructor|].
  destruct (brk cur c).
  - constructor; [assumption|]. now apply IH.
  - apply IH. now destruct cur.
Qed.

Lemma graphemes_nonempty brk s : Forall (fun g => g <> []) (graphemes brk s).
Proof. destruct s; simpl; [constructor|]. now apply seg_from_nonempty. Qed.

Lemma graphemes_nil_iff brk s : graphemes brk s = [] <-> s = [].
Proof.
  split; [|intros ->; reflexivity]. intros H.
  rewrite <- (graphemes_concat brk s), H. reflexivity.
Qed.

Lemma seg_from_cons brk s : forall cur, exists u us, seg_from brk cur s = (cur ++ u) :: us.
Proof.
  induction s as [|c s IH]; intros cur; simpl.
  - exists [], []. now rewrite app_nil_r.
  - destruct (brk cur c).
    + exists [], (seg_from brk [c] s). now rewrite app_nil_r.
    + destruct (IH (cur ++ [c])) as (u & us & ->).
      exists (c :: u), us. now rewrite <- app_assoc.
Qed.

(** The first cluster and the rest: the scan restarts at a boundary. *)
Lemma seg_from_restart brk s : forall cur u us,
  seg_from brk cur s = u :: us ->
  exists x, u = cur ++ x /\ seg_from brk cur x = [cur ++ x] /\ us = graphemes brk (concat us).
Proof.
  induction s as [|c s IH]; intros cur u us H; simpl in H.
  - injection H as <- <-. exists []. rewrite app_nil_r. now repeat split.
  - destruct (brk cur c) eqn:E.
    + injection H as <- <-. exists []. rewrite app_nil_r. repeat split.
      rewrite seg_from_concat. reflexivity.
    + apply IH in H as (x & -> & Hx & Hus).
      exists (c :: x). rewrite <- app_assoc. split; [reflexivity|]. split; [|assumption].
      simpl. rewrite E, Hx, <- app_assoc. reflexivity.
Qed.

Lemma graphemes_cons brk s u us :
  graphemes brk s = u :: us ->
  graphemes brk u = [u] /\ graphemes brk (concat us) = us.
Proof.
  destruct s as [|c s]; simpl; [discriminate|]. intros H.
  apply seg_from_restart in H as (x & -> & Hx & Hus).
  split; [exact Hx|]. now symmetry.
Qed.

Lemma seg_from_app brk x : forall cur t,
  seg_from brk cur x = [cur ++ x] ->
  seg_from brk cur (x ++ t) = seg_from brk (cur ++ x) t.
Proof.
  induction x as [|c x IH]; intros cur t H; simpl in *.
  - now rewrite app_nil_r.
  - destruct (brk cur c).
    + exfalso. injection H as H1 H2.
      destruct (seg_from_cons brk x [c]) as (u & us & E). rewrite E in H2. discriminate.
    + rewrite IH; [now rewrite <- app_assoc|]. now rewrite <- app_assoc.
Qed.

Lemma graphemes_single_app brk u t :
  graphemes brk u = [u] ->
  match t with [] => True | c :: _ => brk u c = true end ->
  graphemes brk (u ++ t) = u :: graphemes brk t.
Proof.
  destruct u as [|a u]; [discriminate|]. simpl. intros Hu Ht.
  rewrite (seg_from_app brk u [a] t Hu).
  destruct t as [|c t]; simpl; [reflexivity|]. simpl in Ht. now rewrite Ht.
Qed.

Lemma graphemes_boundary brk s u v us :
  graphemes brk s = u :: v :: us ->
  match v with [] => True | c :: _ => brk u c = true end.
Proof.
  destruct s as [|c s]; simpl; [discriminate|].
  enough (H : forall s cur, seg_from brk cur s = u :: v :: us ->
                       match v with [] => True | c :: _ => brk u c = true end) by apply H.
  clear. induction s as [|c s IH]; intros cur H; simpl in H; [discriminate|].
  destruct (brk cur c) eqn:E.
  - injection H as <- H. destruct (seg_from_cons brk s [c]) as (x & xs & Ex).
    rewrite Ex in H. injection H as <- _. exact E.
  - now apply IH in H.
Qed.

(** Restart: cutting a text at one of its boundaries cuts its segmentation. *)
Lemma graphemes_restart brk pre : forall s post,
  graphemes brk s = pre ++ post ->
  graphemes brk (concat pre) = pre /\ graphemes brk (concat post) = post.
Proof.
  induction pre as [|u pre IH]; intros s post H; simpl in H |- *.
  - split; [reflexivity|]. rewrite <- H. now rewrite graphemes_concat.
  - destruct (graphemes_cons _ _ _ _ H) as [Hu Hr].
    destruct (IH _ _ Hr) as [Hp Hq]. split; [|exact Hq].
    rewrite graphemes_single_app; [now rewrite Hp|exact Hu|].
    destruct pre as [|v pre]; simpl; [exact I|].
    pose proof (graphemes_boundary _ _ _ _ _ H) as Hb.
    pose proof (graphemes_nonempty brk (concat pre)) as _.
    destruct v as [|c v]; [|exact Hb].
    exfalso. pose proof (graphemes_nonempty brk s) as Hn. rewrite H in Hn.
    inversion_clear Hn as [|? ? _ Hn']. inversion_clear Hn'. contradiction.
Qed.

Lemma graphemes_pre brk s pre post :
  graphemes brk s = pre ++ post -> graphemes brk (concat pre) = pre.
Proof. intros H. now apply graphemes_restart in H. Qed.
Lemma graphemes_post brk s pre post :
  graphemes brk s = pre ++ post -> graphemes brk (concat post) = post.
Proof. intros H. now apply graphemes_restart in H. Qed.

(** Two texts whose juxtaposition does not merge clusters across the seam. *)
Definition seam (brk : brk_rule) (a b : text) : Prop :=
  graphemes brk (a ++ b) = graphemes brk a ++ graphemes brk b.

Lemma seam_nil_r brk a : seam brk a [].
Proof. unfold seam. simpl. now rewrite !app_nil_r. Qed.
Lemma seam_nil_l brk a : seam brk [] a.
Proof. reflexivity. Qed.

Lemma seam_split brk s pre post :
  graphemes brk s = pre ++ post -> seam brk (concat pre) (concat post).
Proof.
  intros H. destruct (graphemes_restart _ _ _ _ H) as [H1 H2].
  assert (E : concat pre ++ concat post = s).
  { rewrite <- (graphemes_concat brk s), H. symmetry. apply concat_app. }
  unfold seam. now rewrite H1, H2, E.
Qed.


Lemma graphemes_app_boundary brk : forall us b,
  us <> [] -> graphemes brk (concat us) = us ->
  match b with [] => True | c :: _ => brk (last us []) c = true end ->
  graphemes brk (concat us ++ b) = us ++ graphemes brk b.
Proof.
  induction us as [|u us IH]; intros b Hne Hus Hb; [contradiction|].
  simpl in Hus |- *. rewrite <- app_assoc.
  destruct (graphemes_cons _ _ _ _ Hus) as [Hu Hr].
  destruct us as [|v us].
  - simpl in *. rewrite graphemes_single_app; [reflexivity|exact Hu|exact Hb].
  - rewrite graphemes_single_app; [|exact Hu|].
    + f_equal. apply IH; [discriminate|exact Hr|].
      simpl last in Hb. exact Hb.
    + pose proof (graphemes_boundary _ _ _ _ _ Hus) as Hbd.
      assert (Hv : v <> []).
      { pose proof (graphemes_nonempty brk (u ++ concat (v :: us))) as Hn. rewrite Hus in Hn.
        inversion_clear Hn as [|? ? _ Hn']. now inversion_clear Hn'. }
      destruct v as [|c v]; [contradiction|]. exact Hbd.
Qed.

(** Families of clusters that never merge. *)
Definition indep (brk : brk_rule) (U : text -> Prop) : Prop :=
  (forall u, U u -> graphemes brk u = [u]) /\
  (forall u c v, U u -> U (c :: v) -> brk u c = true).

Lemma indep_graphemes brk U us :
  indep brk U -> Forall U us -> graphemes brk (concat us) = us.
Proof.
  intros [H1 H2]. induction us as [|u us IH]; intros HF; [reflexivity|].
  inversion_clear HF as [|? ? Hu HF']. specialize (IH HF'). simpl.
  rewrite graphemes_single_app; [now rewrite IH|now apply H1|].
  destruct us as [|v us]; simpl; [exact I|].
  inversion_clear HF' as [|? ? Hv _].
  destruct v as [|c v]; [now apply H1 in Hv|]. simpl. eapply H2; eassumption.
Qed.

Lemma words_nil U : words U [].
Proof. exists []. now split. Qed.

Lemma words_app U a b : words U a -> words U b -> words U (a ++ b).
Proof.
  intros (us & Hu & ->) (vs & Hv & ->). exists (us ++ vs). split.
  - now apply Forall_app.
  - now rewrite concat_app.
Qed.

Lemma words_graphemes brk U s : indep brk U -> words U s -> Forall U (graphemes brk s).
Proof. intros HI (us & Hu & ->). now rewrite (indep_graphemes brk U). Qed.

Lemma words_seam brk U a b : indep brk U -> words U a -> words U b -> seam brk a b.
Proof.
  intros HI (us & Hu & ->) (vs & Hv & ->). unfold seam.
  rewrite <- concat_app, !(indep_graphemes brk U); try assumption; [reflexivity|].
  now apply Forall_app.
Qed.

Lemma words_split brk U s pre post :
  indep brk U -> words U s -> graphemes brk s = pre ++ post ->
  words U (concat pre) /\ words U (concat post).
Proof.
  intros HI Hs H. pose proof (words_graphemes _ _ _ HI Hs) as HF. rewrite H in HF.
  apply Forall_app in HF as [H1 H2]. split; [now exists pre|now exists post].
Qed.

Lemma is_lf_iff g : is_lf g = true <-> g = [LF].
Proof. apply list_N_eqb_eq. Qed.
