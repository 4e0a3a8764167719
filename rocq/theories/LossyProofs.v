(** Lossy decoding meets its specification. *)
From Verif Require Import Base Utf8 Utf8Proofs LossySpec.
From Coq Require Import ZifyBool ZifyNat ZifyN.
Ltac Zify.zify_post_hook ::= Z.div_mod_to_equations.
Local Open Scope N_scope.

(** The lead byte says how long a character is. *)
Lemma enc1_cases c : scalar c = true ->
  (c < 128 /\ enc1 c = [c]) \/
  (exists b0 b1, enc1 c = [b0; b1] /\ between 194 b0 223 = true /\ cont b1 = true) \/
  (exists b0 b1 b2, enc1 c = [b0; b1; b2] /\ between 224 b0 239 = true /\ second3 b0 b1 = true /\ cont b2 = true) \/
  (exists b0 b1 b2 b3, enc1 c = [b0; b1; b2; b3] /\ between 240 b0 244 = true /\ second4 b0 b1 = true /\
     cont b2 = true /\ cont b3 = true).
Proof.
  unfold scalar. intros Hc. unfold enc1.
  destruct (c <? 128) eqn:E1. { left. split; [lia|reflexivity]. }
  destruct (c <? 2048) eqn:E2.
  { right; left. do 2 eexists. split; [reflexivity|]. unfold between, cont. split; lia. }
  destruct (c <? 65536) eqn:E3.
  { right; right; left. do 3 eexists. split; [reflexivity|]. unfold second3, between, cont. split; [lia|]. split; [|lia].
    destruct (224 + c / 4096 =? 224) eqn:E4; [lia|]. destruct (224 + c / 4096 =? 237) eqn:E5; lia. }
  right; right; right. do 4 eexists. split; [reflexivity|]. unfold second4, between, cont. split; [lia|]. split; [|lia].
  destruct (240 + c / 262144 =? 240) eqn:E4; [lia|]. destruct (240 + c / 262144 =? 244) eqn:E5; lia.
Qed.

Lemma char2 b0 b1 : between 194 b0 223 = true -> cont b1 = true ->
  exists c, scalar c = true /\ enc1 c = [b0; b1].
Proof.
  unfold between, cont. intros H0 H1. exists ((b0 - 192) * 64 + (b1 - 128)). split; [unfold scalar; lia|]. unfold enc1.
  match goal with |- context [if ?a then _ else _] => replace a with false by lia end.
  match goal with |- context [if ?a then _ else _] => replace a with true by lia end.
  repeat f_equal; lia.
Qed.

Lemma char3 b0 b1 b2 : between 224 b0 239 = true -> second3 b0 b1 = true -> cont b2 = true ->
  exists c, scalar c = true /\ enc1 c = [b0; b1; b2].
Proof.
  intros H0 H1 H2. exists ((b0 - 224) * 4096 + (b1 - 128) * 64 + (b2 - 128)).
  assert (2048 <= (b0 - 224) * 4096 + (b1 - 128) * 64 + (b2 - 128) < 65536 /\ 128 <= b1 < 192 /\
    scalar ((b0 - 224) * 4096 + (b1 - 128) * 64 + (b2 - 128)) = true) as (A & B & C).
  { unfold second3 in H1. unfold scalar, between, cont in *.
    destruct (b0 =? 224) eqn:G1; [lia|]. destruct (b0 =? 237) eqn:G2; lia. }
  split; [exact C|]. unfold enc1, between, cont in *.
  do 2 match goal with |- context [if ?a then _ else _] => replace a with false by lia end.
  match goal with |- context [if ?a then _ else _] => replace a with true by lia end.
  repeat f_equal; lia.
Qed.

Lemma char4 b0 b1 b2 b3 : between 240 b0 244 = true -> second4 b0 b1 = true -> cont b2 = true -> cont b3 = true ->
  exists c, scalar c = true /\ enc1 c = [b0; b1; b2; b3].
Proof.
  intros H0 H1 H2 H3. exists ((b0 - 240) * 262144 + (b1 - 128) * 4096 + (b2 - 128) * 64 + (b3 - 128)).
  assert (65536 <= (b0 - 240) * 262144 + (b1 - 128) * 4096 + (b2 - 128) * 64 + (b3 - 128) /\ 128 <= b1 < 192 /\
    scalar ((b0 - 240) * 262144 + (b1 - 128) * 4096 + (b2 - 128) * 64 + (b3 - 128)) = true) as (A & B & C).
  { unfold second4 in H1. unfold scalar, between, cont in *.
    destruct (b0 =? 240) eqn:G1; [lia|]. destruct (b0 =? 244) eqn:G2; lia. }
  split; [exact C|]. unfold enc1, between, cont in *.
  do 3 match goal with |- context [if ?a then _ else _] => replace a with false by lia end.
  repeat f_equal; lia.
Qed.

Definition no_lead (b : byte) : Prop :=
  (b <? 128) = false /\ between 194 b 223 = false /\ between 224 b 239 = false /\ between 240 b 244 = false.

Ltac by_cases :=
  intros c r Hc Heq; pose proof (enc1_cases c Hc) as [[L E]|[(a0 & a1 & E & L & K)|[(a0 & a1 & a2 & E & L & K & K2)|(a0 & a1 & a2 & a3 & E & L & K & K2 & K3)]]];
  rewrite E in Heq; cbn [app] in Heq; try discriminate Heq; injection Heq; intros; subst;
  unfold no_lead, between in *; try congruence; try lia.

Lemma bad_lead b0 r0 : no_lead b0 -> broken (b0 :: r0) /\ ~ begins [b0].
Proof.
  intros (N0 & N1 & N2 & N3). split.
  - by_cases.
  - intros (c & r & Hc & Heq). symmetry in Heq. revert c r Hc Heq. by_cases.
Qed.

(** Where a sequence stops, the bytes so far are the subpart. *)
Lemma begins_first b0 : between 194 b0 244 = true -> begins [b0].
Proof.
  intros H. destruct (between 194 b0 223) eqn:E1.
  { destruct (char2 b0 128 E1 eq_refl) as (c & Hc & E). now exists c, [128]. }
  destruct (between 224 b0 239) eqn:E2.
  { assert (exists b1, second3 b0 b1 = true) as (b1 & S).
    { unfold second3, between in *. destruct (b0 =? 224); [exists 160; reflexivity|exists 128; now destruct (b0 =? 237)]. }
    destruct (char3 b0 b1 128 E2 S eq_refl) as (c & Hc & E). now exists c, [b1; 128]. }
  assert (E3 : between 240 b0 244 = true) by (unfold between in *; lia).
  assert (exists b1, second4 b0 b1 = true) as (b1 & S).
  { unfold second4, between in *. destruct (b0 =? 240); [exists 144; reflexivity|exists 128; now destruct (b0 =? 244)]. }
  destruct (char4 b0 b1 128 128 E3 S eq_refl eq_refl) as (c & Hc & E). now exists c, [b1; 128; 128].
Qed.

Lemma begins_second b0 b1 : between 194 b0 244 = true ->
  begins [b0; b1] <-> (between 194 b0 223 = true /\ cont b1 = true) \/
    (between 224 b0 239 = true /\ second3 b0 b1 = true) \/ (between 240 b0 244 = true /\ second4 b0 b1 = true).
Proof.
  intros H. split.
  - intros (c & r & Hc & Heq). symmetry in Heq. revert c r Hc Heq. by_cases; auto.
  - intros [[A B]|[[A B]|[A B]]].
    + destruct (char2 _ _ A B) as (c & Hc & E). now exists c, [].
    + destruct (char3 _ _ 128 A B eq_refl) as (c & Hc & E). now exists c, [128].
    + destruct (char4 _ _ 128 128 A B eq_refl eq_refl) as (c & Hc & E). now exists c, [128; 128].
Qed.

Lemma begins_third b0 b1 b2 : begins [b0; b1; b2] <->
  (between 224 b0 239 = true /\ second3 b0 b1 = true /\ cont b2 = true) \/
  (between 240 b0 244 = true /\ second4 b0 b1 = true /\ cont b2 = true).
Proof.
  split.
  - intros (c & r & Hc & Heq). symmetry in Heq. revert c r Hc Heq. by_cases; auto.
  - intros [(A & B & C)|(A & B & C)].
    + destruct (char3 _ _ _ A B C) as (c & Hc & E). now exists c, [].
    + destruct (char4 _ _ _ 128 A B C eq_refl) as (c & Hc & E). now exists c, [128].
Qed.

Lemma begins_fourth b0 b1 b2 b3 : begins [b0; b1; b2; b3] <->
  (between 240 b0 244 = true /\ second4 b0 b1 = true /\ cont b2 = true /\ cont b3 = true).
Proof.
  split.
  - intros (c & r & Hc & Heq). symmetry in Heq. revert c r Hc Heq. by_cases; auto.
  - intros (A & B & C & D). destruct (char4 _ _ _ _ A B C D) as (c & Hc & E). now exists c, [].
Qed.

Lemma not_whole x bs : (forall c, scalar c = true -> enc1 c <> x) ->
  (forall b r, bs = b :: r -> ~ begins (x ++ [b])) -> (forall c, scalar c = true -> forall y z, x = enc1 c ++ y :: z -> False) ->
  broken (x ++ bs).
Proof.
  intros H1 H2 H3 c r Hc E.
  assert (X : forall (a b u v : list N), a ++ b = u ++ v ->
     (exists y, u = a ++ y /\ b = y ++ v) \/ (exists y, a = u ++ y /\ v = y ++ b)).
  { induction a as [|h a IH]; intros b u v Q.
    - left. exists u. now split.
    - destruct u as [|k u].
      + right. exists (h :: a). split; [reflexivity|]. symmetry. exact Q.
      + cbn [app] in Q. injection Q as <- Q. destruct (IH _ _ _ Q) as [(y & -> & ->)|(y & -> & ->)]; [left|right]; now exists y. }
  destruct (X _ _ _ _ E) as [([|y ys] & E1 & E2)|([|y ys] & E1 & E2)].
  - rewrite app_nil_r in E1. exact (H1 c Hc E1).
  - cbn in E2. refine (H2 _ _ E2 _). exists c, ys. split; [assumption|]. now rewrite <- app_assoc.
  - rewrite app_nil_r in E1. apply (H1 c Hc). now symmetry.
  - exact (H3 c Hc _ _ E1).
Qed.

Lemma stops x bs t : begins x -> x <> [] -> (forall c y, scalar c = true -> x <> enc1 c ++ y) ->
  (forall b r, bs = b :: r -> ~ begins (x ++ [b])) -> lossy bs t -> lossy (x ++ bs) (REPLACEMENT :: t).
Proof.
  intros B Hx W N L. apply lossy_bad; [|left; auto|assumption]. apply not_whole; [|exact N|].
  - intros c Hc E. apply (W c [] Hc). now rewrite app_nil_r.
  - intros c Hc y z E. exact (W _ _ Hc E).
Qed.

Lemma decode_meets bs : lossy bs (decode_lossy bs).
Proof.
  remember (length bs) as n eqn:Hn.
  assert (Hle : (length bs <= n)%nat) by lia. clear Hn. revert bs Hle.
  induction n as [|n IH]; intros bs Hle.
  { destruct bs; simpl in Hle; [constructor|lia]. }
  destruct bs as [|b0 r0]; [constructor|].
  simpl in Hle.
  assert (one : forall c bs1 r, scalar c = true -> enc1 c = bs1 -> (length r <= n)%nat -> lossy (bs1 ++ r) (decode_lossy (bs1 ++ r))).
  { intros c bs1 r Hc <- Hr. rewrite decode_enc1 by assumption. constructor; auto. }
  destruct (b0 <? 128) eqn:E0.
  { apply (one b0 [b0] r0); [unfold scalar; lia|unfold enc1; now rewrite E0|lia]. }
  destruct (between 194 b0 223) eqn:E1.
  { assert (B0 : begins [b0]) by (apply begins_first; unfold between in *; lia).
    assert (W : forall c y, scalar c = true -> [b0] <> enc1 c ++ y) by by_cases.
    destruct r0 as [|b1 r1].
    - cbn [decode_lossy]. rewrite E0, E1. apply (stops [b0] [] []); try assumption; try discriminate. constructor.
    - simpl in Hle. destruct (cont b1) eqn:F1.
      + destruct (char2 _ _ E1 F1) as (c & Hc & E). apply (one c [b0; b1] r1 Hc E). lia.
      + cbn [decode_lossy]. rewrite E0, E1, F1. apply (stops [b0] (b1 :: r1)); try assumption; try discriminate.
        * intros b r [= <- <-]. cbn [app]. rewrite begins_second by (unfold between in *; lia).
          unfold between in *. intros [[? ?]|[[? ?]|[? ?]]]; [congruence|lia|lia].
        * apply IH. simpl. lia. }
  destruct (between 224 b0 239) eqn:E2.
  { assert (B0 : begins [b0]) by (apply begins_first; unfold between in *; lia).
    assert (W : forall c y, scalar c = true -> [b0] <> enc1 c ++ y) by by_cases.
    destruct r0 as [|b1 r1].
    { cbn [decode_lossy]. rewrite E0, E1, E2. apply (stops [b0] [] []); try assumption; try discriminate. constructor. }
    simpl in Hle. destruct (second3 b0 b1) eqn:F1.
    2:{ cbn [decode_lossy]. rewrite E0, E1, E2, F1. apply (stops [b0] (b1 :: r1)); try assumption; try discriminate.
        - intros b r [= <- <-]. cbn [app]. rewrite begins_second by (unfold between in *; lia).
          unfold between in *. intros [[? ?]|[[? ?]|[? ?]]]; [lia|congruence|lia].
        - apply IH. simpl. lia. }
    assert (B1 : begins [b0; b1]) by (apply begins_second; [unfold between in *; lia|auto]).
    assert (W1 : forall c y, scalar c = true -> [b0; b1] <> enc1 c ++ y) by by_cases.
    destruct r1 as [|b2 r2].
    { cbn [decode_lossy]. rewrite E0, E1, E2, F1. apply (stops [b0; b1] [] []); try assumption; try discriminate. constructor. }
    simpl in Hle. destruct (cont b2) eqn:F2.
    - destruct (char3 _ _ _ E2 F1 F2) as (c & Hc & E). apply (one c [b0; b1; b2] r2 Hc E). lia.
    - cbn [decode_lossy]. rewrite E0, E1, E2, F1, F2. apply (stops [b0; b1] (b2 :: r2)); try assumption; try discriminate.
      + intros b r [= <- <-]. cbn [app]. rewrite begins_third. intros [(? & ? & ?)|(? & ? & ?)]; congruence.
      + apply IH. simpl. lia. }
  destruct (between 240 b0 244) eqn:E3.
  { assert (B0 : begins [b0]) by (apply begins_first; unfold between in *; lia).
    assert (W : forall c y, scalar c = true -> [b0] <> enc1 c ++ y) by by_cases.
    destruct r0 as [|b1 r1].
    { cbn [decode_lossy]. rewrite E0, E1, E2, E3. apply (stops [b0] [] []); try assumption; try discriminate. constructor. }
    simpl in Hle. destruct (second4 b0 b1) eqn:F1.
    2:{ cbn [decode_lossy]. rewrite E0, E1, E2, E3, F1. apply (stops [b0] (b1 :: r1)); try assumption; try discriminate.
        - intros b r [= <- <-]. cbn [app]. rewrite begins_second by (unfold between in *; lia).
          unfold between in *. intros [[? ?]|[[? ?]|[? ?]]]; [lia|lia|congruence].
        - apply IH. simpl. lia. }
    assert (B1 : begins [b0; b1]) by (apply begins_second; [unfold between in *; lia|auto]).
    assert (W1 : forall c y, scalar c = true -> [b0; b1] <> enc1 c ++ y) by by_cases.
    destruct r1 as [|b2 r2].
    { cbn [decode_lossy]. rewrite E0, E1, E2, E3, F1. apply (stops [b0; b1] [] []); try assumption; try discriminate. constructor. }
    simpl in Hle. destruct (cont b2) eqn:F2.
    2:{ cbn [decode_lossy]. rewrite E0, E1, E2, E3, F1, F2. apply (stops [b0; b1] (b2 :: r2)); try assumption; try discriminate.
        - intros b r [= <- <-]. cbn [app]. rewrite begins_third. intros [(? & ? & ?)|(? & ? & ?)]; congruence.
        - apply IH. simpl. lia. }
    assert (B2 : begins [b0; b1; b2]) by (apply begins_third; auto).
    assert (W2 : forall c y, scalar c = true -> [b0; b1; b2] <> enc1 c ++ y) by by_cases.
    destruct r2 as [|b3 r3].
    { cbn [decode_lossy]. rewrite E0, E1, E2, E3, F1, F2. apply (stops [b0; b1; b2] [] []); try assumption; try discriminate. constructor. }
    simpl in Hle. destruct (cont b3) eqn:F3.
    - destruct (char4 _ _ _ _ E3 F1 F2 F3) as (c & Hc & E). apply (one c [b0; b1; b2; b3] r3 Hc E). lia.
    - cbn [decode_lossy]. rewrite E0, E1, E2, E3, F1, F2, F3. apply (stops [b0; b1; b2] (b3 :: r3)); try assumption; try discriminate.
      + intros b r [= <- <-]. cbn [app]. rewrite begins_fourth. intros (? & ? & ? & ?); congruence.
      + apply IH. simpl. lia. }
  cbn [decode_lossy]. rewrite E0, E1, E2, E3.
  destruct (bad_lead b0 r0 (conj E0 (conj E1 (conj E2 E3)))) as [X Y].
  apply (lossy_bad [b0] r0); [exact X|right; now exists b0|]. apply IH. lia.
Qed.

Lemma begins_prefix x y : begins (x ++ y) -> begins x.
Proof. intros (c & r & Hc & E). exists c, (y ++ r). split; [assumption|]. now rewrite app_assoc. Qed.

Lemma subpart_unique x bs x' bs' : subpart x bs -> subpart x' bs' -> x ++ bs = x' ++ bs' -> x = x' /\ bs = bs'.
Proof.
  assert (H : forall x bs y ys bs', subpart x bs -> subpart (x ++ y :: ys) bs' -> bs = y :: ys ++ bs' -> False).
  { intros u us y ys vs [(B & N & M)|(b & -> & B)] [(B' & N' & M')|(b' & E & B')] Q.
    - apply (M _ _ Q). apply (begins_prefix _ ys). now rewrite <- app_assoc.
    - destruct u as [|k [|k' u]]; [now apply N|discriminate E|discriminate E].
    - exact (B (begins_prefix [b] (y :: ys) B')).
    - discriminate E. }
  intros H1 H2 E. revert H1 H2. revert x' E.
  assert (G : forall x x' pre bs bs', x ++ bs = x' ++ bs' -> subpart (pre ++ x) bs -> subpart (pre ++ x') bs' -> x = x' /\ bs = bs').
  { induction x0 as [|h x0 IH]; intros [|h' x'] pre us us' E H1 H2.
    - now split.
    - exfalso. rewrite app_nil_r in H1. exact (H _ _ _ _ _ H1 H2 E).
    - exfalso. rewrite app_nil_r in H2. refine (H _ _ _ _ _ H2 H1 _). now symmetry.
    - cbn [app] in E. injection E as <- E. destruct (IH x' (pre ++ [h]) us us' E) as [-> ->]; [| |now split]; now rewrite <- app_assoc. }
  intros x' E H1 H2. exact (G x x' [] bs bs' E H1 H2).
Qed.

Lemma lossy_unique bs t : lossy bs t -> forall t', lossy bs t' -> t = t'.
Proof.
  induction 1 as [|c bs t Hc L IH|x bs t B S L IH]; intros t' L'.
  - inversion L' as [|c bs t Hc L E|x bs t B S L E]; [reflexivity| |].
    + exfalso. pose proof (len1_pos c) as P. unfold len1 in P. apply app_eq_nil in E as [E _]. rewrite E in P. cbn in P. lia.
    + exfalso. apply app_eq_nil in E as [E _]. destruct S as [(_ & N & _)|(b & N & _)]; [now apply N|congruence].
  - inversion L' as [E|c' bs' u Hc' L2 E|x bs' u B S L2 E].
    + exfalso. pose proof (len1_pos c) as P. unfold len1 in P. symmetry in E. apply app_eq_nil in E as [E _]. rewrite E in P. cbn in P. lia.
    + pose proof (f_equal decode_lossy E) as D. rewrite !decode_enc1 in D by assumption. injection D as -> _.
      apply app_inv_head in E as ->. f_equal. now apply IH.
    + exfalso. apply (B c bs Hc). exact E.
  - inversion L' as [E|c' bs' u Hc' L2 E|x' bs' u B' S' L2 E].
    + exfalso. symmetry in E. apply app_eq_nil in E as [E _]. destruct S as [(_ & N & _)|(b & N & _)]; [now apply N|congruence].
    + exfalso. apply (B c' bs' Hc'). now symmetry.
    + destruct (subpart_unique _ _ _ _ S' S E) as [-> ->]. f_equal. now apply IH.
Qed.

Lemma decode_lossy_iff bs t : decode_lossy bs = t <-> lossy bs t.
Proof.
  split; [intros <-; apply decode_meets|]. intros L. exact (lossy_unique _ _ (decode_meets bs) _ L).
Qed.
