(** Facts about the UTF-8 model. *)
From Verif Require Import Base Utf8.
From Coq Require Import ZifyBool ZifyNat ZifyN.
Ltac Zify.zify_post_hook ::= Z.div_mod_to_equations.
Local Open Scope N_scope.

Lemma enc_app s t : enc (s ++ t) = enc s ++ enc t.
Proof. apply flat_map_app. Qed.

Lemma enc_cons c s : enc (c :: s) = enc1 c ++ enc s.
Proof. reflexivity. Qed.

Lemma enc_concat ls : enc (concat ls) = concat (map enc ls).
Proof. induction ls as [|l ls IH]; simpl; [reflexivity|]. now rewrite enc_app, IH. Qed.

Lemma blen_app s t : blen (s ++ t) = (blen s + blen t)%nat.
Proof. unfold blen. now rewrite enc_app, app_length. Qed.

Lemma blen_cons c s : blen (c :: s) = (len1 c + blen s)%nat.
Proof. unfold blen, len1. now rewrite enc_cons, app_length. Qed.

Lemma len1_pos c : (0 < len1 c)%nat.
Proof.
  unfold len1, enc1.
  destruct (c <? 128); [simpl; lia|].
  destruct (c <? 2048); [simpl; lia|].
  destruct (c <? 65536); simpl; lia.
Qed.

Lemma blen_zero s : blen s = 0%nat -> s = [].
Proof.
  destruct s as [|c s]; [reflexivity|]. rewrite blen_cons.
  pose proof (len1_pos c). lia.
Qed.

Lemma decode_enc1 c bs :
  scalar c = true -> decode_lossy (enc1 c ++ bs) = c :: decode_lossy bs.
Proof.
  unfold scalar. intros Hc.
  unfold enc1.
  destruct (c <? 128) eqn:E1.
  { cbn [app decode_lossy]. now rewrite E1. }
  destruct (c <? 2048) eqn:E2.
  { cbn [app decode_lossy]. unfold between, cont.
    replace (192 + c / 64 <? 128) with false by lia.
    replace ((194 <=? 192 + c / 64) && (192 + c / 64 <=? 223)) with true by lia.
    replace ((128 <=? 128 + c mod 64) && (128 + c mod 64 <? 192)) with true by lia.
    f_equal. lia. }
  destruct (c <? 65536) eqn:E3.
  { cbn [app decode_lossy]. unfold second3, between, cont.
    replace (224 + c / 4096 <? 128) with false by lia.
    replace ((194 <=? 224 + c / 4096) && (224 + c / 4096 <=? 223)) with false by lia.
    replace ((224 <=? 224 + c / 4096) && (224 + c / 4096 <=? 239)) with true by lia.
    replace (if 224 + c / 4096 =? 224 then (160 <=? 128 + (c / 64) mod 64) && (128 + (c / 64) mod 64 <=? 191)
             else if 224 + c / 4096 =? 237 then (128 <=? 128 + (c / 64) mod 64) && (128 + (c / 64) mod 64 <=? 159)
             else (128 <=? 128 + (c / 64) mod 64) && (128 + (c / 64) mod 64 <=? 191)) with true.
    2:{ destruct (224 + c / 4096 =? 224) eqn:E4; [lia|].
        destruct (224 + c / 4096 =? 237) eqn:E5; lia. }
    replace ((128 <=? 128 + c mod 64) && (128 + c mod 64 <? 192)) with true by lia.
    f_equal. lia. }
  cbn [app decode_lossy]. unfold second4, between, cont.
  replace (240 + c / 262144 <? 128) with false by lia.
  replace ((194 <=? 240 + c / 262144) && (240 + c / 262144 <=? 223)) with false by lia.
  replace ((224 <=? 240 + c / 262144) && (240 + c / 262144 <=? 239)) with false by lia.
  replace ((240 <=? 240 + c / 262144) && (240 + c / 262144 <=? 244)) with true by lia.
  replace (if 240 + c / 262144 =? 240 then (144 <=? 128 + (c / 4096) mod 64) && (128 + (c / 4096) mod 64 <=? 191)
           else if 240 + c / 262144 =? 244 then (128 <=? 128 + (c / 4096) mod 64) && (128 + (c / 4096) mod 64 <=? 143)
           else (128 <=? 128 + (c / 4096) mod 64) && (128 + (c / 4096) mod 64 <=? 191)) with true.
  2:{ destruct (240 + c / 262144 =? 240) eqn:E4; [lia|].
      destruct (240 + c / 262144 =? 244) eqn:E5; lia. }
  replace ((128 <=? 128 + (c / 64) mod 64) && (128 + (c / 64) mod 64 <? 192)) with true by lia.
  replace ((128 <=? 128 + c mod 64) && (128 + c mod 64 <? 192)) with true by lia.
  f_equal. lia.
Qed.

Lemma decode_enc s : valid_text s -> decode_lossy (enc s) = s.
Proof.
  induction 1 as [|c s Hc Hs IH]; [reflexivity|].
  rewrite enc_cons, decode_enc1 by assumption. now rewrite IH.
Qed.

Lemma decode_enc_app s bs :
  valid_text s -> decode_lossy (enc s ++ bs) = s ++ decode_lossy bs.
Proof.
  induction 1 as [|c s Hc Hs IH]; [reflexivity|].
  rewrite enc_cons, <- app_assoc, decode_enc1 by assumption. simpl. now rewrite IH.
Qed.

Lemma enc_inj s t : valid_text s -> valid_text t -> enc s = enc t -> s = t.
Proof.
  intros Hs Ht E. rewrite <- (decode_enc s Hs), <- (decode_enc t Ht). now rewrite E.
Qed.

Lemma list_N_eqb_refl a : list_N_eqb a a = true.
Proof. unfold list_N_eqb. now destruct (list_eq_dec N.eq_dec a a). Qed.

Lemma list_N_eqb_eq a b : list_N_eqb a b = true <-> a = b.
Proof. unfold list_N_eqb. destruct (list_eq_dec N.eq_dec a b); split; congruence. Qed.

Lemma list_N_eqb_neq a b : list_N_eqb a b = false <-> a <> b.
Proof. unfold list_N_eqb. destruct (list_eq_dec N.eq_dec a b); split; congruence. Qed.

Lemma decode_strict_enc s : valid_text s -> decode_strict (enc s) = Some s.
Proof.
  intros Hs. unfold decode_strict. rewrite decode_enc by assumption.
  now rewrite list_N_eqb_refl.
Qed.

(** Lossy decoding always yields scalar values. *)
Lemma decode_lossy_valid bs : valid_text (decode_lossy bs).
Proof.
  unfold valid_text.
  remember (length bs) as n eqn:Hn.
  assert (Hle : (length bs <= n)%nat) by lia. clear Hn. revert bs Hle.
  induction n as [|n IH]; intros bs Hle.
  { destruct bs; simpl in Hle; [constructor|lia]. }
  assert (HR : scalar REPLACEMENT = true) by reflexivity.
  destruct bs as [|b0 r0]; [constructor|].
  simpl in Hle. cbn [decode_lossy].
  destruct (b0 <? 128) eqn:E0.
  { constructor; [unfold scalar; lia|]. apply IH; lia. }
  destruct (between 194 b0 223) eqn:E1.
  { destruct r0 as [|b1 r1]; [repeat constructor|]. simpl in Hle.
    destruct (cont b1) eqn:F1.
    - constructor; [unfold scalar, between, cont in *; lia|]. apply IH; lia.
    - constructor; [exact HR|]. apply IH; simpl; lia. }
  destruct (between 224 b0 239) eqn:E2.
  { destruct r0 as [|b1 r1]; [repeat constructor|]. simpl in Hle.
    destruct (second3 b0 b1) eqn:F1.
    2:{ constructor; [exact HR|]. apply IH; simpl; lia. }
    destruct r1 as [|b2 r2]; [repeat constructor|]. simpl in Hle.
    destruct (cont b2) eqn:F2.
    - constructor; [|apply IH; lia]. unfold second3 in F1. unfold scalar, between, cont in *.
      destruct (b0 =? 224) eqn:G1; [lia|]. destruct (b0 =? 237) eqn:G2; lia.
    - constructor; [exact HR|]. apply IH; simpl; lia. }
  destruct (between 240 b0 244) eqn:E3.
  { destruct r0 as [|b1 r1]; [repeat constructor|]. simpl in Hle.
    destruct (second4 b0 b1) eqn:F1.
    2:{ constructor; [exact HR|]. apply IH; simpl; lia. }
    destruct r1 as [|b2 r2]; [repeat constructor|]. simpl in Hle.
    destruct (cont b2) eqn:F2.
    2:{ constructor; [exact HR|]. apply IH; simpl; lia. }
    destruct r2 as [|b3 r3]; [repeat constructor|]. simpl in Hle.
    destruct (cont b3) eqn:F3.
    - constructor; [|apply IH; lia]. unfold second4 in F1. unfold scalar, between, cont in *.
      destruct (b0 =? 240) eqn:G1; [lia|]. destruct (b0 =? 244) eqn:G2; lia.
    - constructor; [exact HR|]. apply IH; simpl; lia. }
  constructor; [exact HR|]. apply IH; lia.
Qed.

Lemma decode_strict_valid bs s : decode_strict bs = Some s -> valid_text s /\ enc s = bs.
Proof.
  unfold decode_strict. destruct (list_N_eqb (enc (decode_lossy bs)) bs) eqn:E; [|discriminate].
  intros H. injection H as <-. split; [apply decode_lossy_valid|]. now apply list_N_eqb_eq.
Qed.

Lemma valid_app s t : valid_text (s ++ t) <-> valid_text s /\ valid_text t.
Proof. apply Forall_app. Qed.

Lemma valid_concat ls : valid_text (concat ls) <-> Forall valid_text ls.
Proof.
  induction ls as [|l ls IH]; simpl; [split; constructor|].
  rewrite valid_app, IH. split; [intros []; now constructor|inversion 1; auto].
Qed.

(** Lossy decoding without a replacement character lost nothing. *)
Lemma decode_lossy_exact bs : ~ In REPLACEMENT (decode_lossy bs) -> enc (decode_lossy bs) = bs.
Proof.
  remember (length bs) as n eqn:Hn.
  assert (Hle : (length bs <= n)%nat) by lia. clear Hn. revert bs Hle.
  induction n as [|n IH]; intros bs Hle.
  { destruct bs; simpl in Hle; [reflexivity|lia]. }
  destruct bs as [|b0 r0]; [reflexivity|].
  simpl in Hle. cbn [decode_lossy].
  assert (one : forall c bs1 r, enc1 c = bs1 -> (length r <= n)%nat -> ~ In REPLACEMENT (c :: decode_lossy r) ->
    enc (c :: decode_lossy r) = bs1 ++ r).
  { intros c bs1 r <- Hr Hi. cbn [enc flat_map]. f_equal. apply IH; [assumption|]. intros Hj. apply Hi. now right. }
  destruct (b0 <? 128) eqn:E0.
  { intros Hi. apply (one b0 [b0] r0); [unfold enc1; now rewrite E0|lia|assumption]. }
  destruct (between 194 b0 223) eqn:E1.
  { destruct r0 as [|b1 r1]; [intros []; now left|]. simpl in Hle.
    destruct (cont b1) eqn:F1; [|intros []; now left].
    intros Hi. refine (one _ [b0; b1] r1 _ _ Hi); [|lia]. unfold enc1, between, cont in *.
    match goal with |- context [if ?a then _ else _] => replace a with false by lia end.
    match goal with |- context [if ?a then _ else _] => replace a with true by lia end.
    repeat f_equal; lia. }
  destruct (between 224 b0 239) eqn:E2.
  { destruct r0 as [|b1 r1]; [intros []; now left|]. simpl in Hle.
    destruct (second3 b0 b1) eqn:F1; [|intros []; now left].
    destruct r1 as [|b2 r2]; [intros []; now left|]. simpl in Hle.
    destruct (cont b2) eqn:F2; [|intros []; now left].
    intros Hi. refine (one _ [b0; b1; b2] r2 _ _ Hi); [|lia]. clear one IH Hi Hle.
    assert (2048 <= (b0 - 224) * 4096 + (b1 - 128) * 64 + (b2 - 128) < 65536 /\ 128 <= b1 < 192).
    { unfold second3 in F1. unfold between, cont in *.
      destruct (b0 =? 224) eqn:G1; [lia|]. destruct (b0 =? 237) eqn:G2; lia. }
    unfold enc1, between, cont in *.
    do 2 match goal with |- context [if ?a then _ else _] => replace a with false by lia end.
    match goal with |- context [if ?a then _ else _] => replace a with true by lia end.
    repeat f_equal; lia. }
  destruct (between 240 b0 244) eqn:E3.
  { destruct r0 as [|b1 r1]; [intros []; now left|]. simpl in Hle.
    destruct (second4 b0 b1) eqn:F1; [|intros []; now left].
    destruct r1 as [|b2 r2]; [intros []; now left|]. simpl in Hle.
    destruct (cont b2) eqn:F2; [|intros []; now left].
    destruct r2 as [|b3 r3]; [intros []; now left|]. simpl in Hle.
    destruct (cont b3) eqn:F3; [|intros []; now left].
    intros Hi. refine (one _ [b0; b1; b2; b3] r3 _ _ Hi); [|lia]. clear one IH Hi Hle.
    assert (65536 <= (b0 - 240) * 262144 + (b1 - 128) * 4096 + (b2 - 128) * 64 + (b3 - 128) /\ 128 <= b1 < 192).
    { unfold second4 in F1. unfold between, cont in *.
      destruct (b0 =? 240) eqn:G1; [lia|]. destruct (b0 =? 244) eqn:G2; lia. }
    unfold enc1, between, cont in *.
    do 3 match goal with |- context [if ?a then _ else _] => replace a with false by lia end.
    repeat f_equal; lia. }
  intros []. now left.
Qed.
