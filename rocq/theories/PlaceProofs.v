(** Proofs: when a buffer answers as a new one of the same text. *)
From Verif Require Import Base Utf8 Utf8Proofs Grapheme GraphemeProofs Position GapBuffer GapBufferProofs Spec Calls
  TextProofs HalvesProofs GrowthSpec CopiesSpec CopiesProofs.

Lemma same_halves (a c a' c' : text) : a ++ c = a' ++ c' -> blen a = blen a' -> a = a' /\ c = c'.
Proof.
  intros E L. destruct (app_split_cases _ _ _ _ E) as [(m & -> & ->)|(m & -> & ->)]; rewrite blen_app in L.
  - assert (m = []) as -> by (apply blen_zero; lia). now rewrite app_nil_r.
  - assert (m = []) as -> by (apply blen_zero; lia). now rewrite app_nil_r.
Qed.

Lemma same_place brk g g' t : reachable brk g -> reachable brk g' -> gb_to_string g = Ok t -> gb_to_string g' = Ok t ->
  gap_place g = gap_place g' ->
  (forall p, in_bounds brk g p = in_bounds brk g' p) /\
  (forall p q, gb_read brk g (range_new p q) = gb_read brk g' (range_new p q)).
Proof.
  intros R R' E E' P. apply reachable_rep in R as (a & c & R). apply reachable_rep in R' as (a' & c' & R').
  rewrite (to_string_ok _ _ _ R) in E. rewrite (to_string_ok _ _ _ R') in E'.
  rewrite (rep_place _ _ _ R), (rep_place _ _ _ R') in P.
  destruct (same_halves a c a' c') as [<- <-]; [congruence|exact P|].
  split.
  - intros p. rewrite (in_bounds_halves _ _ _ _ _ R), (in_bounds_halves _ _ _ _ _ R'). reflexivity.
  - intros p q. rewrite range_new_ordered.
    rewrite (read_halves _ _ _ _ _ _ R (first_second_ple p q)), (read_halves _ _ _ _ _ _ R' (first_second_ple p q)).
    reflexivity.
Qed.

Lemma as_new brk g t al g0 : reachable brk g -> gb_to_string g = Ok t -> gb_new al t = Ok g0 ->
  exists a c, t = a ++ c /\ size a = gap_place g /\
    ((forall p q, gb_read brk g (range_new p q) = gb_read brk g0 (range_new p q)) <->
     graphemes brk t = graphemes brk a ++ graphemes brk c).
Proof.
  intros R E E0. apply reachable_rep in R as (a & c & R). rewrite (to_string_ok _ _ _ R) in E. injection E as <-.
  pose proof (rep_valid _ _ _ R) as V. destruct (new_ok al (a ++ c) V) as (g1 & E1 & R0).
  rewrite E0 in E1. injection E1 as <-.
  exists a, c. split; [reflexivity|]. split; [now rewrite (rep_place _ _ _ R)|]. split.
  - intros H. pose (m := pos_after (Pos 0 0) (graphemes brk a)).
    assert (Hm : hsplit brk a c m = Some (graphemes brk a, graphemes brk c)) by now apply gsplit_iff.
    assert (H0 : hsplit brk a c (Pos 0 0) = Some ([], hgs brk a c)) by now apply gsplit_iff.
    assert (Hle : ple (Pos 0 0) m) by apply pos_after_ple.
    specialize (H (Pos 0 0) m). rewrite range_new_ordered in H.
    rewrite (read_halves _ _ _ _ _ _ R (first_second_ple _ _)), (read_halves _ _ _ _ _ _ R0 (first_second_ple _ _)) in H.
    assert (Eo : first_of (Pos 0 0) m = Pos 0 0 /\ second_of (Pos 0 0) m = m).
    { unfold first_of, second_of. destruct (before m (Pos 0 0)) eqn:Eb; [|now split].
      unfold before in Eb. cbn [line offset] in Eb.
      rewrite !(proj2 (Nat.ltb_ge _ 0)) in Eb by lia. now rewrite andb_false_r in Eb. }
    destruct Eo as [E1 E2]. rewrite E1, E2, Hm, H0 in H.
    destruct (hsplit brk (a ++ c) [] (Pos 0 0)) as [[x y]|] eqn:Ex; [|discriminate].
    destruct (hsplit brk (a ++ c) [] m) as [[x' y']|] eqn:Ey; [|discriminate].
    unfold hsplit, hgs in Ex, Ey. change (graphemes brk []) with (@nil grapheme) in *. rewrite app_nil_r in *.
    apply gsplit_iff in Ex as [Ex Px]. apply gsplit_iff in Ey as [Ey _].
    assert (x = []) as ->.
    { destruct x as [|u x]; [reflexivity|]. exfalso.
      apply (plt_irrefl (Pos 0 0)). rewrite <- Px at 2. apply pos_after_plt. discriminate. }
    cbn [concat length skipn] in H. rewrite graphemes_concat in H. injection H as Ha.
    assert (Hc : concat y' = c).
    { pose proof (graphemes_concat brk (a ++ c)) as X. rewrite Ey, concat_app, <- Ha in X.
      now apply app_inv_head in X. }
    pose proof (seam_split _ _ _ _ Ey) as S. rewrite <- Ha, Hc in S. exact S.
  - intros S p q. rewrite range_new_ordered.
    rewrite (read_halves _ _ _ _ _ _ R (first_second_ple p q)), (read_halves _ _ _ _ _ _ R0 (first_second_ple p q)).
    unfold hsplit, hgs. change (graphemes brk []) with (@nil grapheme). rewrite !app_nil_r, S. reflexivity.
Qed.

(** Where the place is after an edit, for every text. *)
Lemma place_after_insert brk al g t d p g' : reachable brk g -> alloc_ok al -> valid_text d -> gb_to_string g = Ok t ->
  gb_insert brk al g d p = Ok g' ->
  (exists a c, t = a ++ c /\ gb_to_string g' = Ok (a ++ d ++ c) /\ gap_place g' = size (a ++ d)) \/
  (gb_to_string g' = Ok t /\ gap_place g' = if capacity g <? size t + size d then size t else gap_place g).
Proof.
  intros R Ha V E Ei. apply reachable_rep in R as (a & c & R). rewrite (to_string_ok _ _ _ R) in E. injection E as <-.
  pose proof (insert_halves brk al g a c d p Ha R V) as X. unfold lookup_halves in X.
  pose proof (rep_free _ _ _ R) as F. unfold size. fold (blen (a ++ c)) (blen d). rewrite F.
  destruct (Nat.ltb_spec (gap_length g) (blen d)) as [L|L].
  - destruct X as (g1 & E1 & X). rewrite Ei in E1. injection E1 as <-.
    destruct (hsplit brk (a ++ c) [] p) as [[x y]|] eqn:Es.
    + left. apply hsplit_concat in Es. rewrite app_nil_r in Es. exists (concat x), (concat y).
      split; [exact Es|]. rewrite (to_string_ok _ _ _ X), (rep_place _ _ _ X), <- app_assoc. now split.
    + right. rewrite (to_string_ok _ _ _ X), (rep_place _ _ _ X), app_nil_r. split; [reflexivity|].
      rewrite (proj2 (Nat.ltb_lt _ _)) by lia. reflexivity.
  - destruct X as (g1 & E1 & X). rewrite Ei in E1. injection E1 as <-.
    destruct (hsplit brk a c p) as [[x y]|] eqn:Es.
    + left. apply hsplit_concat in Es. exists (concat x), (concat y).
      split; [exact Es|]. rewrite (to_string_ok _ _ _ X), (rep_place _ _ _ X), <- app_assoc. now split.
    + right. rewrite (to_string_ok _ _ _ X), (rep_place _ _ _ X), (rep_place _ _ _ R). split; [reflexivity|].
      rewrite (proj2 (Nat.ltb_ge _ _)) by lia. reflexivity.
Qed.

Lemma place_after_delete brk g t p q g' : reachable brk g -> gb_to_string g = Ok t ->
  gb_delete brk g (range_new p q) = Ok g' ->
  (exists a m c, t = a ++ m ++ c /\ gb_to_string g' = Ok (a ++ c) /\ gap_place g' = size a) \/ g' = g.
Proof.
  intros R E Ed. apply reachable_rep in R as (a & c & R). rewrite (to_string_ok _ _ _ R) in E. injection E as <-.
  rewrite range_new_ordered in Ed. pose proof (delete_ok brk g a c (first_of p q) (second_of p q) R) as X.
  rewrite Ed in X. destruct (hsplit brk a c (first_of p q)) as [[x y]|] eqn:Es; [|right; congruence]. left.
  destruct (delete_halves brk (concat x) (concat y) (second_of p q)) as [r|] eqn:Eh; [|discriminate].
  destruct X as (g1 & E1 & X). injection E1 as <-. apply hsplit_concat in Es.
  assert (T : forall s r', delete_to brk (concat x) (concat y) s = Some (Some r') -> exists m, concat y = m ++ r').
  { intros s r' H. unfold delete_to in H. destruct (hsplit brk (concat x) (concat y) s) as [[u v]|] eqn:Eu; [|discriminate].
    destruct (Nat.ltb_spec (blen (concat u)) (blen (concat x))) as [L|L]; [discriminate|]. injection H as <-.
    apply hsplit_concat in Eu. destruct (app_split_le _ _ _ _ Eu L) as (m & _ & Hm). now exists m. }
  assert (M : exists m, concat y = m ++ r).
  { unfold delete_halves in Eh. destruct (delete_to brk (concat x) (concat y) (second_of p q)) as [[r0|]|] eqn:D1.
    - injection Eh as ->. exact (T _ _ D1).
    - discriminate.
    - destruct (delete_to brk (concat x) (concat y) (Pos (line (second_of p q) + 1) 0)) as [[r0|]|] eqn:D2.
      + injection Eh as ->. exact (T _ _ D2).
      + discriminate.
      + injection Eh as <-. exists (concat y). now rewrite app_nil_r. }
  destruct M as (m & Em). exists (concat x), m, r. rewrite <- Em. split; [exact Es|].
  rewrite (to_string_ok _ _ _ X), (rep_place _ _ _ X). now split.
Qed.
