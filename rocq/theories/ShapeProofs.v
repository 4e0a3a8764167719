(** The positions of a buffer, whatever its text, form lines without holes, and
    reads of neighbouring ranges join. *)
From Verif Require Import Base Utf8 Utf8Proofs Grapheme GraphemeProofs Position GapBuffer
  GapBufferProofs Spec Calls TextProofs UaxProofs HalvesProofs Cursor CursorProofs.


(** The number of clusters on each line. *)
Fixpoint widths (gs : list grapheme) : list nat :=
  match gs with
  | [] => [0]
  | g :: gs' =>
    if is_lf g then 0 :: widths gs'
    else match widths gs' with w :: ws => S w :: ws | [] => [] end
  end.

Lemma widths_ne gs : widths gs <> [].
Proof.
  induction gs as [|g gs IH]; cbn [widths]; [discriminate|].
  destruct (is_lf g); [discriminate|]. destruct (widths gs); [contradiction|discriminate].
Qed.

Definition within (cur : position) (ws : list nat) (p : position) : Prop :=
  (line p = line cur /\ offset cur <= offset p <= offset cur + hd 0 ws) \/
  (line cur < line p /\ exists w, nth_error (tl ws) (line p - line cur - 1) = Some w /\ offset p <= w).

Lemma gsplit_within gs : forall cur p,
  is_some (gsplit gs cur p) = true <-> within cur (widths gs) p.
Proof.
  assert (Hn : forall k, nth_error (@nil nat) k = None) by now intros [].
  induction gs as [|g gs IH]; intros [lc oc] [lp op]; cbn [gsplit widths].
  - unfold within. cbn [hd tl line offset]. destruct (pos_eqb (Pos lc oc) (Pos lp op)) eqn:E.
    + apply pos_eqb_eq in E. injection E as -> ->. split; [lia|reflexivity].
    + split; [discriminate|]. intros [[H1 H2]|[_ (w & H & _)]].
      * exfalso. assert (X : Pos lc oc = Pos lp op) by (f_equal; lia). apply pos_eqb_eq in X. congruence.
      * now rewrite Hn in H.
  - destruct (pos_eqb (Pos lc oc) (Pos lp op)) eqn:E.
    + apply pos_eqb_eq in E. injection E as <- <-. split; [|reflexivity]. intros _. left.
      cbn [line offset]. lia.
    + assert (Hne : ~ (lc = lp /\ oc = op)).
      { intros [-> ->]. assert (X : Pos lp op = Pos lp op) by reflexivity. apply pos_eqb_eq in X. congruence. }
      assert (X : is_some (match gsplit gs (adv (Pos lc oc) g) (Pos lp op) with
                           | Some (pre, post) => Some (g :: pre, post) | None => None end)
                  = is_some (gsplit gs (adv (Pos lc oc) g) (Pos lp op)))
        by (destruct (gsplit gs _ _) as [[? ?]|]; reflexivity).
      rewrite X. clear X. rewrite IH. unfold adv. cbn [line offset].
      pose proof (widths_ne gs) as Hw. destruct (widths gs) as [|w ws]; [contradiction|].
      destruct (is_lf g); unfold within; cbn [hd tl line offset].
      * split.
        -- intros [[-> H2]|[H1 (x & H2 & H3)]]; right.
           ++ split; [lia|]. exists w. replace (lc + 1 - lc - 1) with 0 by lia. split; [reflexivity|lia].
           ++ split; [lia|]. exists x. split; [|assumption].
              replace (lp - lc - 1) with (S (lp - (lc + 1) - 1)) by lia. assumption.
        -- intros [H|[H1 (x & H2 & H3)]]; [lia|].
           destruct (lp - lc - 1) as [|k] eqn:Ek; cbn [nth_error] in H2.
           ++ injection H2 as ->. left. lia.
           ++ right. split; [lia|]. exists x. split; [|assumption].
              replace (lp - (lc + 1) - 1) with k by lia. assumption.
      * split.
        -- intros [[-> H2]|[H1 H2]]; [left; lia|right; now split].
        -- intros [[-> H2]|[H1 H2]]; [left; lia|right; now split].
Qed.

Lemma positions_form_lines brk g : reachable brk g ->
  exists ws, ws <> [] /\ forall p,
    in_bounds brk g p = Ok ((line p <? length ws) && (offset p <=? nth (line p) ws 0)).
Proof.
  intros R. destruct (reachable_rep _ _ R) as (s1 & s2 & Hrep).
  exists (widths (hgs brk s1 s2)). split; [apply widths_ne|]. intros p.
  rewrite (in_bounds_halves _ _ _ _ _ Hrep). f_equal. apply eq_true_iff_eq.
  unfold hsplit. rewrite gsplit_within. unfold within. cbn [line offset].
  pose proof (widths_ne (hgs brk s1 s2)) as Hw.
  destruct (widths (hgs brk s1 s2)) as [|w ws]; [contradiction|]. cbn [hd tl].
  rewrite andb_true_iff, Nat.ltb_lt, Nat.leb_le. destruct p as [[|l] o]; cbn [line offset nth length].
  - split; [|left; lia]. intros [H|[H _]]; lia.
  - replace (S l - 0 - 1) with l by lia. split.
    + intros [[H _]|[_ (x & E & H)]]; [discriminate|].
      split; [|now rewrite (nth_error_nth _ _ _ E)].
      assert (l < length ws) by (apply nth_error_Some; congruence). lia.
    + intros [H1 H2]. right. split; [lia|]. destruct (nth_error ws l) as [x|] eqn:E.
      * exists x. split; [reflexivity|]. now rewrite (nth_error_nth _ _ _ E) in H2.
      * apply nth_error_None in E. lia.
Qed.

Lemma earlier_in_line brk g l o o' : reachable brk g -> in_bounds brk g (Pos l o) = Ok true -> o' <= o ->
  in_bounds brk g (Pos l o') = Ok true.
Proof.
  intros R H Ho. destruct (positions_form_lines _ _ R) as (ws & _ & Hw). rewrite Hw in *.
  cbn [line offset] in *. injection H as H. apply andb_true_iff in H as [H1 H2].
  rewrite H1. cbn [andb]. f_equal. apply Nat.leb_le in H2. apply Nat.leb_le. lia.
Qed.

Lemma left_any brk g c : reachable brk g -> in_bounds brk g (c_pos c) = Ok true ->
  move_left brk g c =
  Ok (if offset (c_pos c) =? 0 then c
      else cursor_new (Pos (line (c_pos c)) (offset (c_pos c) - 1))).
Proof.
  intros R H. unfold move_left. destruct (Nat.eqb_spec (offset (c_pos c)) 0); [reflexivity|].
  unfold usub. rewrite (proj2 (Nat.leb_le _ _)) by lia. cbn [bind]. unfold move_to.
  destruct (c_pos c) as [l o]. cbn [line offset] in *.
  rewrite (earlier_in_line brk g l o (o - 1) R H) by lia. reflexivity.
Qed.
Lemma start_any brk g c : reachable brk g -> in_bounds brk g (c_pos c) = Ok true ->
  move_to_start_of_line brk g c = Ok (cursor_new (Pos (line (c_pos c)) 0)).
Proof.
  intros R H. unfold move_to_start_of_line, move_to.
  destruct (c_pos c) as [l o]. cbn [line offset] in *.
  rewrite (earlier_in_line brk g l o 0 R H) by lia. reflexivity.
Qed.

(** ** Reads *)

Lemma range_new_le p q : before q p = false -> range_new p q = Rng p q /\ ple p q.
Proof.
  intros H. rewrite range_new_ordered. unfold first_of, second_of. rewrite H. split; [reflexivity|].
  pose proof (first_second_ple p q) as X. unfold first_of, second_of in X. now rewrite H in X.
Qed.

Lemma reads_join brk g p q r : reachable brk g -> before q p = false -> before r q = false ->
  in_bounds brk g q = Ok true -> forall x,
  gb_read brk g (range_new p r) = Ok (Some x) <->
  exists a b, gb_read brk g (range_new p q) = Ok (Some a)
    /\ gb_read brk g (range_new q r) = Ok (Some b) /\ x = a ++ b.
Proof.
  intros R H1 H2 Hq x. destruct (reachable_rep _ _ R) as (s1 & s2 & Hrep).
  destruct (range_new_le _ _ H1) as [-> L1]. destruct (range_new_le _ _ H2) as [-> L2].
  pose proof (ple_trans _ _ _ L1 L2) as L3.
  assert (H3 : before r p = false).
  { destruct (before r p) eqn:E; [|reflexivity]. exfalso.
    unfold before in E. apply orb_true_iff in E as [E|E].
    - apply Nat.ltb_lt in E. destruct L3 as [->|L3]; [|unfold plt in L3]; lia.
    - apply andb_true_iff in E as [E E']. apply Nat.eqb_eq in E. apply Nat.ltb_lt in E'.
      destruct L3 as [->|L3]; [|unfold plt in L3]; lia. }
  destruct (range_new_le _ _ H3) as [-> _].
  rewrite !(read_halves _ _ _ _ _ _ Hrep) by assumption.
  rewrite (in_bounds_halves _ _ _ _ _ Hrep) in Hq. injection Hq as Hq.
  destruct (hsplit brk s1 s2 q) as [[b b']|] eqn:Eb; [|discriminate].
  destruct (hsplit brk s1 s2 p) as [[a a']|] eqn:Ea.
  2:{ split; [discriminate|]. intros (? & ? & X & _). discriminate. }
  destruct (hsplit brk s1 s2 r) as [[c c']|] eqn:Ec.
  2:{ split; [discriminate|]. intros (? & ? & _ & X & _). discriminate. }
  destruct (gsplit_mono _ _ _ _ _ _ _ _ Ea Eb L1) as (m & -> & _).
  destruct (gsplit_mono _ _ _ _ _ _ _ _ Eb Ec L2) as (n & -> & _).
  assert (Hs : forall (u v : list grapheme), skipn (length u) (u ++ v) = v).
  { intros u v. now rewrite skipn_app, skipn_all, Nat.sub_diag. }
  rewrite !Hs, <- app_assoc, Hs.
  rewrite concat_app. split.
  - intros X. injection X as <-. eauto.
  - intros (u & v & X & Y & ->). injection X as <-. injection Y as <-. reflexivity.
Qed.

Lemma read_everything brk g : reachable brk g ->
  exists t p, gb_to_string g = Ok t /\ in_bounds brk g p = Ok true
    /\ (forall q, in_bounds brk g q = Ok true -> before p q = false)
    /\ gb_read brk g (range_new (Pos 0 0) p) = Ok (Some t).
Proof.
  intros R. destruct (reachable_rep _ _ R) as (s1 & s2 & Hrep).
  exists (s1 ++ s2). pose (p := pos_after (Pos 0 0) (hgs brk s1 s2)). exists p.
  assert (Ep : hsplit brk s1 s2 p = Some (hgs brk s1 s2, [])).
  { apply gsplit_iff. split; [now rewrite app_nil_r|reflexivity]. }
  assert (E0 : hsplit brk s1 s2 (Pos 0 0) = Some ([], hgs brk s1 s2)) by now apply gsplit_iff.
  split; [now apply to_string_ok|]. split; [now rewrite (in_bounds_halves _ _ _ _ _ Hrep), Ep|]. split.
  - intros q Hq. rewrite (in_bounds_halves _ _ _ _ _ Hrep) in Hq. injection Hq as Hq.
    destruct (hsplit brk s1 s2 q) as [[a b]|] eqn:Eq; [|discriminate].
    apply gsplit_iff in Eq as [Eq Pq].
    assert (L : ple q p) by (subst p; rewrite Eq, pos_after_app, Pq; apply pos_after_ple).
    clearbody p. destruct (before p q) eqn:E; [|reflexivity]. exfalso.
    unfold before in E. apply orb_true_iff in E as [E|E].
    + apply Nat.ltb_lt in E. destruct L as [->|L]; [|unfold plt in L]; lia.
    + apply andb_true_iff in E as [E E']. apply Nat.eqb_eq in E. apply Nat.ltb_lt in E'.
      destruct L as [->|L]; [|unfold plt in L]; lia.
  - assert (H : before p (Pos 0 0) = false).
    { unfold before. cbn [line offset]. rewrite !(proj2 (Nat.ltb_ge _ 0)) by lia. now rewrite andb_false_r. }
    destruct (range_new_le _ _ H) as [-> L]. rewrite (read_halves _ _ _ _ _ _ Hrep L), Ep, E0.
    cbn [length skipn]. unfold hgs. rewrite concat_app, !graphemes_concat. reflexivity.
Qed.

(** Data that fits in the gap goes where [read] says the position is. *)
Lemma insert_where_read brk al g data p a t : reachable brk g -> alloc_ok al -> valid_text data ->
  blen data <= gap_length g -> gb_to_string g = Ok t ->
  gb_read brk g (range_new (Pos 0 0) p) = Ok (Some a) ->
  exists b g', t = a ++ b /\ gb_insert brk al g data p = Ok g' /\ gb_to_string g' = Ok (a ++ data ++ b).
Proof.
  intros R Ha V Hf Et Er. destruct (reachable_rep _ _ R) as (s1 & s2 & Hrep).
  rewrite (to_string_ok _ _ _ Hrep) in Et. injection Et as <-.
  assert (H : before p (Pos 0 0) = false).
  { unfold before. cbn [line offset]. rewrite !(proj2 (Nat.ltb_ge _ 0)) by lia. now rewrite andb_false_r. }
  destruct (range_new_le _ _ H) as [Er' L]. rewrite Er' in Er.
  rewrite (read_halves _ _ _ _ _ _ Hrep L) in Er.
  assert (E0 : hsplit brk s1 s2 (Pos 0 0) = Some ([], hgs brk s1 s2)) by now apply gsplit_iff.
  rewrite E0 in Er. pose proof (insert_halves brk al g s1 s2 data p Ha Hrep V) as X.
  unfold lookup_halves in X. rewrite (proj2 (Nat.ltb_ge _ _)) in X by assumption.
  destruct X as (g' & Eg & X).
  destruct (hsplit brk s1 s2 p) as [[pre post]|] eqn:Ep; [|discriminate].
  cbn [length skipn] in Er. injection Er as <-.
  exists (concat post), g'. split; [now apply hsplit_concat in Ep|]. split; [assumption|].
  rewrite (to_string_ok _ _ _ X). now rewrite <- app_assoc.
Qed.
