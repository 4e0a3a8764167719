(** The byte-level gap buffer represents a pair of texts, the halves before and
    after the gap; every call acts on that pair.  Holds for every break rule. *)
From Verif Require Import Base Utf8 Utf8Proofs Grapheme GraphemeProofs Position GapBuffer.

(** ** Slice primitives *)

Lemma get_app {A} (l : list A) x r n : n = length l -> get (l ++ x :: r) n = Ok x.
Proof.
  intros ->. unfold get. rewrite nth_error_app2 by lia. now rewrite Nat.sub_diag.
Qed.

Lemma upd_app {A} (l : list A) x y r n : n = length l -> upd (l ++ x :: r) n y = Ok (l ++ y :: r).
Proof.
  intros ->. induction l as [|a l IH]; simpl; [reflexivity|]. now rewrite IH.
Qed.

Lemma slice_mid {A} (a m b : list A) i j :
  i = length a -> j = length a + length m -> slice (a ++ m ++ b) i j = Ok m.
Proof.
  intros -> ->. unfold slice.
  destruct (length a <=? length a + length m) eqn:E1;
    [|apply Nat.leb_gt in E1; lia].
  destruct (length a + length m <=? length (a ++ m ++ b)) eqn:E2;
    [|apply Nat.leb_gt in E2; rewrite !app_length in E2; lia].
  simpl. rewrite skipn_app, skipn_all, Nat.sub_diag. simpl.
  replace (length a + length m - length a) with (length m) by lia.
  now rewrite firstn_app, firstn_all, Nat.sub_diag, firstn_O, app_nil_r.
Qed.

Lemma usub_ok a b : b <= a -> usub a b = Ok (a - b).
Proof. intros H. unfold usub. now apply Nat.leb_le in H as ->. Qed.

Lemma usub_panic a b : a < b -> usub a b = Panic.
Proof. intros H. unfold usub. now apply Nat.leb_gt in H as ->. Qed.

(** ** The shifting and writing loops *)

Lemma shift_left_loop (M : list byte) : forall A G B, G <> [] ->
  exists Z, length Z = length G /\
    for_each (rev (seq (length A) (length M))) (A ++ M ++ G ++ B)
             (shift_left_body (length G)) = Ok (A ++ Z ++ M ++ B).
Proof.
  induction M as [|x M IH] using rev_ind; intros A G B HG.
  - exists G. split; reflexivity.
  - rewrite app_length, Nat.add_1_r, seq_S, rev_app_distr. simpl.
    destruct (exists_last HG) as (G' & y & ->).
    unfold shift_left_body at 1.
    replace (A ++ (M ++ [x]) ++ (G' ++ [y]) ++ B)
      with ((A ++ M) ++ x :: (G' ++ y :: B)) by (rewrite <- !app_assoc; reflexivity).
    rewrite get_app by now rewrite app_length. simpl.
    replace ((A ++ M) ++ x :: G' ++ y :: B)
      with (((A ++ M) ++ x :: G') ++ y :: B) by (rewrite <- !app_assoc; reflexivity).
    rewrite upd_app by (rewrite !app_length; simpl; lia). simpl.
    replace (((A ++ M) ++ x :: G') ++ x :: B)
      with ((A ++ M) ++ x :: (G' ++ x :: B)) by (rewrite <- !app_assoc; reflexivity).
    rewrite upd_app by now rewrite app_length. simpl.
    destruct (IH A (@cons byte 0%N G') (x :: B) ltac:(discriminate)) as (Z & HZ & E).
    exists Z. split; [rewrite HZ, app_length; simpl; lia|].
    replace (length (G' ++ [y])) with (length (@cons byte 0%N G')) by (rewrite app_length; simpl; lia).
    replace ((A ++ M) ++ 0%N :: G' ++ x :: B)
      with (A ++ M ++ (@cons byte 0%N G') ++ x :: B) by (rewrite <- !app_assoc; reflexivity).
    rewrite E. rewrite <- !app_assoc. reflexivity.
Qed.

Lemma shift_right_loop (M : list byte) : forall A G B, G <> [] ->
  exists Z, length Z = length G /\
    for_each (seq (length A + length G) (length M)) (A ++ G ++ M ++ B)
             (shift_right_body (length G)) = Ok (A ++ M ++ Z ++ B).
Proof.
  induction M as [|x M IH]; intros A G B HG.
  - exists G. split; reflexivity.
  - destruct G as [|y G]; [contradiction|].
    cbn [length seq for_each]. unfold shift_right_body at 1.
    replace (A ++ (y :: G) ++ (x :: M) ++ B)
      with ((A ++ y :: G) ++ x :: M ++ B) by (rewrite <- !app_assoc; reflexivity).
    rewrite get_app by (rewrite app_length; simpl; lia). cbn [bind].
    rewrite usub_ok by lia. cbn [bind].
    replace (length A + S (length G) - S (length G)) with (length A) by lia.
    replace ((A ++ y :: G) ++ x :: M ++ B)
      with (A ++ y :: (G ++ x :: M ++ B)) by (rewrite <- !app_assoc; reflexivity).
    rewrite upd_app by reflexivity. cbn [bind].
    replace (A ++ x :: G ++ x :: M ++ B)
      with ((A ++ x :: G) ++ x :: M ++ B) by (rewrite <- !app_assoc; reflexivity).
    rewrite upd_app by (rewrite app_length; simpl; lia). cbn [bind].
    destruct (IH (A ++ [x]) (G ++ (@cons byte 0%N nil)) B ltac:(destruct G; discriminate)) as (Z & HZ & E).
    exists Z. split; [rewrite HZ, app_length; simpl; lia|].
    replace (S (length A + S (length G))) with (length (A ++ [x]) + length (G ++ (@cons byte 0%N nil)))
      by (rewrite !app_length; simpl; lia).
    replace (S (length G)) with (length (G ++ (@cons byte 0%N nil))) by (rewrite app_length; simpl; lia).
    replace ((A ++ x :: G) ++ 0%N :: M ++ B)
      with ((A ++ [x]) ++ (G ++ (@cons byte 0%N nil)) ++ M ++ B) by (rewrite <- !app_assoc; reflexivity).
    rewrite E. rewrite <- !app_assoc. reflexivity.
Qed.

Lemma write_loop bs : forall A G B sp, length bs <= length G ->
  exists G', length G' = length G - length bs /\
    for_each bs (GB (Vec (A ++ G ++ B) sp) (length A) (length G)) (fun b g =>
      let* d := upd (bytes g) (gap_start g) b in
      let* gl := usub (gap_length g) 1 in
      Ok (GB (Vec d (v_spare (gb_data g))) (gap_start g + 1) gl))
    = Ok (GB (Vec ((A ++ bs) ++ G' ++ B) sp) (length (A ++ bs)) (length G')).
Proof.
  induction bs as [|b bs IH]; intros A G B sp HG.
  - exists G. split; [simpl; lia|]. simpl. rewrite app_nil_r. reflexivity.
  - destruct G as [|y G]; [simpl in HG; lia|]. cbn [for_each].
    unfold bytes; cbn [gb_data v_init gap_start gap_length v_spare].
    replace (A ++ (y :: G) ++ B) with (A ++ y :: G ++ B) by reflexivity.
    rewrite upd_app by reflexivity. cbn [bind].
    rewrite usub_ok by (simpl; lia). cbn [bind].
    destruct (IH (A ++ [b]) G B sp) as (G' & HG' & E); [simpl in HG; lia|].
    exists G'. split; [simpl; lia|].
    replace (A ++ b :: G ++ B) with ((A ++ [b]) ++ G ++ B) by (rewrite <- app_assoc; reflexivity).
    replace (length A + 1) with (length (A ++ [b])) by (rewrite app_length; simpl; lia).
    replace (length (y :: G) - 1) with (length G) by (simpl; lia).
    unfold bytes in E. rewrite E. rewrite <- !app_assoc. reflexivity.
Qed.

(** ** Representation *)

(** The gap buffer holds [s1] before and [s2] after the gap. *)
Definition rep (g : gapbuf) (s1 s2 : text) : Prop :=
  valid_text s1 /\ valid_text s2 /\
  exists G, gb_data g = Vec (enc s1 ++ G ++ enc s2) []
         /\ gap_start g = blen s1 /\ gap_length g = length G.

Lemma rep_valid g s1 s2 : rep g s1 s2 -> valid_text (s1 ++ s2).
Proof. intros (V1 & V2 & _). now apply valid_app. Qed.

Lemma rep_vlen g s1 s2 : rep g s1 s2 -> vlen (gb_data g) = blen s1 + gap_length g + blen s2.
Proof.
  intros (_ & _ & G & E & Hs & Hl). rewrite E, Hl. unfold vlen; simpl.
  rewrite !app_length. unfold blen. lia.
Qed.

Lemma first_half_ok g s1 s2 : rep g s1 s2 -> first_half g = Ok s1.
Proof.
  intros (V1 & V2 & G & E & Hs & Hl). unfold first_half, bytes. rewrite E; simpl.
  rewrite (slice_mid [] (enc s1) (G ++ enc s2)); [|reflexivity|now rewrite Hs].
  simpl. now rewrite decode_enc.
Qed.

Lemma second_half_ok g s1 s2 : rep g s1 s2 -> second_half g = Ok s2.
Proof.
  intros (V1 & V2 & G & E & Hs & Hl). unfold second_half, bytes. rewrite E; simpl.
  rewrite app_assoc, <- (app_nil_r (enc s2)) at 1.
  rewrite (slice_mid (enc s1 ++ G) (enc s2) []).
  - simpl. now rewrite decode_enc.
  - now rewrite Hs, Hl, app_length.
  - rewrite !app_length. lia.
Qed.

Lemma to_string_ok g s1 s2 : rep g s1 s2 -> gb_to_string g = Ok (s1 ++ s2).
Proof.
  intros H. unfold gb_to_string.
  now rewrite (first_half_ok _ _ _ H), (second_half_ok _ _ _ H).
Qed.

Lemma new_ok al s : valid_text s -> exists g, gb_new al s = Ok g /\ rep g s [].
Proof.
  intros V. unfold gb_new. unfold vcap, vlen; simpl.
  rewrite usub_ok by (unfold blen; lia). simpl. unfold vset_len, vcap; simpl.
  rewrite (proj2 (Nat.leb_le _ _)) by lia. simpl.
  rewrite firstn_all2 by (rewrite app_length; lia).
  rewrite skipn_all2 by (rewrite app_length; lia).
  eexists. split; [reflexivity|]. repeat split; [assumption|constructor|].
  exists (al (blen s) 0). simpl. rewrite app_nil_r. repeat split. lia.
Qed.

(** Physical byte offset of the split of the text after [t1]. *)
Definition phys (g : gapbuf) (s1 t1 : text) : nat :=
  if blen t1 <? blen s1 then blen t1 else blen t1 + gap_length g.

Lemma app_split_cases {A} (s1 s2 t1 t2 : list A) :
  s1 ++ s2 = t1 ++ t2 ->
  (exists m, s1 = t1 ++ m /\ t2 = m ++ s2) \/ (exists m, t1 = s1 ++ m /\ s2 = m ++ t2).
Proof.
  revert t1. induction s1 as [|a s1 IH]; intros t1 H.
  - right. exists t1. now split.
  - destruct t1 as [|b t1].
    + left. exists (a :: s1). now split.
    + simpl in H. injection H as <- H. destruct (IH _ H) as [(m & -> & ->)|(m & -> & ->)].
      * left. now exists m.
      * right. now exists m.
Qed.

Lemma blen_pos s : s <> [] -> 0 < blen s.
Proof.
  intros H. destruct (blen s) eqn:E; [|lia]. apply blen_zero in E. contradiction.
Qed.

Lemma move_gap_ok g s1 s2 t1 t2 off :
  rep g s1 s2 -> s1 ++ s2 = t1 ++ t2 -> off = phys g s1 t1 ->
  exists g', move_gap g off = Ok g' /\ rep g' t1 t2 /\ gap_length g' = gap_length g.
Proof.
  intros (V1 & V2 & G & E & Hs & Hl) Hsplit ->.
  pose proof (proj2 (valid_app s1 s2) (conj V1 V2)) as V. rewrite Hsplit in V.
  apply valid_app in V as [W1 W2].
  unfold move_gap, phys.
  destruct (app_split_cases _ _ _ _ Hsplit) as [(m & Hm1 & Hm2)|(m & Hm1 & Hm2)].
  - subst s1 t2. rewrite blen_app in *.
    destruct (Nat.eqb_spec (gap_length g) 0) as [HG|HG].
    + eexists. split; [reflexivity|]. simpl. split; [|reflexivity].
      repeat split; try assumption. exists []. rewrite E, HG.
      rewrite HG in Hl. destruct G; [|discriminate].
      rewrite !enc_app, <- !app_assoc. simpl.
      repeat split. destruct (_ <? _); lia.
    + destruct (Nat.ltb_spec (blen t1) (blen t1 + blen m)) as [Hlt|Hge].
      * rewrite Hs. rewrite (proj2 (Nat.compare_lt_iff _ _)) by lia.
        unfold bytes, range. rewrite E; cbn [v_init].
        replace (blen t1 + blen m - blen t1) with (length (enc m)) by (unfold blen; lia).
        destruct (shift_left_loop (enc m) (enc t1) G (enc s2)) as (Z & HZ & EZ).
        { intros ->. simpl in Hl. lia. }
        rewrite Hl, enc_app, <- app_assoc. unfold blen at 1. rewrite EZ. cbn [bind].
        eexists. split; [reflexivity|]. cbn. split; [|now rewrite <- Hl].
        repeat split; try assumption.
        exists Z. rewrite enc_app. cbn. rewrite HZ. repeat split.
      * assert (m = []) as -> by (apply blen_zero; lia).
        rewrite !app_nil_r in *. change (blen []) with 0 in *.
        rewrite (proj2 (Nat.compare_gt_iff _ _)) by lia.
        unfold range. rewrite Hs.
        replace (blen t1 + gap_length g - (blen t1 + 0 + gap_length g)) with 0 by lia.
        cbn [seq for_each bind]. rewrite usub_ok by lia. cbn [bind].
        eexists. split; [reflexivity|]. cbn. split; [|reflexivity].
        repeat split; try assumption. exists G. cbn. rewrite E. cbn.
        repeat split; [|lia|assumption]. unfold bytes. now rewrite E.
  - subst t1 s2. rewrite blen_app in *.
    rewrite (proj2 (Nat.ltb_ge _ _)) by lia.
    destruct (Nat.eqb_spec (gap_length g) 0) as [HG|HG].
    + eexists. split; [reflexivity|]. simpl. split; [|reflexivity].
      repeat split; try assumption. exists []. rewrite E, HG.
      rewrite HG in Hl. destruct G; [|discriminate].
      rewrite !enc_app, <- !app_assoc. simpl.
      repeat split. rewrite blen_app. lia.
    + rewrite (proj2 (Nat.compare_gt_iff _ _)) by lia.
      unfold bytes, range. rewrite E; cbn [v_init]. rewrite Hs.
      replace (blen s1 + blen m + gap_length g - (blen s1 + gap_length g))
        with (length (enc m)) by (unfold blen; lia).
      destruct (shift_right_loop (enc m) (enc s1) G (enc t2)) as (Z & HZ & EZ).
      { intros ->. simpl in Hl. lia. }
      rewrite Hl, enc_app. unfold blen at 1. rewrite EZ. cbn [bind].
      rewrite usub_ok by lia. cbn [bind].
      eexists. split; [reflexivity|]. cbn. split; [|now rewrite <- Hl].
      repeat split; try assumption.
      exists Z. rewrite enc_app. cbn. rewrite HZ, blen_app. repeat split; [|lia].
      now rewrite <- app_assoc.
Qed.

Lemma write_to_gap_ok g s1 s2 data :
  rep g s1 s2 -> valid_text data -> blen data <= gap_length g ->
  exists g', write_to_gap g data = Ok g' /\ rep g' (s1 ++ data) s2.
Proof.
  intros (V1 & V2 & G & E & Hs & Hl) Vd Hroom. unfold write_to_gap.
  destruct g as [d gs gl]; cbn in *. subst d gs gl.
  destruct (write_loop (enc data) (enc s1) G (enc s2) []) as (G' & HG' & EW);
    [unfold blen in Hroom; lia|].
  unfold blen at 1. rewrite EW. eexists. split; [reflexivity|].
  repeat split; [now apply valid_app|assumption|].
  exists G'. cbn. unfold blen. rewrite enc_app. repeat split.
Qed.

Lemma ensure_capacity_ok al g s1 s2 data :
  alloc_ok al -> rep g s1 s2 ->
  exists g' h1 h2, ensure_capacity al g data = Ok g' /\ rep g' h1 h2 /\
    blen data <= gap_length g' /\
    (if gap_length g <? blen data then h1 = s1 ++ s2 /\ h2 = [] else h1 = s1 /\ h2 = s2).
Proof.
  intros Hal Hrep. unfold ensure_capacity.
  destruct (Nat.ltb_spec (gap_length g) (blen data)) as [Hlt|Hge].
  - assert (Hcap : vcap (gb_data g) = phys g s1 (s1 ++ s2)).
    { pose proof (rep_vlen _ _ _ Hrep) as HL. unfold phys.
      rewrite blen_app, (proj2 (Nat.ltb_ge _ _)) by lia.
      destruct Hrep as (_ & _ & G & E & _ & _). unfold vcap, vlen in *.
      rewrite E in *; cbn [v_spare length] in *. lia. }
    destruct (move_gap_ok g s1 s2 (s1 ++ s2) [] _ Hrep (eq_sym (app_nil_r _)) Hcap)
      as (g1 & E1 & Hrep1 & Hg1).
    rewrite E1. cbn [bind].
    destruct Hrep1 as (V1 & V2 & G & E & Hs & Hl).
    unfold vreserve. rewrite E. cbn [v_spare length]. unfold vlen. cbn [v_init].
    destruct (Nat.leb_spec (blen data) 0) as [H0|H0]; [lia|].
    set (sp := al _ _). assert (Hsp : blen data <= length sp) by apply Hal.
    unfold vcap; cbn [v_init v_spare].
    rewrite usub_ok by (rewrite Hs, !app_length; unfold blen; lia). cbn [bind].
    unfold vset_len, vcap; cbn [v_init v_spare].
    rewrite Nat.leb_refl. cbn [bind].
    rewrite firstn_all2 by (rewrite !app_length; lia).
    rewrite skipn_all2 by (rewrite !app_length; lia).
    do 3 eexists. split; [reflexivity|]. split; [|split]; [| |now split].
    + repeat split; [assumption|constructor|]. exists (G ++ sp).
      cbn. rewrite !app_nil_r, <- app_assoc. repeat split; [assumption|].
      rewrite Hs. rewrite !app_length. unfold blen. lia.
    + cbn. rewrite Hs. rewrite !app_length. unfold blen in *. lia.
  - exists g, s1, s2. split; [reflexivity|]. split; [assumption|]. split; [lia|now split].
Qed.

(** ** Finding a position *)

(** The position after one more grapheme. *)
Definition adv (p : position) (g : grapheme) : position :=
  if is_lf g then Pos (line p + 1) 0 else Pos (line p) (offset p + 1).
Definition pos_after (p : position) (gs : list grapheme) : position := fold_left adv gs p.

Lemma pos_after_app p a b : pos_after p (a ++ b) = pos_after (pos_after p a) b.
Proof. apply fold_left_app. Qed.

Lemma pos_eqb_eq p q : pos_eqb p q = true <-> p = q.
Proof.
  unfold pos_eqb. destruct p, q; simpl. rewrite andb_true_iff, !Nat.eqb_eq.
  split; [intros [-> ->]; reflexivity|]. intros H; injection H; auto.
Qed.
Lemma pos_eqb_refl p : pos_eqb p p = true.
Proof. now apply pos_eqb_eq. Qed.

(** Split a list of graphemes at the position [p], counting from [cur]. *)
Fixpoint gsplit (gs : list grapheme) (cur p : position)
  : option (list grapheme * list grapheme) :=
  if pos_eqb cur p then Some ([], gs)
  else match gs with
       | [] => None
       | g :: gs' => match gsplit gs' (adv cur g) p with
                     | Some (pre, post) => Some (g :: pre, post)
                     | None => None
                     end
       end.

Lemma gsplit_some gs : forall cur p pre post,
  gsplit gs cur p = Some (pre, post) -> gs = pre ++ post /\ pos_after cur pre = p.
Proof.
  induction gs as [|g gs IH]; intros cur p pre post H; simpl in H.
  - destruct (pos_eqb cur p) eqn:E; [|discriminate].
    injection H as <- <-. apply pos_eqb_eq in E. now subst.
  - destruct (pos_eqb cur p) eqn:E.
    + injection H as <- <-. apply pos_eqb_eq in E. now subst.
    + destruct (gsplit gs (adv cur g) p) as [[pre' post']|] eqn:E'; [|discriminate].
      injection H as <- <-. apply IH in E' as [-> <-]. now split.
Qed.

(** Strict lexicographic order on positions. *)
Definition plt (p q : position) : Prop :=
  line p < line q \/ (line p = line q /\ offset p < offset q).
Definition ple (p q : position) : Prop := p = q \/ plt p q.

Lemma plt_irrefl p : ~ plt p p.
Proof. unfold plt. lia. Qed.
Lemma plt_trans p q r : plt p q -> plt q r -> plt p r.
Proof. unfold plt. lia. Qed.
Lemma ple_refl p : ple p p.
Proof. now left. Qed.
Lemma ple_trans p q r : ple p q -> ple q r -> ple p r.
Proof.
  intros [->|H] [->|H']; [now left|now right|now right|].
  right. eapply plt_trans; eassumption.
Qed.
Lemma plt_ple_trans p q r : plt p q -> ple q r -> plt p r.
Proof. intros H [<-|H']; [assumption|eapply plt_trans; eassumption]. Qed.
Lemma ple_plt_trans p q r : ple p q -> plt q r -> plt p r.
Proof. intros [->|H] H'; [assumption|eapply plt_trans; eassumption]. Qed.
Lemma plt_not_ple p q : plt p q -> ~ ple q p.
Proof. intros H H'. apply (plt_irrefl p). eapply plt_ple_trans; eassumption. Qed.
Lemma ple_antisym p q : ple p q -> ple q p -> p = q.
Proof. intros [->|H] H'; [reflexivity|]. now apply plt_not_ple in H. Qed.
Lemma ple_total p q : ple p q \/ plt q p.
Proof.
  destruct p as [a b], q as [c d]. unfold ple, plt; simpl.
  destruct (lt_eq_lt_dec a c) as [[H|H]|H]; destruct (lt_eq_lt_dec b d) as [[H'|H']|H'];
    subst; try (left; left; reflexivity); try (left; right; lia); right; lia.
Qed.
Lemma ple_spec p q : ple p q <-> line p < line q \/ (line p = line q /\ offset p <= offset q).
Proof.
  unfold ple, plt. destruct p as [a b], q as [c d]; simpl. split.
  - intros [H|H]; [injection H; lia|lia].
  - intros H. destruct (Nat.eq_dec b d) as [->|]; [|right; lia].
    destruct (Nat.eq_dec a c) as [->|]; [now left|right; lia].
Qed.
Lemma adv_plt p g : plt p (adv p g).
Proof. unfold adv, plt. destruct (is_lf g); simpl; lia. Qed.
Lemma pos_after_ple gs : forall p, ple p (pos_after p gs).
Proof.
  induction gs as [|g gs IH]; intros p; simpl; [now left|].
  eapply ple_trans; [right; apply adv_plt|apply IH].
Qed.
Lemma pos_after_plt gs p : gs <> [] -> plt p (pos_after p gs).
Proof.
  destruct gs as [|g gs]; [contradiction|]. intros _. simpl.
  eapply plt_ple_trans; [apply adv_plt|apply pos_after_ple].
Qed.

Lemma gsplit_iff gs cur p pre post :
  gsplit gs cur p = Some (pre, post) <-> gs = pre ++ post /\ pos_after cur pre = p.
Proof.
  split; [apply gsplit_some|]. intros [-> <-]. revert cur.
  induction pre as [|g pre IH]; intros cur; simpl.
  - destruct post; simpl; now rewrite pos_eqb_refl.
  - destruct (pos_eqb cur (pos_after (adv cur g) pre)) eqn:E.
    + apply pos_eqb_eq in E. exfalso. apply (plt_irrefl cur).
      rewrite E at 2. eapply plt_ple_trans; [apply adv_plt|apply pos_after_ple].
    + now rewrite IH.
Qed.

(** Positions increase, so later positions split later. *)
Lemma gsplit_mono gs cur p q pre post pre' post' :
  gsplit gs cur p = Some (pre, post) -> gsplit gs cur q = Some (pre', post') -> ple p q ->
  exists m, pre' = pre ++ m /\ post = m ++ post'.
Proof.
  rewrite !gsplit_iff. intros [-> <-] [H <-] Hle.
  destruct (app_split_cases _ _ _ _ H) as [(m & -> & ->)|(m & -> & ->)].
  - destruct m as [|g m].
    + exists []. now rewrite !app_nil_r.
    + exfalso. rewrite pos_after_app in Hle.
      eapply plt_not_ple; [|exact Hle]. apply pos_after_plt. discriminate.
  - now exists m.
Qed.

Lemma gsplit_app a b cur p :
  gsplit (a ++ b) cur p =
  match gsplit a cur p with
  | Some (pre, post) => Some (pre, post ++ b)
  | None => match gsplit b (pos_after cur a) p with
            | Some (pre, post) => Some (a ++ pre, post)
            | None => None
            end
  end.
Proof.
  revert cur. induction a as [|g a IH]; intros cur; simpl.
  - destruct b as [|x b]; simpl; destruct (pos_eqb cur p); try reflexivity.
    destruct (gsplit b (adv cur x) p) as [[? ?]|]; reflexivity.
  - destruct (pos_eqb cur p); [reflexivity|]. rewrite IH.
    destruct (gsplit a (adv cur g) p) as [[? ?]|]; [reflexivity|].
    destruct (gsplit b (pos_after (adv cur g) a) p) as [[? ?]|]; reflexivity.
Qed.

Lemma scan_ok gs : forall off ln lo p,
  scan gs off ln lo p =
  match gsplit gs (Pos ln lo) p with
  | Some (pre, _ :: _) => Found (off + blen (concat pre))
  | _ => let q := pos_after (Pos ln lo) gs in NotFound (line q) (offset q)
  end.
Proof.
  induction gs as [|g gs IH]; intros off ln lo p; simpl.
  - destruct (pos_eqb _ _); reflexivity.
  - unfold pos_eqb at 1; simpl line; simpl offset.
    destruct ((ln =? line p) && (lo =? offset p)); [f_equal; simpl; unfold blen; simpl; lia|].
    destruct (is_lf g) eqn:El;
      [assert (Ha : adv (Pos ln lo) g = Pos (ln + 1) 0) by (unfold adv; now rewrite El)
      |assert (Ha : adv (Pos ln lo) g = Pos ln (lo + 1)) by (unfold adv; now rewrite El)];
      rewrite Ha, IH.
    + destruct (gsplit gs (Pos (ln + 1) 0) p) as [[pre [|x post]]|]; try reflexivity.
      simpl. rewrite blen_app. f_equal. lia.
    + destruct (gsplit gs (Pos ln (lo + 1)) p) as [[pre [|x post]]|]; try reflexivity.
      simpl. rewrite blen_app. f_equal. lia.
Qed.

Lemma blen_concat_lt (pre : list grapheme) x post brk s :
  graphemes brk s = pre ++ x :: post -> blen (concat pre) < blen s.
Proof.
  intros H. rewrite <- (graphemes_concat brk s), H, concat_app, blen_app. simpl.
  rewrite blen_app.
  assert (x <> []).
  { pose proof (graphemes_nonempty brk s) as Hn. rewrite H in Hn.
    apply Forall_app in Hn as [_ Hn]. now inversion_clear Hn. }
  pose proof (blen_pos x). lia.
Qed.

(** The cluster lists of the two halves. *)
Definition hgs (brk : brk_rule) (s1 s2 : text) : list grapheme :=
  graphemes brk s1 ++ graphemes brk s2.
Definition hsplit (brk : brk_rule) (s1 s2 : text) (p : position)
  : option (list grapheme * list grapheme) := gsplit (hgs brk s1 s2) (Pos 0 0) p.

Lemma hsplit_concat brk s1 s2 p pre post :
  hsplit brk s1 s2 p = Some (pre, post) -> s1 ++ s2 = concat pre ++ concat post.
Proof.
  intros H. apply gsplit_iff in H as [H _]. unfold hgs in H.
  rewrite <- (graphemes_concat brk s1), <- (graphemes_concat brk s2) at 1.
  rewrite <- !concat_app. now rewrite H.
Qed.

Lemma find_offset_ok brk g s1 s2 p :
  rep g s1 s2 ->
  find_offset brk g p =
  Ok (match hsplit brk s1 s2 p with
      | Some (pre, _) => Some (phys g s1 (concat pre))
      | None => None
      end).
Proof.
  intros H. unfold find_offset, hsplit, hgs.
  rewrite (first_half_ok _ _ _ H). cbn [bind]. rewrite scan_ok, gsplit_app.
  assert (Hgs : gap_start g = blen s1) by (destruct H as (_ & _ & G & _ & Hs & _); exact Hs).
  pose proof (rep_vlen _ _ _ H) as HL.
  destruct (gsplit (graphemes brk s1) (Pos 0 0) p) as [[pre [|x post]]|] eqn:E1.
  - (* right at the gap *)
    apply gsplit_iff in E1 as [E1 Ep]. rewrite app_nil_r in E1.
    rewrite E1. cbn zeta. rewrite Ep. rewrite !Nat.eqb_refl. cbn [andb].
    assert (Hc : concat pre = s1) by (rewrite <- E1; apply graphemes_concat).
    unfold phys. rewrite Hc, Nat.ltb_irrefl, Hgs. reflexivity.
  - (* within the first half *)
    apply gsplit_iff in E1 as [E1 _].
    pose proof (blen_concat_lt _ _ _ _ _ E1) as Hlt. unfold phys.
    apply Nat.ltb_lt in Hlt as ->. reflexivity.
  - (* beyond the first half *)
    cbn zeta. set (q := pos_after (Pos 0 0) (graphemes brk s1)).
    assert (Hq : pos_eqb q p = false).
    { destruct (pos_eqb q p) eqn:Eq; [|reflexivity]. apply pos_eqb_eq in Eq.
      assert (X : gsplit (graphemes brk s1) (Pos 0 0) p = Some (graphemes brk s1, [])).
      { apply gsplit_iff. now rewrite app_nil_r. }
      congruence. }
    unfold pos_eqb in Hq. cbv beta iota. rewrite Hq.
    rewrite (second_half_ok _ _ _ H). cbn [bind]. rewrite scan_ok.
    replace (Pos (line q) (offset q)) with q by now destruct q.
    destruct (gsplit (graphemes brk s2) q p) as [[pre [|x post]]|] eqn:E2.
    + apply gsplit_iff in E2 as [E2 Ep]. rewrite app_nil_r in E2.
      rewrite E2. cbn zeta. rewrite Ep. rewrite !Nat.eqb_refl. cbn [andb].
      assert (Hc : concat pre = s2) by (rewrite <- E2; apply graphemes_concat).
      unfold phys. rewrite concat_app, Hc, graphemes_concat, blen_app.
      rewrite (proj2 (Nat.ltb_ge _ _)) by lia. rewrite HL. do 2 f_equal. lia.
    + unfold phys. rewrite concat_app, graphemes_concat, blen_app.
      rewrite (proj2 (Nat.ltb_ge _ _)) by lia. rewrite Hgs. do 2 f_equal. lia.
    + cbn zeta. set (r := pos_after q (graphemes brk s2)).
      assert (Hr : pos_eqb r p = false).
      { destruct (pos_eqb r p) eqn:Er; [|reflexivity]. apply pos_eqb_eq in Er.
        assert (X : gsplit (graphemes brk s2) q p = Some (graphemes brk s2, [])).
        { apply gsplit_iff. now rewrite app_nil_r. }
        congruence. }
      unfold pos_eqb in Hr. cbv beta iota. now rewrite Hr.
Qed.

(** ** The calls on halves *)

Definition is_some {A} (o : option A) : bool := match o with Some _ => true | None => false end.

Lemma in_bounds_halves brk g s1 s2 p :
  rep g s1 s2 -> in_bounds brk g p = Ok (is_some (hsplit brk s1 s2 p)).
Proof.
  intros H. unfold in_bounds. rewrite (find_offset_ok _ _ _ _ _ H). cbn.
  destruct (hsplit brk s1 s2 p) as [[? ?]|]; reflexivity.
Qed.

(** The halves an insert looks its position up in: unchanged, or joined before
    the gap if the data did not fit. *)
Definition lookup_halves (g : gapbuf) (data s1 s2 : text) : text * text :=
  if gap_length g <? blen data then (s1 ++ s2, []) else (s1, s2).

Lemma insert_halves brk al g s1 s2 data p :
  alloc_ok al -> rep g s1 s2 -> valid_text data ->
  let '(h1, h2) := lookup_halves g data s1 s2 in
  exists g', gb_insert brk al g data p = Ok g' /\
    match hsplit brk h1 h2 p with
    | Some (pre, post) => rep g' (concat pre ++ data) (concat post)
    | None => rep g' h1 h2
    end.
Proof.
  intros Hal Hrep Vd. unfold lookup_halves, gb_insert.
  destruct (ensure_capacity_ok al g s1 s2 data Hal Hrep) as (g1 & h1 & h2 & E1 & Hrep1 & Hroom & Hh).
  destruct (gap_length g <? blen data); destruct Hh as [-> ->].
  all: rewrite E1; cbn [bind]; rewrite (find_offset_ok _ _ _ _ _ Hrep1); cbn [bind].
  all: match goal with |- context [hsplit ?x ?a ?b ?y] =>
         destruct (hsplit x a b y) as [[pre post]|] eqn:Es end.
  all: try (exists g1; now split).
  all: pose proof (hsplit_concat _ _ _ _ _ _ Es) as Hc.
  all: destruct (move_gap_ok _ _ _ _ _ _ Hrep1 Hc eq_refl) as (g2 & E2 & Hrep2 & Hg2).
  all: rewrite E2; cbn [bind].
  all: apply write_to_gap_ok; [assumption|assumption|lia].
Qed.

Lemma phys_lt_iff g s1 t1 : blen t1 < blen s1 -> phys g s1 t1 = blen t1.
Proof. intros H. unfold phys. now apply Nat.ltb_lt in H as ->. Qed.
Lemma phys_ge g s1 t1 : blen s1 <= blen t1 -> phys g s1 t1 = blen t1 + gap_length g.
Proof. intros H. unfold phys. now apply Nat.ltb_ge in H as ->. Qed.

Lemma app_inv_len {A} (a b c d : list A) : a ++ b = c ++ d -> length a = length c -> a = c /\ b = d.
Proof.
  revert c. induction a as [|x a IH]; intros [|y c] H HL; simpl in *; try discriminate; [now split|].
  injection H as <- H. destruct (IH c H) as [-> ->]; [congruence|]. now split.
Qed.

(** Reading: the text between the two splits. *)
Lemma read_halves brk g s1 s2 p q :
  rep g s1 s2 -> ple p q ->
  gb_read brk g (Rng p q) =
  Ok (match hsplit brk s1 s2 p, hsplit brk s1 s2 q with
      | Some (pre, _), Some (pre', _) => Some (concat (skipn (length pre) pre'))
      | _, _ => None
      end).
Proof.
  intros Hrep Hle. unfold gb_read; cbn [r_start r_end].
  rewrite (find_offset_ok _ _ _ _ _ Hrep). cbn [bind].
  destruct (hsplit brk s1 s2 p) as [[pre post]|] eqn:Ep; [|reflexivity].
  rewrite (find_offset_ok _ _ _ _ _ Hrep). cbn [bind].
  destruct (hsplit brk s1 s2 q) as [[pre' post']|] eqn:Eq; [|reflexivity].
  destruct (gsplit_mono _ _ _ _ _ _ _ _ Ep Eq Hle) as (m & -> & ->).
  rewrite skipn_app, skipn_all, Nat.sub_diag. cbn [skipn app].
  pose proof (hsplit_concat _ _ _ _ _ _ Ep) as Hc.
  rewrite concat_app in *. set (a := concat pre) in *. set (k := concat m) in *.
  set (b := concat post') in *.
  pose proof (rep_valid _ _ _ Hrep) as V. rewrite Hc in V.
  apply valid_app in V as [Va V]. apply valid_app in V as [Vk Vb].
  pose proof Hrep as (V1 & V2 & G & E & Hs & Hl). unfold bytes. rewrite E. cbn [v_init].
  rewrite Hs. clear Ep Eq. clearbody a k b.
  destruct (app_split_cases _ _ _ _ Hc) as [(x & -> & Hx)|(x & -> & ->)].
  - (* start in the first half *)
    symmetry in Hx. destruct (app_split_cases _ _ _ _ Hx) as [(y & -> & ->)|(y & -> & ->)].
    + (* both ends in the first half; the gap is after them *)
      destruct y as [|cy y].
      * (* end right at the gap *)
        rewrite app_nil_r in *. cbn [app] in *.
        destruct k as [|ck k'].
        -- (* empty range at the gap *)
          rewrite app_nil_r in *. rewrite !phys_ge by lia.
          rewrite (proj2 (Nat.ltb_ge _ _)) by lia. cbn [andb].
          rewrite Hl.
          replace (enc a ++ G ++ enc s2) with ((enc a ++ G) ++ [] ++ enc s2)
            by (simpl; now rewrite <- app_assoc).
          rewrite slice_mid; [reflexivity| |]; rewrite app_length; unfold blen; simpl; lia.
        -- set (k := ck :: k') in *.
           assert (Hk : 0 < blen k) by (apply blen_pos; discriminate).
           rewrite (phys_lt_iff _ _ a) by (rewrite blen_app; lia).
           rewrite (phys_ge _ _ (a ++ k)) by lia.
           rewrite !blen_app.
           destruct (Nat.ltb_spec (blen a) (blen a + blen k)) as [_|]; [|lia].
           destruct (Nat.ltb_spec (blen a + blen k) (blen a + blen k + gap_length g)) as [Hg|Hg];
             cbn [andb].
           ++ rewrite enc_app, <- app_assoc.
              rewrite (slice_mid (enc a) (enc k) (G ++ enc s2)) by reflexivity. cbn [bind].
              replace (enc a ++ enc k ++ G ++ enc s2)
                with ((enc a ++ enc k ++ G) ++ [] ++ enc s2)
                by (simpl; now rewrite <- !app_assoc).
              rewrite slice_mid; [|(rewrite !app_length; unfold blen; simpl; lia) ..].
              cbn [bind decode_lossy]. rewrite app_nil_r, decode_enc by assumption. reflexivity.
           ++ rewrite enc_app, <- app_assoc.
              rewrite (slice_mid (enc a) (enc k) (G ++ enc s2));
                [|reflexivity|unfold blen in *; lia].
              cbn [bind]. now rewrite decode_enc by assumption.
      * set (yy := cy :: y) in *.
        assert (Hy : 0 < blen yy) by (apply blen_pos; discriminate).
        rewrite (phys_lt_iff _ _ a) by (rewrite !blen_app; lia).
        rewrite (phys_lt_iff _ _ (a ++ k)) by (rewrite !blen_app; lia).
        rewrite !blen_app.
        rewrite (proj2 (Nat.ltb_ge (blen a + (blen k + blen yy)) (blen a + blen k))) by lia.
        rewrite andb_false_r. rewrite !enc_app, <- !app_assoc.
        rewrite (slice_mid (enc a) (enc k)) by reflexivity.
        cbn [bind]. now rewrite decode_enc by assumption.
    + (* the gap is in the middle *)
      destruct x as [|cx x'].
      * rewrite !app_nil_r in *. cbn [app] in *.
        rewrite !phys_ge by (rewrite ?blen_app; lia).
        rewrite (proj2 (Nat.ltb_ge _ _)) by lia. cbn [andb].
        rewrite Hl, blen_app, enc_app.
        replace (enc a ++ G ++ enc y ++ enc b) with ((enc a ++ G) ++ enc y ++ enc b)
          by now rewrite <- app_assoc.
        rewrite slice_mid; [|(rewrite app_length; unfold blen; simpl; lia) ..].
        cbn [bind]. now rewrite decode_enc by assumption.
      * set (x := cx :: x') in *.
        assert (Hxp : 0 < blen x) by (apply blen_pos; discriminate).
        rewrite (phys_lt_iff _ _ a) by (rewrite !blen_app; lia).
        rewrite (phys_ge _ _ (a ++ x ++ y)) by (rewrite !blen_app; lia).
        rewrite !blen_app.
        rewrite (proj2 (Nat.ltb_lt (blen a) (blen a + blen x))) by lia. cbn [andb].
        destruct (Nat.ltb_spec (blen a + blen x) (blen a + (blen x + blen y) + gap_length g))
          as [Hg|Hg].
        -- rewrite !enc_app, <- !app_assoc.
           rewrite (slice_mid (enc a) (enc x)) by reflexivity. cbn [bind].
           replace (enc a ++ enc x ++ G ++ enc y ++ enc b)
             with ((enc a ++ enc x ++ G) ++ enc y ++ enc b) by now rewrite <- !app_assoc.
           rewrite slice_mid; [|(rewrite !app_length; unfold blen; simpl; lia) ..].
           cbn [bind]. apply valid_app in Vk as [Vx Vy].
           now rewrite !decode_enc by assumption.
        -- assert (y = []) as -> by (apply blen_zero; lia).
           rewrite !app_nil_r in *. rewrite !enc_app, <- !app_assoc.
           rewrite (slice_mid (enc a) (enc x)); [|reflexivity|].
           ++ cbn [bind]. now rewrite decode_enc by assumption.
           ++ change (blen []) with 0. unfold blen in *. lia.
  - (* both ends after the gap *)
    rewrite !phys_ge by (rewrite ?blen_app; lia).
    rewrite !blen_app.
    rewrite (proj2 (Nat.ltb_ge (blen s1 + blen x + gap_length g) (blen s1))) by lia. cbn [andb].
    rewrite Hl, !enc_app.
    replace (enc s1 ++ G ++ enc x ++ enc k ++ enc b)
      with ((enc s1 ++ G ++ enc x) ++ enc k ++ enc b) by now rewrite <- !app_assoc.
    rewrite slice_mid; [|(rewrite !app_length; unfold blen; simpl; lia) ..].
    cbn [bind]. now rewrite decode_enc by assumption.
Qed.

(** Widening the gap to a later split of the text. *)
Lemma widen_ok g t1 t2 u1 u2 :
  rep g t1 t2 -> t1 ++ t2 = u1 ++ u2 ->
  (forall m, u1 = t1 ++ m -> t2 = m ++ u2 ->
     exists gl, usub (phys g t1 u1) (gap_start g) = Ok gl /\
       rep (GB (gb_data g) (gap_start g) gl) t1 u2) /\
  (blen u1 < blen t1 -> usub (phys g t1 u1) (gap_start g) = Panic).
Proof.
  intros (V1 & V2 & G & E & Hs & Hl) Hc. split.
  - intros m -> ->. rewrite phys_ge by (rewrite blen_app; lia).
    rewrite Hs, blen_app. rewrite usub_ok by lia. eexists. split; [reflexivity|].
    apply valid_app in V2 as [Vm Vu]. repeat split; try assumption.
    exists (G ++ enc m). cbn. rewrite E, enc_app, <- !app_assoc. repeat split.
    rewrite app_length. unfold blen. lia.
  - intros H. rewrite phys_lt_iff by assumption. rewrite Hs. now apply usub_panic.
Qed.

Lemma widen_end g t1 t2 :
  rep g t1 t2 ->
  exists gl, usub (vlen (gb_data g)) (gap_start g) = Ok gl /\
    rep (GB (gb_data g) (gap_start g) gl) t1 [].
Proof.
  intros H. rewrite (rep_vlen _ _ _ H).
  destruct H as (V1 & V2 & G & E & Hs & Hl). rewrite Hs.
  rewrite usub_ok by lia. eexists. split; [reflexivity|].
  repeat split; [assumption|constructor|]. exists (G ++ enc t2). cbn.
  rewrite app_nil_r, E. repeat split.
  rewrite app_length. unfold blen. lia.
Qed.

(** What deletion does, once the gap is at its start: the texts kept before and
    after, or [None] for the underflow panic. *)
Definition delete_to (brk : brk_rule) (t1 t2 : text) (p : position) : option (option text) :=
  match hsplit brk t1 t2 p with
  | Some (pre, post) => Some (if blen (concat pre) <? blen t1 then None else Some (concat post))
  | None => None
  end.
Definition delete_halves (brk : brk_rule) (t1 t2 : text) (q : position) : option text :=
  match delete_to brk t1 t2 q with
  | Some r => r
  | None => match delete_to brk t1 t2 (Pos (line q + 1) 0) with
            | Some r => r
            | None => Some []
            end
  end.

Lemma app_split_le (s1 s2 t1 t2 : text) :
  s1 ++ s2 = t1 ++ t2 -> blen s1 <= blen t1 -> exists m, t1 = s1 ++ m /\ s2 = m ++ t2.
Proof.
  intros H Hle. destruct (app_split_cases _ _ _ _ H) as [(m & -> & ->)|Hm]; [|exact Hm].
  rewrite blen_app in Hle. assert (m = []) as -> by (apply blen_zero; lia).
  exists []. now rewrite !app_nil_r.
Qed.

Lemma delete_ok brk g s1 s2 p q :
  rep g s1 s2 ->
  match hsplit brk s1 s2 p with
  | None => gb_delete brk g (Rng p q) = Ok g
  | Some (pre, post) =>
    match delete_halves brk (concat pre) (concat post) q with
    | Some t2 => exists g', gb_delete brk g (Rng p q) = Ok g' /\ rep g' (concat pre) t2
    | None => gb_delete brk g (Rng p q) = Panic
    end
  end.
Proof.
  intros Hrep. unfold gb_delete; cbn [r_start r_end].
  rewrite (find_offset_ok _ _ _ _ _ Hrep). cbn [bind].
  destruct (hsplit brk s1 s2 p) as [[pre post]|] eqn:Ep; [|reflexivity].
  pose proof (hsplit_concat _ _ _ _ _ _ Ep) as Hc.
  destruct (move_gap_ok _ _ _ _ _ _ Hrep Hc eq_refl) as (g1 & E1 & Hrep1 & _).
  rewrite E1. cbn [bind]. set (t1 := concat pre) in *. set (t2 := concat post) in *.
  assert (X : forall x (B : Type) (k : nat -> res gapbuf) ,
    match delete_to brk t1 t2 x with
    | None => hsplit brk t1 t2 x = None
    | Some (Some r) => exists a b, hsplit brk t1 t2 x = Some (a, b) /\
         exists gl, usub (phys g1 t1 (concat a)) (gap_start g1) = Ok gl /\
         rep (GB (gb_data g1) (gap_start g1) gl) t1 r
    | Some None => exists a b, hsplit brk t1 t2 x = Some (a, b) /\
         usub (phys g1 t1 (concat a)) (gap_start g1) = Panic
    end).
  { intros x _ _. unfold delete_to.
    destruct (hsplit brk t1 t2 x) as [[a b]|] eqn:Ex; [|reflexivity].
    pose proof (hsplit_concat _ _ _ _ _ _ Ex) as Hx.
    destruct (widen_ok _ _ _ _ _ Hrep1 Hx) as [W1 W2].
    destruct (Nat.ltb_spec (blen (concat a)) (blen t1)) as [Hlt|Hge].
    - exists a, b. split; [reflexivity|]. now apply W2.
    - exists a, b. split; [reflexivity|].
      destruct (app_split_le _ _ _ _ Hx Hge) as (m & Hm1 & Hm2). now apply (W1 m). }
  unfold delete_halves.
  pose proof (X q unit (fun _ => Panic)) as Xq.
  rewrite (find_offset_ok _ _ _ _ _ Hrep1). cbn [bind].
  destruct (delete_to brk t1 t2 q) as [[r|]|].
  - destruct Xq as (a & b & -> & gl & Eu & Hr). rewrite Eu. cbn [bind]. eexists. now split.
  - destruct Xq as (a & b & -> & Eu). now rewrite Eu.
  - rewrite Xq.
    pose proof (X (Pos (line q + 1) 0) unit (fun _ => Panic)) as Xn.
    rewrite (find_offset_ok _ _ _ _ _ Hrep1). cbn [bind].
    destruct (delete_to brk t1 t2 (Pos (line q + 1) 0)) as [[r|]|].
    + destruct Xn as (a & b & -> & gl & Eu & Hr). rewrite Eu. cbn [bind]. eexists. now split.
    + destruct Xn as (a & b & -> & Eu). now rewrite Eu.
    + rewrite Xn. destruct (widen_end _ _ _ Hrep1) as (gl & Eu & Hr).
      rewrite Eu. cbn [bind]. eexists. now split.
Qed.
