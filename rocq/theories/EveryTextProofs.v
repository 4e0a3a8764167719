(** Consequences for buffers that hold any text. *)
From Coq Require Import Sorted.
From Verif Require Import Base Utf8 Utf8Proofs Grapheme GraphemeProofs Position GapBuffer
  GapBufferProofs Cursor PathModel Buffer Spec CursorSpec CursorCalls Calls TextProofs HalvesProofs TextFacts GapProps
  CursorProofs UaxProofs OpProofs BufferCalls AnyTextProofs BufferProps BufferIoProps BufferFacts SearchProofs MarkSpec MarkProofs Editor MarkEditor MarkEditorProofs.

Lemma fresh_start f b : fresh_buffer f b -> exists e, me_start b e /\ me_disk e = f.
Proof.
  intros [(al & E)|(al & p & E)].
  - exists (me_new al f). split; [|reflexivity]. left. now exists al, f.
  - pose proof E as E'. unfold from_file in E'. destruct (read_to_string f p) as [t|] eqn:Er; [|discriminate].
    destruct (gb_new al t); [|discriminate]. cbn [bind] in E'. destruct (fs_canon f p) as [cp|] eqn:Ec; [|discriminate].
    exists (me_open al f cp t). split; [|reflexivity]. right. now exists al, f, p, cp, t.
Qed.
Lemma reachable_sim brk b f : order_safe brk -> reachable_buffer brk b f -> exists e, sim b e /\ me_disk e = f.
Proof.
  intros Hos (b0 & f0 & cs & os & F & H & E). apply fresh_start in F as (e & S & <-).
  destruct (calls_sim brk cs Hos b0 e (start_sim _ _ S) H) as (b' & E' & S'). rewrite E in E'.
  injection E' as _ <- ->. eauto.
Qed.

(** ** The first line *)

Lemma seg_starts brk y : forall cur z, cur <> [] -> exists pre post,
  seg_from brk cur (y ++ z) = pre ++ post /\ length pre = length (seg_from brk cur y) /\
  Forall (fun g => exists c, In c (cur ++ y) /\ hd_error g = Some c) pre.
Proof.
  induction y as [|c y IH]; intros cur z Hc.
  - destruct (seg_from_cons brk z cur) as (u & us & E). exists [cur ++ u], us. cbn [app]. rewrite E. split; [reflexivity|].
    split; [reflexivity|]. constructor; [|constructor]. destruct cur as [|x cur]; [contradiction|].
    exists x. split; [now left|reflexivity].
  - cbn [app seg_from]. destruct (brk cur c).
    + destruct (IH [c] z) as (pre & post & -> & L & F); [discriminate|]. exists (cur :: pre), post.
      split; [reflexivity|]. split; [cbn; now rewrite L|]. constructor.
      * destruct cur as [|x cur]; [contradiction|]. exists x. split; [now left|reflexivity].
      * eapply Forall_impl; [|exact F]. intros g (x & I & E). exists x. split; [|exact E]. apply in_or_app. now right.
    + destruct (IH (cur ++ [c]) z) as (pre & post & -> & L & F); [now destruct cur|]. exists pre, post.
      split; [reflexivity|]. split; [exact L|]. eapply Forall_impl; [|exact F]. intros g (x & I & E). exists x.
      split; [|exact E]. now rewrite <- app_assoc in I.
Qed.
Lemma graphemes_starts brk y z : no_lf y -> exists pre post,
  graphemes brk (y ++ z) = pre ++ post /\ length pre = length (graphemes brk y) /\
  Forall (fun g => is_lf g = false) pre.
Proof.
  intros H. destruct y as [|c y]; [exists [], (graphemes brk z); now split; [|split]|].
  destruct (seg_starts brk y [c] z) as (pre & post & E & L & F); [discriminate|]. exists pre, post.
  split; [exact E|]. split; [exact L|]. eapply Forall_impl; [|exact F]. intros g (x & I & Ex).
  destruct (is_lf g) eqn:El; [|reflexivity]. apply is_lf_iff in El. subst g. injection Ex as <-. now destruct H.
Qed.
Lemma columns gs : Forall (fun g => is_lf g = false) gs -> forall l o, pos_after (Pos l o) gs = Pos l (o + length gs).
Proof.
  induction 1 as [|g gs H _ IH]; intros l o; cbn [pos_after fold_left length]; [f_equal; lia|].
  unfold adv at 2. rewrite H. cbn [line offset]. unfold pos_after in IH. rewrite IH. f_equal. lia.
Qed.
Lemma no_lf_columns brk x : no_lf x -> Forall (fun g => is_lf g = false) (graphemes brk x).
Proof.
  intros H. apply Forall_forall. intros g I. destruct (is_lf g) eqn:E; [|reflexivity]. apply is_lf_iff in E. subst g.
  destruct H. rewrite <- (graphemes_concat brk x). apply in_concat. exists [LF]. split; [exact I|now left].
Qed.

Lemma has_pre brk m pre post k : graphemes brk (ahead m) ++ graphemes brk (behind m) = pre ++ post ->
  Forall (fun g => is_lf g = false) pre -> k <= length pre -> has brk m (Pos 0 k) = true.
Proof.
  intros E F Hk. unfold has. rewrite locate_hsplit. unfold hsplit, hgs. rewrite E.
  assert (X : gsplit (pre ++ post) (Pos 0 0) (Pos 0 k) = Some (firstn k pre, skipn k pre ++ post)); [|now rewrite X].
  apply gsplit_iff. rewrite app_assoc, firstn_skipn. split; [reflexivity|].
  rewrite columns; [rewrite firstn_length; f_equal; lia|]. rewrite <- (firstn_skipn k pre) in F. now apply Forall_app in F.
Qed.

Lemma has_prefix brk m x z k : order_safe brk -> whole m = x ++ z -> no_lf x -> k <= length (graphemes brk x) ->
  has brk m (Pos 0 k) = true.
Proof.
  intros Hos E Hx Hk. unfold whole in E. destruct (Nat.le_gt_cases (length x) (length (ahead m))) as [Hl|Hl].
  - assert (X : exists u, ahead m = x ++ u).
    { exists (skipn (length x) (ahead m)). rewrite <- (firstn_skipn (length x) (ahead m)) at 1. f_equal.
      apply (f_equal (firstn (length x))) in E. rewrite !firstn_app in E.
      rewrite Nat.sub_diag, firstn_O, app_nil_r, firstn_all in E. replace (length x - length (ahead m)) with 0 in E by lia.
      now rewrite firstn_O, app_nil_r in E. }
    destruct X as [u Eu]. destruct (graphemes_starts brk x u Hx) as (pre & post & Eg & L & F).
    apply (has_pre brk m pre (post ++ graphemes brk (behind m))); [|exact F|lia]. now rewrite Eu, Eg, app_assoc.
  - assert (X : exists y w, x = ahead m ++ y /\ behind m = y ++ w).
    { exists (skipn (length (ahead m)) x), z.
      assert (x = ahead m ++ skipn (length (ahead m)) x) as Ex.
      { rewrite <- (firstn_skipn (length (ahead m)) x) at 1. f_equal.
        apply (f_equal (firstn (length (ahead m)))) in E. rewrite !firstn_app in E.
        rewrite Nat.sub_diag, firstn_O, app_nil_r, firstn_all in E. replace (length (ahead m) - length x) with 0 in E by lia.
        now rewrite firstn_O, app_nil_r in E. }
      split; [exact Ex|]. rewrite Ex, <- app_assoc in E. now apply app_inv_head in E. }
    destruct X as (y & w & Ey & Ew). assert (Na : no_lf (ahead m)) by (intros I; apply Hx; rewrite Ey; apply in_or_app; now left).
    assert (Ny : no_lf y) by (intros I; apply Hx; rewrite Ey; apply in_or_app; now right).
    destruct (graphemes_starts brk y w Ny) as (pre & post & Eg & L & F).
    apply (has_pre brk m (graphemes brk (ahead m) ++ pre) post).
    + now rewrite Ew, Eg, app_assoc.
    + apply Forall_app. split; [now apply no_lf_columns|exact F].
    + rewrite app_length, L. pose proof (Hos (ahead m) y) as O. rewrite <- Ey in O. rewrite !columns in O.
      * rewrite app_length in O. destruct O as [O|O]; [injection O as O; lia|]. unfold plt in O. cbn in O. lia.
      * apply Forall_app. split; now apply no_lf_columns.
      * now apply no_lf_columns.
Qed.

Lemma chop_prefix l : exists r, l = chop l ++ r.
Proof.
  unfold chop. destruct (rev l) as [|c r] eqn:E; [exists []; now rewrite app_nil_r|].
  destruct (N.eq_dec c CR); [|exists []; now rewrite app_nil_r]. exists [c].
  rewrite <- (rev_involutive l), E. reflexivity.
Qed.
Lemma first_seen t : exists x z, t = x ++ z /\ no_lf x /\
  forall brk, width_or_zero brk t 0 = length (graphemes brk x).
Proof.
  unfold width_or_zero, seen_width. induction t as [m Hm|m t Hm _] using text_line_ind.
  - exists m, []. rewrite app_nil_r. split; [reflexivity|]. split.
    + intros I. apply Hm in I. exact I.
    + intros brk. rewrite lines_of_one by assumption. now destruct m.
  - destruct (chop_prefix m) as [r E]. exists (chop m), (r ++ LF :: t). split; [now rewrite app_assoc, <- E|]. split.
    + intros I. apply Hm. rewrite E. apply in_or_app. now left.
    + intros brk. rewrite lines_of_app by assumption. pose proof (lines_of_ne t). destruct (lines_of t); [contradiction|]. reflexivity.
Qed.

Lemma first_line_has brk m k : order_safe brk -> k <= width_or_zero brk (whole m) 0 -> has brk m (Pos 0 k) = true.
Proof. intros Hos Hk. destruct (first_seen (whole m)) as (x & z & E & N & W). rewrite W in Hk. eapply has_prefix; eassumption. Qed.

Lemma first_line_recovers cls b f t al : cls LF = GC_LF -> reachable_buffer (uax29 cls) b f -> buf_data b = Ok t ->
  exists b', bexec (uax29 cls) al (BMove MFirst) b f = Ok (BUnit, b', f) /\ buf_data b' = Ok t /\
    in_bounds (uax29 cls) (b_data b') (c_pos (b_cursor b')) = Ok true /\
    view (b_cursor b') = go (Pos 0 (Nat.min (c_sticky (b_cursor b)) (width_or_zero (uax29 cls) t 0))).
Proof.
  intros Hc R Et. apply reachable_sim in R as (e & S & _); [|now apply uax29_order_safe].
  pose proof (s_text _ _ S) as M. cbn [bexec].
  destruct (move_msim (uax29 cls) _ _ MFirst (b_cursor b) M) as (c' & -> & V). cbn [bind].
  eexists. split; [reflexivity|]. split; [exact Et|]. cbn [b_data b_cursor set_cursor].
  rewrite (sim_whole _ _ S) in Et. injection Et as <-. cbn [m_move view at_pos wish] in V.
  rewrite first_line_has in V; [|now apply uax29_order_safe|lia].
  split; [|exact V]. rewrite (bounds_msim _ _ _ _ M). fold (has (uax29 cls) (me_text e) (c_pos c')). f_equal.
  apply (f_equal at_pos) in V. cbn in V. rewrite V. apply first_line_has; [now apply uax29_order_safe|lia].
Qed.

(** ** Searching *)

Lemma search_line_every needle ln : valid_text needle -> forall data off p, valid_text data ->
  In p (search_line needle ln data off) <->
  line p = ln /\ exists a r, data = a ++ needle ++ r /\ needle ++ r <> [] /\ offset p = off + blen a.
Proof.
  intros Vn. induction data as [|c data IH]; intros off p V; cbn [search_line].
  - split; [easy|]. intros [_ (a & r & E & N & _)]. destruct N. symmetry in E. now apply app_eq_nil in E as [_ E].
  - rewrite in_app_iff. inversion V as [|? ? Vc Vd]; subst. rewrite (IH (off + len1 c) p Vd). split.
    + intros [H|[H1 (a & r & -> & N & H3)]].
      * destruct (starts_with (enc needle) (enc (c :: data))) eqn:E; [|destruct H].
        apply starts_with_spec in E as [r E]; [|assumption|assumption]. destruct H as [<-|[]].
        split; [reflexivity|]. exists [], r. split; [assumption|]. split; [now rewrite <- E|]. unfold blen. simpl. lia.
      * split; [assumption|]. exists (c :: a), r. split; [reflexivity|]. split; [assumption|]. rewrite blen_cons. lia.
    + intros [H1 (a & r & E & N & H3)]. destruct a as [|x a].
      * left. rewrite (proj2 (starts_with_spec needle (c :: data) Vn V)) by (exists r; exact E).
        left. destruct p as [l o]. simpl in *. subst. f_equal. unfold blen. simpl. lia.
      * right. injection E as -> E. split; [assumption|]. exists a, r. split; [assumption|]. split; [assumption|].
        rewrite blen_cons in H3. lia.
Qed.

Lemma seen_valid t : valid_text t -> forall k l, nth_error (str_lines t) k = Some l -> valid_text l.
Proof.
  intros V k l E. destruct (str_lines_sound _ _ _ E) as (l' & E' & Hl). pose proof (valid_line _ _ _ V E') as V'.
  destruct Hl as [->|[-> _]]; [assumption|now apply valid_app in V' as [V' _]].
Qed.

Lemma search_every brk b f t needle : reachable_buffer brk b f -> buf_data b = Ok t -> valid_text needle ->
  exists ps, buf_search b needle = Ok ps /\ StronglySorted lex_lt ps /\
    forall p, In p ps <-> exists l a r, nth_error (seen (lines_of t)) (line p) = Some l /\
      l = a ++ needle ++ r /\ needle ++ r <> [] /\ offset p = length (enc a).
Proof.
  intros R Et Vn. destruct (buffer_text_valid _ _ _ R) as (t' & Et' & V).
  assert (t' = t) by congruence. subst t'.
  unfold buf_search. rewrite Et. cbn [bind]. eexists. split; [reflexivity|]. split; [apply search_lines_sorted|].
  intros p. rewrite search_lines_in, <- str_lines_seen. split.
  - intros (k & l & E & H). apply search_line_every in H as [H1 (a & r & El & N & H3)]; [|assumption|now eapply seen_valid; eassumption].
    exists l, a, r. cbn [Nat.add] in H1. rewrite H1. now repeat split.
  - intros (l & a & r & E & El & N & H3). exists (line p), l. split; [exact E|].
    apply search_line_every; [assumption|now eapply seen_valid; eassumption|]. split; [reflexivity|]. exists a, r. now repeat split.
Qed.

Lemma search_newline brk b f needle : reachable_buffer brk b f -> valid_text needle -> In LF needle ->
  buf_search b needle = Ok [].
Proof.
  intros R Vn Hn. destruct (buffer_text_valid _ _ _ R) as (t & Et & V).
  destruct (search_every brk b f t needle R Et Vn) as (ps & -> & _ & H). f_equal.
  destruct ps as [|p ps]; [reflexivity|]. destruct (proj1 (H p) (or_introl eq_refl)) as (l & a & r & E & -> & _).
  rewrite <- str_lines_seen in E. destruct (str_lines_sound _ _ _ E) as (l' & E' & Hl).
  pose proof (lines_no_lf t) as F. rewrite Forall_forall in F. apply nth_error_In in E'. destruct (F _ E').
  assert (In LF (a ++ needle ++ r)) by (apply in_or_app; right; apply in_or_app; now left).
  destruct Hl as [->|[-> _]]; [assumption|apply in_or_app; now left].
Qed.

(** ** Undo *)

Definition once (brk : brk_rule) (m : marked) : Prop :=
  graphemes brk (ahead m) ++ graphemes brk (behind m) = graphemes brk (whole m).

Lemma walk_here gs p : walk gs p p = Some ([], concat gs).
Proof. destruct gs; cbn [walk]; now rewrite pos_eqb_refl. Qed.
Lemma walk_gone gs : forall l o l' o' a, l < l' -> walk gs (Pos l' o') (Pos l o) <> Some a.
Proof.
  induction gs as [|g gs IH]; intros l o l' o' a H; cbn [walk].
  - destruct (pos_eqb _ _) eqn:E; [apply pos_eqb_eq in E; injection E; lia|discriminate].
  - destruct (pos_eqb _ _) eqn:E; [apply pos_eqb_eq in E; injection E; lia|].
    destruct (walk gs _ _) as [[? ?]|] eqn:W; [|discriminate]. exfalso.
    destruct (list_eq_dec _ g [LF]); cbn [line offset] in W; eapply IH; try exact W; lia.
Qed.
Lemma walk_determines gs : forall gs' h, Forall (fun g => g <> []) gs -> Forall (fun g => g <> []) gs' ->
  (forall p, walk gs h p = walk gs' h p) -> gs = gs'.
Proof.
  assert (Next : forall g gs h, walk (g :: gs) h (adv h g) = Some (g, concat gs)).
  { clear. intros g gs h. cbn [walk]. destruct (pos_eqb h (adv h g)) eqn:E.
    - apply pos_eqb_eq in E. unfold adv in E. destruct h as [l o]. destruct (is_lf g); injection E; lia.
    - replace (if list_eq_dec N.eq_dec g [LF] then _ else _) with (adv h g).
      + rewrite walk_here. now rewrite app_nil_r.
      + unfold adv, is_lf, list_N_eqb. now destruct (list_eq_dec N.eq_dec g [LF]). }
  induction gs as [|g gs IH]; intros gs' h F F' H.
  - destruct gs' as [|g' gs']; [reflexivity|]. specialize (H h). rewrite !walk_here in H. injection H as H.
    inversion_clear F' as [|? ? N _]. destruct g'; [now destruct N|discriminate].
  - destruct gs' as [|g' gs'].
    { specialize (H h). rewrite !walk_here in H. injection H as H. inversion_clear F as [|? ? N _]. destruct g; [now destruct N|discriminate]. }
    inversion_clear F as [|? ? N F1]. inversion_clear F' as [|? ? N' F1'].
    assert (g = g').
    { destruct (is_lf g) eqn:L, (is_lf g') eqn:L'.
      - apply is_lf_iff in L, L'. congruence.
      - (* the whole starts with both *) exfalso.
        pose proof (H h) as W. rewrite !walk_here in W. injection W as W. apply is_lf_iff in L. subst g.
        pose proof (H (adv h g')) as X. rewrite Next in X. unfold adv in X. rewrite L' in X. cbn [walk] in X.
        destruct (pos_eqb h _) eqn:E; [apply pos_eqb_eq in E; destruct h; injection E; lia|].
        destruct (list_eq_dec N.eq_dec [LF] [LF]) as [_|Y]; [|now destruct Y].
        destruct (walk gs _ _) as [[? ?]|] eqn:Wk; [|discriminate]. destruct h as [hl ho]. cbn [line offset] in Wk.
        eapply walk_gone; [|exact Wk]. lia.
      - exfalso. apply is_lf_iff in L'. subst g'. pose proof (H (adv h g)) as X. rewrite Next in X. unfold adv in X. rewrite L in X. cbn [walk] in X.
        destruct (pos_eqb h _) eqn:E; [apply pos_eqb_eq in E; destruct h; injection E; lia|].
        destruct (list_eq_dec N.eq_dec [LF] [LF]) as [_|Y]; [|now destruct Y].
        destruct (walk gs' _ _) as [[? ?]|] eqn:Wk; [|discriminate]. destruct h as [hl ho]. cbn [line offset] in Wk.
        eapply walk_gone; [|exact Wk]. lia.
      - pose proof (H (adv h g)) as X. rewrite Next in X.
        assert (adv h g = adv h g') as Ea by (unfold adv; now rewrite L, L'). rewrite Ea, Next in X. now injection X. }
    subst g'. f_equal. apply (IH gs' (adv h g) F1 F1'). intros p. specialize (H p). cbn [walk] in H.
    replace (if list_eq_dec N.eq_dec g [LF] then Pos (line h + 1) 0 else Pos (line h) (offset h + 1)) with (adv h g) in H.
    2:{ unfold adv, is_lf, list_N_eqb. now destruct (list_eq_dec N.eq_dec g [LF]). }
    destruct (pos_eqb h p) eqn:E.
    + apply pos_eqb_eq in E. subst p.
      assert (Z : forall ks, walk ks (adv h g) h = None).
      { intros ks. destruct (walk ks (adv h g) h) as [[x y]|] eqn:W; [|reflexivity]. exfalso. rewrite walk_gsplit in W.
        destruct (gsplit ks (adv h g) h) as [[u v]|] eqn:Eg; [|discriminate]. apply gsplit_iff in Eg as [_ Eg].
        pose proof (pos_after_ple u (adv h g)) as P. rewrite Eg in P. apply (plt_not_ple _ _ (adv_plt h g)). exact P. }
      now rewrite !Z.
    + destruct (walk gs (adv h g) p) as [[x y]|], (walk gs' (adv h g) p) as [[x' y']|]; try discriminate; [|reflexivity].
      injection H as H1 H2. apply app_inv_head in H1. now subst.
Qed.

Lemma undivided_once brk b m t : msim (b_data b) m -> buf_data b = Ok t -> undivided brk b t -> once brk m.
Proof.
  intros S Et U. unfold once. assert (Ew : whole m = t). { unfold buf_data in Et. rewrite (whole_msim _ _ S) in Et. now injection Et. }
  apply (walk_determines _ _ (Pos 0 0)).
  - apply Forall_app. split; apply graphemes_nonempty.
  - apply graphemes_nonempty.
  - intros p. specialize (U (Pos 0 0) p). unfold buf_read in U. rewrite (read_msim _ _ _ _ _ S) in U. injection U as U.
    assert (Z : ple (Pos 0 0) p).
    { destruct p as [[|l] [|o]]; [left; reflexivity|right; unfold plt; cbn; lia..]. }
    destruct (first_of_le _ _ Z) as [E1 E2]. unfold m_read in U. rewrite E1, E2 in U. unfold locate in U. rewrite !walk_here in U.
    cbn [ahead behind length skipn] in U. cbn [graphemes app] in U. rewrite app_nil_r in U. rewrite <- Ew in U.
    assert (C : concat (graphemes brk (ahead m) ++ graphemes brk (behind m)) = concat (graphemes brk (whole m))).
    { rewrite concat_app, !graphemes_concat. reflexivity. }
    rewrite walk_gsplit in *. rewrite (walk_gsplit (graphemes brk (whole m))) in *.
    destruct (gsplit (graphemes brk (ahead m) ++ _) _ p) as [[x y]|] eqn:G1, (gsplit (graphemes brk (whole m)) _ p) as [[x' y']|] eqn:G2; try discriminate; [|reflexivity].
    injection U as U. rewrite U. apply gsplit_iff in G1 as [G1 _], G2 as [G2 _]. rewrite G1, G2, !concat_app, U in C.
    now apply app_inv_head in C as ->.
Qed.
Lemma once_undivided brk b m : msim (b_data b) m -> once brk m -> undivided brk b (whole m).
Proof.
  intros S O p q. unfold buf_read. rewrite (read_msim _ _ _ _ _ S). unfold m_read, locate. cbn [ahead behind].
  change (graphemes brk []) with (@nil (list N)). unfold once in O. rewrite !O, !app_nil_r. reflexivity.
Qed.

Lemma once_at brk m pre post n : once brk m -> graphemes brk (whole m) = pre ++ post ->
  once brk (Marked (concat pre) (concat post) n) /\ whole (Marked (concat pre) (concat post) n) = whole m.
Proof.
  intros O E. assert (C : concat pre ++ concat post = whole m) by now rewrite <- concat_app, <- E, graphemes_concat.
  unfold once, whole at 1 3. cbn [ahead behind]. split; [|exact C]. rewrite C, E.
  destruct (graphemes_restart _ _ _ _ E) as [-> ->]. reflexivity.
Qed.

Lemma once_locate brk m p : once brk m -> locate brk m p = walk (graphemes brk (whole m)) (Pos 0 0) p.
Proof. intros O. unfold locate. now rewrite O. Qed.

Lemma enc_len_app a b : length (enc (a ++ b)) = length (enc a) + length (enc b).
Proof. now rewrite enc_app, app_length. Qed.

(** Deleting a range of a text that is segmented once, and putting it back. *)
Lemma delete_back brk al m p q s : once brk m -> m_read brk p q m = Some s ->
  exists a c, whole m = a ++ s ++ c /\ whole (m_delete brk p q m) = a ++ c /\
    whole (m_insert brk al s (first_of p q) (m_delete brk p q m)) = whole m /\
    once brk (m_insert brk al s (first_of p q) (m_delete brk p q m)).
Proof.
  intros O. unfold m_read, m_delete. rewrite !(once_locate brk m _ O), !walk_gsplit.
  destruct (gsplit _ _ (first_of p q)) as [[pre post]|] eqn:E1; [|discriminate].
  destruct (gsplit _ _ (second_of p q)) as [[pre' post']|] eqn:E2; [|discriminate].
  destruct (gsplit_mono _ _ _ _ _ _ _ _ E1 E2 (first_second_ple p q)) as (k & -> & ->).
  rewrite concat_app, skipn_app, skipn_all, Nat.sub_diag. cbn [app skipn]. intros [= <-].
  pose proof E1 as E1'. apply gsplit_iff in E1 as [E1 P1], E2 as [E2 P2].
  destruct (once_at brk m pre (k ++ post') (room m) O E1) as [O1 W1].
  rewrite (once_locate brk _ (second_of p q) O1), W1, walk_gsplit.
  assert (E3 : gsplit (graphemes brk (whole m)) (Pos 0 0) (second_of p q) = Some (pre ++ k, post')) by now apply gsplit_iff.
  rewrite E3. rewrite concat_app. set (m2 := Marked _ _ _).
  assert (Ww : whole m = concat pre ++ concat k ++ concat post').
  { rewrite <- (graphemes_concat brk (whole m)), E1, !concat_app. reflexivity. }
  exists (concat pre), (concat post'). split; [exact Ww|]. split; [reflexivity|].
  assert (Hroom : room m2 = room m + length (enc (concat k))).
  { cbn. rewrite enc_len_app. lia. }
  unfold m_insert, make_room. destruct (Nat.ltb_spec (room m2) (length (enc (concat k)))); [lia|].
  assert (L : locate brk m2 (first_of p q) = Some (concat pre, concat post')).
  { unfold locate. cbn [ahead behind m2]. destruct (graphemes_restart _ _ _ _ E1) as [-> Ep].
    rewrite walk_gsplit. assert (X : gsplit (pre ++ graphemes brk (concat post')) (Pos 0 0) (first_of p q) = Some (pre, graphemes brk (concat post'))) by now apply gsplit_iff.
    rewrite X, graphemes_concat. reflexivity. }
  rewrite L. rewrite <- concat_app. rewrite app_assoc in E1.
  destruct (once_at brk m (pre ++ k) post' (room m2 - length (enc (concat k))) O E1) as [O2 W2]. now split.
Qed.

(** Inserting text that merges with neither side, and removing it. *)
Lemma insert_back brk al m p d a c : once brk m -> locate brk m p = Some (a, c) -> plain_newlines brk d ->
  seam brk a d -> seam brk d c ->
  whole m = a ++ c /\ whole (m_insert brk al d p m) = a ++ d ++ c /\
  whole (m_delete brk p (text_end brk p d) (m_insert brk al d p m)) = whole m /\
  once brk (m_delete brk p (text_end brk p d) (m_insert brk al d p m)).
Proof.
  intros O L Hp S1 S2. rewrite (once_locate brk m _ O), walk_gsplit in L.
  destruct (gsplit _ _ p) as [[pre post]|] eqn:E; [|discriminate]. injection L as <- <-.
  apply gsplit_iff in E as [E P].
  assert (Ww : whole m = concat pre ++ concat post) by now rewrite <- (graphemes_concat brk (whole m)), E, concat_app.
  split; [exact Ww|]. set (a := concat pre) in *. set (c := concat post) in *.
  assert (Ea : graphemes brk a = pre) by now destruct (graphemes_restart _ _ _ _ E).
  assert (Ec : graphemes brk c = post) by now destruct (graphemes_restart _ _ _ _ E).
  assert (I : exists n, m_insert brk al d p m = Marked (a ++ d) c n).
  { unfold m_insert. set (m1 := make_room al d m).
    assert (O1 : once brk m1 /\ whole m1 = whole m).
    { subst m1. unfold make_room. destruct (_ <? _); [|now split]. set (w := whole m). unfold once, whole. cbn [ahead behind graphemes].
      rewrite !app_nil_r. now split. }
    destruct O1 as [O1 W1]. rewrite (once_locate brk m1 _ O1), W1, walk_gsplit.
    assert (X : gsplit (graphemes brk (whole m)) (Pos 0 0) p = Some (pre, post)) by now apply gsplit_iff.
    rewrite X. eexists. reflexivity. }
  destruct I as [n ->]. split; [unfold whole; cbn; now rewrite app_assoc|].
  rewrite text_end_from. destruct (first_of_le _ _ (end_from_ple brk p d Hp)) as [F1 F2].
  unfold m_delete. rewrite F1, F2.
  assert (L1 : locate brk (Marked (a ++ d) c n) p = Some (a, d ++ c)).
  { unfold locate. cbn [ahead behind]. rewrite S1, Ea, Ec, walk_gsplit.
    assert (X : gsplit ((pre ++ graphemes brk d) ++ post) (Pos 0 0) p = Some (pre, graphemes brk d ++ post)).
    { apply gsplit_iff. split; [now rewrite app_assoc|exact P]. }
    rewrite X, concat_app, graphemes_concat. reflexivity. }
  rewrite L1. cbn [room].
  assert (L2 : locate brk (Marked a (d ++ c) n) (end_from brk p d) = Some (a ++ d, c)).
  { unfold locate. cbn [ahead behind]. rewrite S2, Ea, Ec, walk_gsplit.
    assert (X : gsplit (pre ++ graphemes brk d ++ post) (Pos 0 0) (end_from brk p d) = Some (pre ++ graphemes brk d, post)).
    { apply gsplit_iff. split; [now rewrite app_assoc|]. now rewrite pos_after_app, P, pos_after_text. }
    rewrite X, concat_app, graphemes_concat. reflexivity. }
  rewrite L2. destruct (once_at brk m pre post (n + (length (enc (d ++ c)) - length (enc c))) O E) as [O2 W2]. now split.
Qed.

Lemma undo_delete_every cls b f t p q al al' : cls LF = GC_LF -> reachable_buffer (uax29 cls) b f ->
  b_group b = None -> buf_data b = Ok t -> undivided (uax29 cls) b t ->
  in_bounds (uax29 cls) (b_data b) p = Ok true -> in_bounds (uax29 cls) (b_data b) q = Ok true ->
  alloc_ok al -> alloc_ok al' ->
  exists s a c b1 b2, buf_read (uax29 cls) b (range_new p q) = Ok (Some s) /\ t = a ++ s ++ c /\
    buf_delete_range (uax29 cls) al b (range_new p q) = Ok b1 /\ buf_data b1 = Ok (a ++ c) /\
    buf_undo (uax29 cls) al' b1 = Ok b2 /\ buf_data b2 = Ok t /\ undivided (uax29 cls) b2 t.
Proof.
  intros Hc R G Et U Bp Bq Ha Ha'. pose proof (uax29_order_safe cls Hc) as Hos. set (brk := uax29 cls) in *.
  apply reachable_sim in R as (e & S & _); [|exact Hos]. pose proof (s_text _ _ S) as M.
  pose proof (undivided_once _ _ _ _ M Et U) as O.
  rewrite (bounds_msim _ _ _ p M) in Bp. rewrite (bounds_msim _ _ _ q M) in Bq.
  assert (X : exists s, m_read brk p q (me_text e) = Some s).
  { unfold m_read, first_of, second_of. destruct (before q p);
      destruct (locate brk (me_text e) p) as [[? ?]|], (locate brk (me_text e) q) as [[? ?]|]; try discriminate; eauto. }
  destruct X as [s Es]. destruct (delete_back brk al' (me_text e) p q s O Es) as (a & c & W & Wd & Wi & Oi).
  destruct (cut_sim brk al Hos Ha b e p q S) as (b1 & E1 & S1). destruct (undo_sim brk al' Hos Ha' _ _ S1) as (b2 & E2 & S2).
  assert (Ge : me_group e = None) by (pose proof (s_group _ _ S) as Y; rewrite G in Y; now destruct (me_group e)).
  rewrite (sim_whole _ _ S) in Et. injection Et as <-.
  exists s, a, c, b1, b2. split; [unfold buf_read; now rewrite (read_msim _ _ _ _ _ M), Es|]. split; [exact W|].
  split; [exact E1|].
  assert (T1 : me_text (m_cut brk al e p q) = m_delete brk p q (me_text e)).
  { unfold m_cut, m_edit. now rewrite Ge. }
  assert (T2 : me_text (m_undo brk al' (m_cut brk al e p q)) = m_insert brk al' s (first_of p q) (m_delete brk p q (me_text e))).
  { unfold m_cut, m_edit. rewrite Ge. unfold m_undo. cbn. rewrite Es. reflexivity. }
  split; [rewrite (sim_whole _ _ S1), T1, Wd; reflexivity|]. split; [exact E2|].
  split; [rewrite (sim_whole _ _ S2), T2, Wi; reflexivity|].
  rewrite <- Wi, <- T2. apply once_undivided; [apply S2|]. rewrite T2. exact Oi.
Qed.

Lemma undo_insert_every cls b f t d a c al al' : cls LF = GC_LF -> reachable_buffer (uax29 cls) b f ->
  b_group b = None -> buf_data b = Ok t -> undivided (uax29 cls) b t -> valid_text d -> plain_newlines (uax29 cls) d ->
  buf_read (uax29 cls) b (range_new (Pos 0 0) (c_pos (b_cursor b))) = Ok (Some a) -> t = a ++ c ->
  seam (uax29 cls) a d -> seam (uax29 cls) d c -> alloc_ok al -> alloc_ok al' ->
  exists b1 b2, buf_insert (uax29 cls) al b d = Ok b1 /\ buf_data b1 = Ok (a ++ d ++ c) /\
    buf_undo (uax29 cls) al' b1 = Ok b2 /\ buf_data b2 = Ok t /\ undivided (uax29 cls) b2 t.
Proof.
  intros Hc R G Et U V Hp Ea Ec Sa Sc Ha Ha'. pose proof (uax29_order_safe cls Hc) as Hos. set (brk := uax29 cls) in *.
  apply reachable_sim in R as (e & S & _); [|exact Hos]. pose proof (s_text _ _ S) as M.
  pose proof (undivided_once _ _ _ _ M Et U) as O. set (p := c_pos (b_cursor b)) in *.
  unfold buf_read in Ea. rewrite (read_msim _ _ _ _ _ M) in Ea. injection Ea as Ea.
  rewrite (sim_whole _ _ S) in Et. injection Et as <-.
  assert (L : locate brk (me_text e) p = Some (a, c)).
  { assert (Z : ple (Pos 0 0) p).
    { destruct p as [[|l] [|o]]; [left; reflexivity|right; unfold plt; cbn; lia..]. }
    destruct (first_of_le _ _ Z) as [E1 E2]. unfold m_read in Ea. rewrite E1, E2 in Ea.
    unfold locate at 1 in Ea. rewrite walk_here in Ea. destruct (locate brk (me_text e) p) as [[x y]|] eqn:Lx; [|discriminate].
    cbn [length skipn] in Ea. injection Ea as ->. rewrite locate_hsplit in Lx.
    destruct (hsplit _ _ _ p) as [[pre post]|] eqn:H; [|discriminate]. injection Lx as <- <-. apply hsplit_concat in H.
    unfold whole in Ec. rewrite H in Ec. apply app_inv_head in Ec. now subst. }
  destruct (insert_back brk al (me_text e) p d a c O L Hp Sa Sc) as (W & Wi & Wd & Od).
  destruct (edit_sim brk al Hos Ha b e _ _ _ S (prim_put d p V) eq_refl) as (b1 & E1 & S1).
  destruct (undo_sim brk al' Hos Ha' _ _ S1) as (b2 & E2 & S2).
  assert (Ge : me_group e = None) by (pose proof (s_group _ _ S) as Y; rewrite G in Y; now destruct (me_group e)).
  exists b1, b2. split; [exact E1|].
  assert (T1 : me_text (m_edit brk al e (Put d p)) = m_insert brk al d p (me_text e)).
  { unfold m_edit. now rewrite Ge. }
  assert (T2 : me_text (m_undo brk al' (m_edit brk al e (Put d p))) = m_delete brk p (text_end brk p d) (m_insert brk al d p (me_text e))).
  { unfold m_edit. rewrite Ge. reflexivity. }
  split; [rewrite (sim_whole _ _ S1), T1, Wi; reflexivity|]. split; [exact E2|].
  split; [rewrite (sim_whole _ _ S2), T2, Wd; reflexivity|].
  rewrite <- Wd, <- T2. apply once_undivided; [apply S2|]. rewrite T2. exact Od.
Qed.

(** A text that has just been loaded or replaced is in one piece. *)
Lemma new_once brk al s : once brk (m_new al s).
Proof. unfold once, whole. cbn [m_new ahead behind graphemes]. now rewrite !app_nil_r. Qed.
Lemma fresh_undivided brk f b : fresh_buffer f b -> exists t, buf_data b = Ok t /\ undivided brk b t.
Proof.
  intros F. apply fresh_start in F as (e & S & _). pose proof (start_sim _ _ S) as S'. exists (whole (me_text e)).
  split; [now apply sim_whole|]. apply once_undivided; [apply S'|].
  destruct S as [(al & f' & _ & ->)|(al & f' & p & cp & t & _ & _ & _ & ->)]; apply new_once.
Qed.
Lemma replaced_undivided cls b f al s t : cls LF = GC_LF -> reachable_buffer (uax29 cls) b f -> alloc_ok al -> valid_text s ->
  buf_data b = Ok t -> s <> t ->
  exists b', buf_replace (uax29 cls) al b s = Ok b' /\ buf_data b' = Ok s /\ undivided (uax29 cls) b' s.
Proof.
  intros Hc R Ha V Et Ne. pose proof (uax29_order_safe cls Hc) as Hos.
  apply reachable_sim in R as (e & S & _); [|exact Hos]. destruct (swap_sim _ al Hos Ha b e s S V) as (b' & E & S').
  exists b'. split; [exact E|]. rewrite (sim_whole _ _ S) in Et. injection Et as Et.
  assert (T : me_text (m_swap (uax29 cls) al e s) = m_new al s).
  { unfold m_swap. destruct (list_eq_dec N.eq_dec s _); [congruence|]. unfold m_edit. now destruct (me_group e). }
  assert (W : whole (m_new al s) = s) by apply app_nil_r.
  split; [rewrite (sim_whole _ _ S'), T, W; reflexivity|].
  pose proof (once_undivided (uax29 cls) b' _ (s_text _ _ S')) as X. rewrite T, W in X. apply X, new_once.
Qed.

(** ** The origin *)
Lemma origin_everywhere : (forall p, lex_le pos_new p) /\
  (forall cls b f, cls LF = GC_LF -> reachable_buffer (uax29 cls) b f -> in_bounds (uax29 cls) (b_data b) pos_new = Ok true).
Proof.
  split.
  - intros [l o]. unfold lex_le, lex_lt, pos_new. cbn [line offset]. destruct l; [|right; lia]. destruct o; [now left|right; lia].
  - intros cls b f Hc R. apply reachable_sim in R as (e & S & _); [|now apply uax29_order_safe].
    rewrite (bounds_msim _ _ _ _ (s_text _ _ S)). fold (has (uax29 cls) (me_text e) pos_new). f_equal.
    apply first_line_has; [now apply uax29_order_safe|lia].
Qed.
