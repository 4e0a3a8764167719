(** Consequences of the halves layer that hold for every text and every
    segmentation: integrity, absence of panics, independence of fresh memory. *)
From Verif Require Import Base Utf8 Utf8Proofs Grapheme GraphemeProofs Position GapBuffer
  GapBufferProofs Spec Calls TextProofs UaxProofs.

(** ** Reachable buffers are represented by two valid halves *)

Lemma reach_call brk al c g s1 s2 o g' :
  alloc_ok al -> match c with GInsert d _ => valid_text d | _ => True end ->
  rep g s1 s2 -> gexec brk al c g = Ok (o, g') -> exists h1 h2, rep g' h1 h2.
Proof.
  intros Hal Hv Hrep E. destruct c as [d p|p q|p q|p|]; cbn [gexec] in E.
  - pose proof (insert_halves brk al g s1 s2 d p Hal Hrep Hv) as X.
    destruct (lookup_halves g d s1 s2) as [h1 h2]. destruct X as (g1 & E1 & X). rewrite E1 in E.
    injection E as <- <-. destruct (hsplit brk h1 h2 p) as [[pre post]|]; eauto.
  - rewrite range_new_ordered in E.
    pose proof (delete_ok brk g s1 s2 (first_of p q) (second_of p q) Hrep) as X.
    destruct (hsplit brk s1 s2 (first_of p q)) as [[pre post]|].
    + destruct (delete_halves _ _ _ _) as [t2|].
      * destruct X as (g1 & E1 & X). rewrite E1 in E. injection E as <- <-. eauto.
      * rewrite X in E. discriminate.
    + rewrite X in E. injection E as <- <-. eauto.
  - destruct (gb_read _ _ _); [|discriminate]. injection E as <- <-. eauto.
  - destruct (in_bounds _ _ _); [|discriminate]. injection E as <- <-. eauto.
  - destruct (gb_to_string _); [|discriminate]. injection E as <- <-. eauto.
Qed.

Lemma reach_run brk cs : forall g s1 s2 os g',
  Forall (fun ac => alloc_ok (fst ac)) cs ->
  Forall (fun ac => match snd ac with GInsert d _ => valid_text d | _ => True end) cs ->
  rep g s1 s2 -> grun brk cs g = Ok (os, g') -> exists h1 h2, rep g' h1 h2.
Proof.
  induction cs as [|[al c] cs IH]; intros g s1 s2 os g' Hal Hv Hrep E; cbn [grun] in E.
  - injection E as <- <-. eauto.
  - inversion_clear Hal as [|? ? Ha Hal']. inversion_clear Hv as [|? ? Hd Hv'].
    destruct (gexec brk al c g) as [[o g1]|] eqn:E1; [|discriminate]. cbn [bind] in E.
    destruct (reach_call _ _ _ _ _ _ _ _ Ha Hd Hrep E1) as (h1 & h2 & Hrep1).
    destruct (grun brk cs g1) as [[os' g2]|] eqn:E2; [|discriminate]. cbn [bind] in E.
    injection E as <- <-. eapply IH; eassumption.
Qed.

Lemma reachable_rep brk g : reachable brk g -> exists s1 s2, rep g s1 s2.
Proof.
  intros (al & s & cs & os & V & Hal & Hv & E). unfold gsession in E.
  destruct (new_ok al s V) as (g0 & E0 & Hrep). rewrite E0 in E. cbn [bind] in E.
  eapply reach_run; eassumption.
Qed.

(** ** Integrity *)

Lemma insert_integrity brk g al data p :
  reachable brk g -> alloc_ok al -> valid_text data ->
  exists t g' t', gb_to_string g = Ok t /\ gb_insert brk al g data p = Ok g'
    /\ gb_to_string g' = Ok t'
    /\ (t' = t \/ exists a b, t = a ++ b /\ t' = a ++ data ++ b).
Proof.
  intros Hr Hal Hv. destruct (reachable_rep _ _ Hr) as (s1 & s2 & Hrep).
  pose proof (insert_halves brk al g s1 s2 data p Hal Hrep Hv) as X.
  assert (Eh : let '(h1, h2) := lookup_halves g data s1 s2 in h1 ++ h2 = s1 ++ s2).
  { unfold lookup_halves. destruct (_ <? _); [apply app_nil_r|reflexivity]. }
  destruct (lookup_halves g data s1 s2) as [h1 h2]. destruct X as (g' & E & X).
  rewrite (to_string_ok _ _ _ Hrep), E. exists (s1 ++ s2), g'.
  destruct (hsplit brk h1 h2 p) as [[pre post]|] eqn:Es.
  - exists ((concat pre ++ data) ++ concat post). repeat split; [now apply to_string_ok|].
    right. exists (concat pre), (concat post). rewrite <- Eh, <- app_assoc. split; [|reflexivity].
    now apply hsplit_concat in Es.
  - exists (h1 ++ h2). repeat split; [now apply to_string_ok|]. now left.
Qed.

Lemma delete_integrity brk g p q g' :
  reachable brk g -> gb_delete brk g (range_new p q) = Ok g' ->
  exists a m b, gb_to_string g = Ok (a ++ m ++ b) /\ gb_to_string g' = Ok (a ++ b).
Proof.
  intros Hr. destruct (reachable_rep _ _ Hr) as (s1 & s2 & Hrep). rewrite range_new_ordered.
  pose proof (delete_ok brk g s1 s2 (first_of p q) (second_of p q) Hrep) as X.
  rewrite (to_string_ok _ _ _ Hrep).
  destruct (hsplit brk s1 s2 (first_of p q)) as [[pre post]|] eqn:Es.
  - destruct (delete_halves _ _ _ _) as [t2|] eqn:Ed.
    + destruct X as (g1 & -> & X). intros H; injection H as <-.
      assert (Hsuf : exists m, concat post = m ++ t2).
      { assert (D : forall x r, delete_to brk (concat pre) (concat post) x = Some (Some r) ->
                  exists m, concat post = m ++ r).
        { intros x r. unfold delete_to. destruct (hsplit brk _ _ x) as [[a b]|] eqn:Ex; [|discriminate].
          destruct (Nat.ltb_spec (blen (concat a)) (blen (concat pre))) as [|Hge]; [discriminate|].
          intros H; injection H as <-. apply hsplit_concat in Ex.
          destruct (app_split_le _ _ _ _ Ex Hge) as (m & _ & ->). eauto. }
        unfold delete_halves in Ed.
        destruct (delete_to brk _ _ (second_of p q)) as [r|] eqn:E1.
        - subst r. eauto.
        - destruct (delete_to brk _ _ (Pos _ 0)) as [r|] eqn:E2.
          + subst r. eauto.
          + injection Ed as <-. exists (concat post). now rewrite app_nil_r. }
      destruct Hsuf as (m & Hm). exists (concat pre), m, t2.
      rewrite (hsplit_concat _ _ _ _ _ _ Es), Hm. split; [reflexivity|].
      now apply to_string_ok in X.
    + rewrite X. discriminate.
  - rewrite X. intros H; injection H as <-. exists (s1 ++ s2), [], [].
    rewrite !app_nil_r. split; [reflexivity|]. now apply to_string_ok.
Qed.

Lemma read_integrity brk g p q :
  reachable brk g ->
  exists t r, gb_to_string g = Ok t /\ gb_read brk g (range_new p q) = Ok r
    /\ forall m, r = Some m -> exists a b, t = a ++ m ++ b.
Proof.
  intros Hr. destruct (reachable_rep _ _ Hr) as (s1 & s2 & Hrep). rewrite range_new_ordered.
  rewrite (to_string_ok _ _ _ Hrep).
  rewrite (read_halves _ _ _ _ _ _ Hrep (first_second_ple p q)).
  do 2 eexists. split; [reflexivity|]. split; [reflexivity|]. intros m.
  destruct (hsplit brk s1 s2 (first_of p q)) as [[pre post]|] eqn:E1; [|discriminate].
  destruct (hsplit brk s1 s2 (second_of p q)) as [[pre' post']|] eqn:E2; [|discriminate].
  intros H; injection H as <-.
  destruct (gsplit_mono _ _ _ _ _ _ _ _ E1 E2 (first_second_ple p q)) as (k & -> & ->).
  rewrite skipn_app, skipn_all, Nat.sub_diag. cbn [skipn app].
  exists (concat pre), (concat post'). rewrite (hsplit_concat _ _ _ _ _ _ E1).
  now rewrite concat_app.
Qed.

Lemma in_bounds_total brk g p : reachable brk g -> exists b, in_bounds brk g p = Ok b.
Proof.
  intros Hr. destruct (reachable_rep _ _ Hr) as (s1 & s2 & Hrep).
  rewrite (in_bounds_halves _ _ _ _ _ Hrep). eauto.
Qed.

Lemma reachable_new brk al s : valid_text s -> exists g, gb_new al s = Ok g /\ reachable brk g
  /\ gb_to_string g = Ok s.
Proof.
  intros V. destruct (new_ok al s V) as (g & E & H). exists g. split; [assumption|]. split.
  - exists al, s, [], []. repeat split; try constructor; [assumption|]. unfold gsession. now rewrite E.
  - rewrite (to_string_ok _ _ _ H). now rewrite app_nil_r.
Qed.

Lemma grun_app brk cs ds : forall g os1 g1 os2 g2,
  grun brk cs g = Ok (os1, g1) -> grun brk ds g1 = Ok (os2, g2) ->
  grun brk (cs ++ ds) g = Ok (os1 ++ os2, g2).
Proof.
  induction cs as [|[al c] cs IH]; intros g os1 g1 os2 g2 H1 H2; cbn [app grun] in *.
  - injection H1 as <- <-. exact H2.
  - destruct (gexec brk al c g) as [[o g']|]; [|discriminate]. cbn [bind] in *.
    destruct (grun brk cs g') as [[os g'']|] eqn:E; [|discriminate]. cbn [bind] in H1.
    injection H1 as <- <-. rewrite (IH _ _ _ _ _ E H2). reflexivity.
Qed.

Lemma reachable_exec brk g al c o g' :
  reachable brk g -> alloc_ok al -> match c with GInsert d _ => valid_text d | _ => True end ->
  gexec brk al c g = Ok (o, g') -> reachable brk g'.
Proof.
  intros (al0 & s & cs & os & V & Hal & Hv & E) Ha Hc Ex.
  unfold gsession in E. destruct (gb_new al0 s) as [g0|] eqn:E0; [|discriminate]. cbn [bind] in E.
  exists al0, s, (cs ++ [(al, c)]), (os ++ [o]). repeat split.
  - assumption.
  - apply Forall_app. split; [assumption|]. now repeat constructor.
  - apply Forall_app. split; [assumption|]. now repeat constructor.
  - unfold gsession. rewrite E0. cbn [bind]. eapply grun_app; [exact E|].
    cbn [grun]. rewrite Ex. reflexivity.
Qed.

(** ** Out-of-bounds calls, for every text *)

Lemma insert_oob brk g al data p :
  reachable brk g -> alloc_ok al -> valid_text data -> blen data <= gap_length g ->
  in_bounds brk g p = Ok false -> gb_insert brk al g data p = Ok g.
Proof.
  intros Hr Hal Hv Hfit Hb. unfold gb_insert, ensure_capacity.
  rewrite (proj2 (Nat.ltb_ge _ _)) by assumption. cbn [bind].
  unfold in_bounds in Hb. destruct (find_offset brk g p) as [[off|]|]; try discriminate.
  reflexivity.
Qed.

Lemma delete_oob brk g r :
  in_bounds brk g (r_start r) = Ok false -> gb_delete brk g r = Ok g.
Proof.
  unfold in_bounds, gb_delete. destruct (find_offset brk g (r_start r)) as [[off|]|]; try discriminate.
  reflexivity.
Qed.

Lemma read_oob brk g r b :
  in_bounds brk g (r_start r) = Ok b -> (b = false \/ in_bounds brk g (r_end r) = Ok false) ->
  gb_read brk g r = Ok None.
Proof.
  unfold in_bounds, gb_read. intros H1 H2.
  destruct (find_offset brk g (r_start r)) as [[off|]|]; try discriminate; [|reflexivity].
  cbn [bind] in *. injection H1 as <-. destruct H2 as [H2|H2]; [discriminate|].
  destruct (find_offset brk g (r_end r)) as [[off'|]|]; try discriminate. reflexivity.
Qed.

(** ** No panics *)

(** The first half after moving the gap to a found position is no further than
    the position. *)
Definition order_safe (brk : brk_rule) : Prop :=
  forall a b, ple (pos_after (Pos 0 0) (graphemes brk (a ++ b)))
                  (pos_after (Pos 0 0) (graphemes brk a ++ graphemes brk b)).

Lemma uax29_order_safe cls : cls LF = GC_LF -> order_safe (uax29 cls).
Proof. intros H a b. now apply joint_ple. Qed.

Lemma concat_graphemes_nil brk s gs gs' :
  graphemes brk s = gs ++ gs' -> concat gs' = [] -> gs' = [].
Proof.
  intros H E. destruct gs' as [|u us]; [reflexivity|].
  pose proof (graphemes_nonempty brk s) as X. rewrite H in X. apply Forall_app in X as [_ X].
  inversion_clear X as [|? ? Hu _]. simpl in E. now apply app_eq_nil in E as [E _].
Qed.

Lemma found_not_before brk s1 s2 p pre post x :
  order_safe brk -> hsplit brk s1 s2 p = Some (pre, post) -> ple p x ->
  delete_to brk (concat pre) (concat post) x <> Some None.
Proof.
  intros Hos E Hx. unfold delete_to.
  destruct (hsplit brk (concat pre) (concat post) x) as [[a b]|] eqn:Ex; [|discriminate].
  destruct (Nat.ltb_spec (blen (concat a)) (blen (concat pre))) as [Hlt|]; [|discriminate].
  exfalso.
  (* the end of the first half is at or before p *)
  assert (Hend : ple (pos_after (Pos 0 0) (graphemes brk (concat pre))) p).
  { unfold hsplit, hgs in E. apply gsplit_iff in E as [E <-].
    destruct (app_split_cases _ _ _ _ E) as [(m & Em & _)|(m & -> & Em)].
    - rewrite (graphemes_pre _ _ _ _ Em). now left.
    - rewrite concat_app, graphemes_concat.
      eapply ple_trans; [apply Hos|]. rewrite (graphemes_pre _ _ _ _ Em). now left. }
  unfold hsplit, hgs in Ex. apply gsplit_iff in Ex as [Ex Ep].
  destruct (app_split_cases _ _ _ _ Ex) as [(m & Em & _)|(m & -> & Em)].
  - rewrite Em, pos_after_app, Ep in Hend.
    destruct m as [|u m].
    + rewrite app_nil_r in Em. rewrite <- Em, graphemes_concat in Hlt. lia.
    + eapply plt_not_ple; [|exact (ple_trans _ _ _ Hend Hx)]. apply pos_after_plt. discriminate.
  - rewrite concat_app, graphemes_concat, blen_app in Hlt. lia.
Qed.

Lemma delete_no_panic brk g s1 s2 p q :
  order_safe brk -> rep g s1 s2 ->
  exists g', gb_delete brk g (range_new p q) = Ok g' /\ exists h1 h2, rep g' h1 h2.
Proof.
  intros Hos Hrep. rewrite range_new_ordered.
  pose proof (delete_ok brk g s1 s2 (first_of p q) (second_of p q) Hrep) as X.
  pose proof (first_second_ple p q) as Hle.
  destruct (hsplit brk s1 s2 (first_of p q)) as [[pre post]|] eqn:Es; [|eauto].
  unfold delete_halves in X.
  pose proof (found_not_before _ _ _ _ _ _ _ Hos Es Hle) as N1.
  assert (Hn : ple (first_of p q) (Pos (line (second_of p q) + 1) 0)).
  { eapply ple_trans; [exact Hle|]. right. unfold plt; simpl; lia. }
  pose proof (found_not_before _ _ _ _ _ _ _ Hos Es Hn) as N2.
  destruct (delete_to brk _ _ (second_of p q)) as [[r|]|].
  - destruct X as (g' & E & X). eauto.
  - contradiction.
  - destruct (delete_to brk _ _ (Pos _ 0)) as [[r|]|].
    + destruct X as (g' & E & X). eauto.
    + contradiction.
    + destruct X as (g' & E & X). eauto.
Qed.

Lemma exec_no_panic brk al c g s1 s2 :
  order_safe brk -> alloc_ok al -> match c with GInsert d _ => valid_text d | _ => True end ->
  rep g s1 s2 -> exists o g' h1 h2, gexec brk al c g = Ok (o, g') /\ rep g' h1 h2.
Proof.
  intros Hos Hal Hv Hrep. destruct c as [d p|p q|p q|p|]; cbn [gexec].
  - pose proof (insert_halves brk al g s1 s2 d p Hal Hrep Hv) as X.
    destruct (lookup_halves g d s1 s2) as [h1 h2]. destruct X as (g' & -> & X). cbn [bind].
    destruct (hsplit brk h1 h2 p) as [[pre post]|]; eauto 6.
  - destruct (delete_no_panic brk g s1 s2 p q Hos Hrep) as (g' & -> & h1 & h2 & X). cbn [bind]. eauto 6.
  - rewrite range_new_ordered, (read_halves _ _ _ _ _ _ Hrep (first_second_ple p q)).
    cbn [bind]. eauto 6.
  - rewrite (in_bounds_halves _ _ _ _ _ Hrep). cbn [bind]. eauto 6.
  - rewrite (to_string_ok _ _ _ Hrep). cbn [bind]. eauto 6.
Qed.

Lemma run_no_panic brk cs : order_safe brk -> forall g s1 s2,
  Forall (fun ac => alloc_ok (fst ac)) cs ->
  Forall (fun ac => match snd ac with GInsert d _ => valid_text d | _ => True end) cs ->
  rep g s1 s2 -> exists os g', grun brk cs g = Ok (os, g').
Proof.
  intros Hos. induction cs as [|[al c] cs IH]; intros g s1 s2 Hal Hv Hrep; cbn [grun].
  - eauto.
  - inversion_clear Hal as [|? ? Ha Hal']. inversion_clear Hv as [|? ? Hd Hv'].
    destruct (exec_no_panic brk al c g s1 s2 Hos Ha Hd Hrep) as (o & g1 & h1 & h2 & -> & Hrep1).
    cbn [bind]. destruct (IH g1 h1 h2 Hal' Hv' Hrep1) as (os & g' & ->). cbn [bind]. eauto.
Qed.

Lemma session_no_panic cls al s cs :
  cls LF = GC_LF -> valid_text s ->
  Forall (fun ac => alloc_ok (fst ac)) cs ->
  Forall (fun ac => match snd ac with GInsert d _ => valid_text d | _ => True end) cs ->
  exists os g, gsession (uax29 cls) al s cs = Ok (os, g).
Proof.
  intros Hc V Hal Hv. unfold gsession. destruct (new_ok al s V) as (g & -> & Hrep). cbn [bind].
  eapply run_no_panic; try eassumption. now apply uax29_order_safe.
Qed.

(** ** Contents of fresh memory *)

Lemma upd_length {A} (v : list A) : forall i x w, upd v i x = Ok w -> length w = length v.
Proof.
  induction v as [|y v IH]; intros i x w H; [discriminate|].
  destruct i as [|i]; cbn [upd] in H; [now injection H as <-|].
  destruct (upd v i x) as [u|] eqn:E; [|discriminate]. injection H as <-. simpl. f_equal. eauto.
Qed.

Lemma for_each_length {A B} (xs : list A) (body : A -> list B -> res (list B)) :
  (forall x d d', body x d = Ok d' -> length d' = length d) ->
  forall d d', for_each xs d body = Ok d' -> length d' = length d.
Proof.
  intros H. induction xs as [|x xs IH]; intros d d' E; cbn [for_each] in E; [now injection E as <-|].
  destruct (body x d) as [d1|] eqn:E1; [|discriminate]. cbn [bind] in E.
  apply H in E1. apply IH in E. congruence.
Qed.

Lemma move_gap_vlen g off g' : move_gap g off = Ok g' -> vlen (gb_data g') = vlen (gb_data g).
Proof.
  unfold move_gap. destruct (_ =? 0); [intros H; now injection H as <-|].
  destruct (Nat.compare off (gap_start g)).
  - intros H; now injection H as <-.
  - destruct (for_each _ _ _) as [d|] eqn:E; [|discriminate]. intros H; injection H as <-.
    apply for_each_length in E; [exact E|]. clear. intros x d d' H. unfold shift_left_body in H.
    destruct (get d x) as [v|]; [|discriminate]. cbn [bind] in H.
    destruct (upd d (x + gap_length g) v) as [d1|] eqn:E1; [|discriminate]. cbn [bind] in H.
    apply upd_length in E1. apply upd_length in H. congruence.
  - destruct (for_each _ _ _) as [d|] eqn:E; [|discriminate]. cbn [bind].
    destruct (usub off (gap_length g)); [|discriminate]. intros H; injection H as <-.
    apply for_each_length in E; [exact E|]. clear. intros x d d' H. unfold shift_right_body in H.
    destruct (get d x) as [v|]; [|discriminate]. cbn [bind] in H.
    destruct (usub x (gap_length g)) as [tg|]; [|discriminate]. cbn [bind] in H.
    destruct (upd d tg v) as [d1|] eqn:E1; [|discriminate]. cbn [bind] in H.
    apply upd_length in E1. apply upd_length in H. congruence.
Qed.

Lemma write_to_gap_vlen data : forall g g', write_to_gap g data = Ok g' ->
  vlen (gb_data g') = vlen (gb_data g).
Proof.
  unfold write_to_gap. generalize (enc data) as bs. induction bs as [|b bs IH]; intros g g' H.
  - now injection H as <-.
  - cbn [for_each] in H. destruct (upd (bytes g) (gap_start g) b) as [d|] eqn:E; [|discriminate].
    cbn [bind] in H. destruct (usub (gap_length g) 1) as [gl|]; [|discriminate]. cbn [bind] in H.
    apply IH in H. rewrite H. unfold vlen; simpl. now apply upd_length in E.
Qed.

Lemma ensure_capacity_vlen al g s1 s2 data g' :
  rep g s1 s2 -> ensure_capacity al g data = Ok g' ->
  vlen (gb_data g') = if gap_length g <? blen data
                      then vlen (gb_data g) + length (al (vlen (gb_data g)) (blen data))
                      else vlen (gb_data g).
Proof.
  intros Hrep. unfold ensure_capacity.
  destruct (Nat.ltb_spec (gap_length g) (blen data)) as [Hlt|Hge]; [|intros H; now injection H as <-].
  assert (Hcap : vcap (gb_data g) = phys g s1 (s1 ++ s2)).
  { pose proof (rep_vlen _ _ _ Hrep) as HL. unfold phys.
    rewrite blen_app, (proj2 (Nat.ltb_ge _ _)) by lia.
    destruct Hrep as (_ & _ & G & E & _ & _). unfold vcap, vlen in *.
    rewrite E in *; cbn [v_spare length] in *. lia. }
  destruct (move_gap_ok g s1 s2 (s1 ++ s2) [] _ Hrep (eq_sym (app_nil_r _)) Hcap)
    as (g1 & E1 & Hrep1 & _).
  rewrite E1. cbn [bind]. rewrite <- (move_gap_vlen _ _ _ E1).
  destruct Hrep1 as (_ & _ & G & E & _ & _). unfold vreserve. rewrite E. cbn [v_spare length].
  destruct (Nat.leb_spec (blen data) 0) as [|_]; [lia|].
  destruct (usub _ _) as [gl|]; [|discriminate]. cbn [bind].
  unfold vset_len. rewrite Nat.leb_refl. cbn [bind]. intros H; injection H as <-.
  unfold vlen, vcap; cbn [v_init v_spare gb_data].
  rewrite firstn_all2 by (rewrite app_length; lia). now rewrite !app_length.
Qed.

Lemma insert_vlen brk al g s1 s2 data p g' :
  alloc_ok al -> rep g s1 s2 -> gb_insert brk al g data p = Ok g' ->
  vlen (gb_data g') = if gap_length g <? blen data
                      then vlen (gb_data g) + length (al (vlen (gb_data g)) (blen data))
                      else vlen (gb_data g).
Proof.
  intros Hal Hrep. unfold gb_insert.
  destruct (ensure_capacity al g data) as [g1|] eqn:E1; [|discriminate]. cbn [bind].
  rewrite <- (ensure_capacity_vlen _ _ _ _ _ _ Hrep E1).
  destruct (find_offset brk g1 p) as [[off|]|]; [|intros H; now injection H as <-|discriminate].
  cbn [bind]. destruct (move_gap g1 off) as [g2|] eqn:E2; [|discriminate]. cbn [bind].
  intros E3. apply write_to_gap_vlen in E3. apply move_gap_vlen in E2. congruence.
Qed.

Lemma delete_vlen brk g r g' : gb_delete brk g r = Ok g' -> vlen (gb_data g') = vlen (gb_data g).
Proof.
  unfold gb_delete. destruct (find_offset brk g (r_start r)) as [[off|]|];
    [|intros H; now injection H as <-|discriminate].
  cbn [bind]. destruct (move_gap g off) as [g2|] eqn:E2; [|discriminate]. cbn [bind].
  apply move_gap_vlen in E2. rewrite <- E2. clear E2.
  destruct (find_offset brk g2 (r_end r)) as [[e|]|]; [| |discriminate]; cbn [bind].
  - destruct (usub _ _); [|discriminate]. intros H; now injection H as <-.
  - destruct (find_offset brk g2 _) as [[e|]|]; [| |discriminate]; cbn [bind].
    + destruct (usub _ _); [|discriminate]. intros H; now injection H as <-.
    + destruct (usub _ _); [|discriminate]. intros H; now injection H as <-.
Qed.

(** Same halves, same sizes; the bytes in the gap may differ. *)
Definition alike (g g' : gapbuf) : Prop :=
  exists s1 s2, rep g s1 s2 /\ rep g' s1 s2 /\ vlen (gb_data g) = vlen (gb_data g').

Lemma alike_gap g g' s1 s2 : rep g s1 s2 -> rep g' s1 s2 ->
  vlen (gb_data g) = vlen (gb_data g') -> gap_length g = gap_length g'.
Proof. intros H H' E. apply rep_vlen in H, H'. lia. Qed.

Definition res_alike (r r' : res (gout * gapbuf)) : Prop :=
  match r, r' with
  | Ok (o, g), Ok (o', g') => o = o' /\ alike g g'
  | Panic, Panic => True
  | _, _ => False
  end.

Lemma alike_exec brk al al' c g g' :
  alloc_ok al -> same_sizes al al' ->
  match c with GInsert d _ => valid_text d | _ => True end ->
  alike g g' -> res_alike (gexec brk al c g) (gexec brk al' c g').
Proof.
  intros Hal Hs Hv (s1 & s2 & R & R' & EL).
  assert (Hal' : alloc_ok al') by (intros n a; rewrite <- Hs; apply Hal).
  pose proof (alike_gap _ _ _ _ R R' EL) as EG.
  destruct c as [d p|p q|p q|p|]; cbn [gexec].
  - pose proof (insert_halves brk al g s1 s2 d p Hal R Hv) as X.
    pose proof (insert_halves brk al' g' s1 s2 d p Hal' R' Hv) as X'.
    assert (El : lookup_halves g' d s1 s2 = lookup_halves g d s1 s2)
      by (unfold lookup_halves; now rewrite EG).
    rewrite El in X'. destruct (lookup_halves g d s1 s2) as [h1 h2].
    destruct X as (g1 & E1 & X). destruct X' as (g1' & E1' & X'). rewrite E1, E1'. cbn [bind].
    split; [reflexivity|].
    pose proof (insert_vlen _ _ _ _ _ _ _ _ Hal R E1) as V1.
    pose proof (insert_vlen _ _ _ _ _ _ _ _ Hal' R' E1') as V1'.
    rewrite <- EG, <- EL, <- Hs in V1'.
    destruct (hsplit brk h1 h2 p) as [[pre post]|]; do 2 eexists;
      (split; [eassumption|split; [eassumption|congruence]]).
  - rewrite !range_new_ordered.
    pose proof (delete_ok brk g s1 s2 (first_of p q) (second_of p q) R) as X.
    pose proof (delete_ok brk g' s1 s2 (first_of p q) (second_of p q) R') as X'.
    destruct (hsplit brk s1 s2 (first_of p q)) as [[pre post]|].
    + destruct (delete_halves _ _ _ _) as [t2|].
      * destruct X as (g1 & E1 & X). destruct X' as (g1' & E1' & X'). rewrite E1, E1'. cbn [bind].
        split; [reflexivity|]. apply delete_vlen in E1, E1'.
        exists (concat pre), t2. split; [assumption|]. split; [assumption|congruence].
      * rewrite X, X'. exact I.
    + rewrite X, X'. cbn [bind]. split; [reflexivity|]. now exists s1, s2.
  - rewrite !range_new_ordered, (read_halves _ _ _ _ _ _ R (first_second_ple p q)),
      (read_halves _ _ _ _ _ _ R' (first_second_ple p q)).
    cbn [bind]. split; [reflexivity|]. now exists s1, s2.
  - rewrite (in_bounds_halves _ _ _ _ _ R), (in_bounds_halves _ _ _ _ _ R').
    split; [reflexivity|]. now exists s1, s2.
  - rewrite (to_string_ok _ _ _ R), (to_string_ok _ _ _ R').
    split; [reflexivity|]. now exists s1, s2.
Qed.

Lemma alike_run brk cs : forall als g g',
  length als = length cs ->
  Forall (fun ac => alloc_ok (fst ac)) cs ->
  Forall2 same_sizes (map fst cs) als ->
  Forall (fun ac => match snd ac with GInsert d _ => valid_text d | _ => True end) cs ->
  alike g g' ->
  outputs (grun brk cs g) = outputs (grun brk (combine als (map snd cs)) g').
Proof.
  induction cs as [|[al c] cs IH]; intros als g g' HL Hal Hs Hv H; destruct als as [|al' als];
    try discriminate; [reflexivity|].
  inversion_clear Hal as [|? ? Ha Hal']. inversion_clear Hv as [|? ? Hd Hv'].
  cbn [map fst] in Hs. inversion_clear Hs as [|? ? ? ? Hss Hs']. cbn [fst snd] in *.
  cbn [map combine grun snd]. pose proof (alike_exec brk al al' c g g' Ha Hss Hd H) as X.
  destruct (gexec brk al c g) as [[o g1]|], (gexec brk al' c g') as [[o' g1']|];
    cbn [res_alike] in X; try contradiction; [|reflexivity].
  destruct X as [-> X]. cbn [bind]. injection HL as HL.
  specialize (IH als g1 g1' HL Hal' Hs' Hv' X).
  destruct (grun brk cs g1) as [[os g2]|], (grun brk (combine als (map snd cs)) g1') as [[os' g2']|];
    cbn [outputs bind] in *; congruence.
Qed.

Lemma session_fresh_memory brk al al' s cs als :
  valid_text s -> same_sizes al al' ->
  Forall (fun ac => alloc_ok (fst ac)) cs ->
  Forall2 same_sizes (map fst cs) als ->
  Forall (fun ac => match snd ac with GInsert d _ => valid_text d | _ => True end) cs ->
  outputs (gsession brk al s cs) = outputs (gsession brk al' s (combine als (map snd cs))).
Proof.
  intros V Hss Hal Hs Hv. unfold gsession.
  destruct (new_ok al s V) as (g & E & R). destruct (new_ok al' s V) as (g' & E' & R').
  rewrite E, E'. cbn [bind]. apply alike_run; try assumption.
  - enough (X : length (map fst cs) = length als) by (rewrite map_length in X; now symmetry).
    clear -Hs. induction Hs; simpl; congruence.
  - exists s, []. split; [assumption|]. split; [assumption|].
    clear -E E' Hss. unfold gb_new in E, E'.
    destruct (usub _ _) as [gl|]; [|discriminate]. destruct (usub _ _) as [gl'|] in E'; [|discriminate].
    cbn [bind] in E, E'. unfold vset_len in E, E'. rewrite Nat.leb_refl in E, E'. cbn [bind] in E, E'.
    injection E as <-. injection E' as <-. unfold vlen, vcap; simpl.
    rewrite !firstn_all2 by (rewrite app_length; lia). rewrite !app_length. now rewrite Hss.
Qed.

(** ** Buffers that read as their text *)

(** Reading up to the gap shows that no cluster straddles it. *)
Lemma coherent_holds brk g t : coherent brk g t -> holds brk g t /\ plain_newlines brk t.
Proof.
  intros (Hr & Hp & Et & Hread). split; [|assumption].
  destruct (reachable_rep _ _ Hr) as (s1 & s2 & Hrep).
  rewrite (to_string_ok _ _ _ Hrep) in Et. injection Et as <-.
  exists s1, s2. split; [assumption|]. split; [reflexivity|].
  pose (m := pos_after (Pos 0 0) (graphemes brk s1)).
  assert (Hm : hsplit brk s1 s2 m = Some (graphemes brk s1, graphemes brk s2))
    by now apply gsplit_iff.
  assert (H0 : hsplit brk s1 s2 (Pos 0 0) = Some ([], hgs brk s1 s2)) by now apply gsplit_iff.
  assert (Hle : ple (Pos 0 0) m) by apply pos_after_ple.
  specialize (Hread (Pos 0 0) m). rewrite range_new_ordered in Hread.
  rewrite (read_halves _ _ _ _ _ _ Hrep (first_second_ple _ _)) in Hread.
  assert (Eo : first_of (Pos 0 0) m = Pos 0 0 /\ second_of (Pos 0 0) m = m).
  { unfold first_of, second_of. destruct (before m (Pos 0 0)) eqn:Eb; [|now split].
    unfold before in Eb. cbn [line offset] in Eb.
    rewrite !(proj2 (Nat.ltb_ge _ 0)) in Eb by lia. now rewrite andb_false_r in Eb. }
  unfold spec_read in Hread. destruct Eo as [E1 E2]. rewrite E1, E2 in Hread.
  rewrite Hm, H0, !gsplit_split_at in Hread by assumption.
  destruct (gsplit (graphemes brk (s1 ++ s2)) (Pos 0 0) (Pos 0 0)) as [[a b]|] eqn:Ea; [|discriminate].
  destruct (gsplit (graphemes brk (s1 ++ s2)) (Pos 0 0) m) as [[a' b']|] eqn:Eb; [|discriminate].
  apply gsplit_iff in Ea as [Ea Pa]. apply gsplit_iff in Eb as [Eb _].
  assert (a = []) as ->.
  { destruct a as [|u a]; [reflexivity|]. exfalso.
    apply (plt_irrefl (Pos 0 0)). rewrite <- Pa at 2. apply pos_after_plt. discriminate. }
  cbn [concat length skipn] in Hread. rewrite graphemes_concat in Hread. injection Hread as Hread.
  assert (Es : concat a' = s1) by (symmetry; exact Hread).
  assert (Es2 : concat b' = s2).
  { pose proof (graphemes_concat brk (s1 ++ s2)) as X. rewrite Eb, concat_app, Es in X.
    now apply app_inv_head in X. }
  rewrite <- Es, <- Es2. eapply seam_split. exact Eb.
Qed.

Lemma holds_coherent brk g t : reachable brk g -> holds brk g t -> plain_newlines brk t ->
  coherent brk g t.
Proof.
  intros Hr H Hp. split; [assumption|]. split; [assumption|]. split; [now apply holds_to_string in H|].
  intros p q. now apply holds_read.
Qed.

Lemma new_coherent brk al s : valid_text s -> plain_newlines brk s ->
  exists g, gb_new al s = Ok g /\ coherent brk g s.
Proof.
  intros V Hp. destruct (holds_new brk al s V) as (g & E & H). exists g. split; [assumption|].
  destruct (reachable_new brk al s V) as (g' & E' & R & _). rewrite E in E'. injection E' as <-.
  now apply holds_coherent.
Qed.

Lemma clean_reachable brk cs : forall s, clean_calls brk cs s ->
  Forall (fun c => match c with GInsert d _ => valid_text d | _ => True end) cs.
Proof.
  induction cs as [|c cs IH]; intros s H; [constructor|]. cbn [clean_calls] in H. destruct H as [H1 H2].
  constructor; [|eapply IH; exact H2]. destruct c; [apply H1|exact I..].
Qed.

Lemma clean_coherent brk g t : clean_buffer brk g t -> coherent brk g t.
Proof.
  intros H. destruct (clean_buffer_holds _ _ _ H) as [Hh Hp]. apply holds_coherent; [|assumption..].
  destruct H as (al & s & cs & os & (V & _ & Hal & Hc) & E & _).
  exists al, s, cs, os. split; [assumption|]. split; [assumption|]. split; [|assumption].
  apply clean_reachable in Hc. rewrite Forall_map in Hc. exact Hc.
Qed.
