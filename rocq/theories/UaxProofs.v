(** Facts about the UAX #29 rules: joining two texts never moves the end
    forward, and families of clusters that never merge. *)
From Verif Require Export ClusterSpec.
From Verif Require Import Base Utf8 Utf8Proofs Grapheme GraphemeProofs Position GapBuffer
  GapBufferProofs.

Definition mark (k : gcb) : bool :=
  match k with GC_Extend | GC_ZWJ | GC_SpacingMark => true | _ => false end.

Lemma emoji_ctx_app a b : emoji_ctx a = true -> emoji_ctx (a ++ b) = true.
Proof. induction a as [|k a IH]; [discriminate|]. destruct k; simpl; auto. Qed.

Lemma only_left_breaks rsc rx k :
  rsc <> [] -> uax29_cls (rsc ++ rx) k = true -> uax29_cls rsc k = false ->
  k = GC_Regional_Indicator /\ (exists ctx, rsc = GC_Regional_Indicator :: ctx)
  /\ Nat.even (ri_run rsc) = false.
Proof.
  destruct rsc as [|b ctx]; [contradiction|]. intros _ H1 H2.
  destruct b, k; simpl in H1, H2; try discriminate.
  - exfalso. destruct (emoji_ctx ctx) eqn:E; [|discriminate].
    rewrite (emoji_ctx_app _ rx E) in H1. discriminate.
  - split; [reflexivity|]. split; [exists ctx; reflexivity|exact H2].
Qed.

Lemma emoji_ctx_marks rw : Forall (fun k => mark k = true) rw -> forall r,
  emoji_ctx (rw ++ GC_Regional_Indicator :: r) = false.
Proof.
  induction 1 as [|k rw Hk Hrw IH]; intros r; [reflexivity|]. destruct k; try discriminate; simpl; auto.
Qed.

Lemma flag_context rw ry k :
  Forall (fun k => mark k = true) rw -> Nat.even (ri_run (GC_Regional_Indicator :: ry)) = true ->
  let j := uax29_cls (rw ++ [GC_Regional_Indicator]) k in
  let s := uax29_cls (rw ++ GC_Regional_Indicator :: ry) k in
  (j = s /\ (j = false -> mark k = true))
  \/ (rw = [] /\ k = GC_Regional_Indicator /\ j = false /\ s = true).
Proof.
  intros Hrw Hev. destruct rw as [|m rw].
  - cbn [app]. destruct k; simpl; try (left; now split).
    right. repeat split. exact Hev.
  - inversion_clear Hrw as [|? ? Hm Hrw']. left. cbn [app].
    destruct m; try discriminate; destruct k; simpl; try (now split).
    rewrite !emoji_ctx_marks by assumption. now split.
Qed.

Section Joint.
  Variable cls : char -> gcb.
  Hypothesis cls_LF : cls LF = GC_LF.
  Let brk := uax29 cls.

  (** Joint cluster and position against split cluster and position. *)
  Inductive sim : text -> text -> position -> position -> Prop :=
  | sim_same c p q : ple p q -> sim c c p q
  | sim_suffix x sc p q : x <> [] -> sc <> [] -> plt p q -> sim (x ++ sc) sc p q
  | sim_flag r w y p q :
      cls r = GC_Regional_Indicator -> Forall (fun c => mark (cls c) = true) w ->
      Nat.even (ri_run (rev (map cls (y ++ [r])))) = true -> ple p q ->
      sim (r :: w) (y ++ r :: w) p q.

  Lemma adv_mono p q c : ple p q -> ple (adv p c) (adv q c).
  Proof.
    intros H. apply ple_spec in H. apply ple_spec. unfold adv. destruct (is_lf c); simpl; lia.
  Qed.
  Lemma adv_plain p c : is_lf c = false -> adv p c = Pos (line p) (offset p + 1).
  Proof. intros H. unfold adv. now rewrite H. Qed.
  Lemma adv_step p q c : is_lf c = false -> plt p q -> ple (adv p c) q.
  Proof.
    intros Hc H. rewrite adv_plain by assumption. apply ple_spec. unfold plt in H. simpl. lia.
  Qed.
  Lemma adv_plain_mono p q c d : is_lf c = false -> ple p q -> ple (adv p c) (adv q d).
  Proof.
    intros Hc H. rewrite adv_plain by assumption. apply ple_spec in H. apply ple_spec.
    unfold adv. destruct (is_lf d); simpl; lia.
  Qed.

  Lemma not_lf_long x sc : x <> [] -> sc <> [] -> is_lf (x ++ sc) = false.
  Proof.
    intros Hx Hs. destruct (is_lf (x ++ sc)) eqn:E; [|reflexivity].
    apply is_lf_iff in E. destruct x as [|a [|b x]]; try contradiction; destruct sc; try contradiction;
      discriminate E.
  Qed.
  Lemma not_lf_flag r w : cls r = GC_Regional_Indicator -> is_lf (r :: w) = false.
  Proof.
    intros Hr. destruct (is_lf (r :: w)) eqn:E; [|reflexivity].
    apply is_lf_iff in E. injection E as -> ->. congruence.
  Qed.

  Lemma sim_end jc sc p q : sim jc sc p q -> ple (adv p jc) (adv q sc).
  Proof.
    destruct 1 as [c p q H|x sc p q Hx Hs H|r w y p q Hr Hw Hev H].
    - now apply adv_mono.
    - eapply ple_trans; [apply adv_step; [now apply not_lf_long|exact H]|]. right. apply adv_plt.
    - apply adv_plain_mono; [now apply not_lf_flag|assumption].
  Qed.

  Lemma rcl_snoc y r : rev (map cls (y ++ [r])) = cls r :: rev (map cls y).
  Proof. rewrite map_app, rev_app_distr. reflexivity. Qed.

  Lemma sim_seg s : forall jc sc p q, sim jc sc p q ->
    ple (pos_after p (seg_from brk jc s)) (pos_after q (seg_from brk sc s)).
  Proof.
    induction s as [|c s IH]; intros jc sc p q H.
    - simpl. now apply sim_end.
    - cbn [seg_from]. inversion H as [c0 p0 q0 Hle|x sc0 p0 q0 Hx Hs Hlt|r w y p0 q0 Hr Hw Hev Hle]; subst.
      + destruct (brk sc c); cbn [pos_after]; apply IH; apply sim_same; [now apply adv_mono|assumption].
      + destruct (brk (x ++ sc) c) eqn:Ej; destruct (brk sc c) eqn:Es; cbn [pos_after]; apply IH.
        * apply sim_same. eapply sim_end; eassumption.
        * unfold brk, uax29 in Ej, Es. rewrite map_app, rev_app_distr in Ej.
          destruct (only_left_breaks (rev (map cls sc)) (rev (map cls x)) (cls c)) as (Hk & (ctx & Hc) & Hev);
            [|assumption|assumption|].
          { destruct sc; [contradiction|]. simpl. intros E. now apply app_eq_nil in E as [_ E]. }
          apply (sim_flag c []); [assumption|constructor| |].
          -- rewrite rcl_snoc, Hk. cbn [ri_run]. rewrite Nat.even_succ, <- Nat.negb_even, Hev. reflexivity.
          -- apply adv_step; [now apply not_lf_long|assumption].
        * rewrite <- app_assoc. rewrite app_assoc. apply sim_suffix; [|discriminate|].
          { destruct x; [contradiction|discriminate]. }
          eapply plt_ple_trans; [exact Hlt|]. right. apply adv_plt.
        * rewrite <- app_assoc. apply sim_suffix; [assumption| |assumption]. now destruct sc.
      + assert (Hj : rev (map cls (r :: w)) = rev (map cls w) ++ [GC_Regional_Indicator]).
        { cbn [map rev]. now rewrite Hr. }
        assert (Hsr : rev (map cls (y ++ r :: w)) =
                      rev (map cls w) ++ GC_Regional_Indicator :: rev (map cls y)).
        { rewrite map_app, rev_app_distr. cbn [map rev]. rewrite Hr, <- app_assoc. reflexivity. }
        rewrite rcl_snoc, Hr in Hev.
        assert (Hm : Forall (fun k => mark k = true) (rev (map cls w))).
        { apply Forall_rev. apply Forall_map. exact Hw. }
        destruct (flag_context _ _ (cls c) Hm Hev) as [[E Hf]|(Ew & Hk & E1 & E2)].
        * unfold brk, uax29. rewrite Hj, Hsr, <- E.
          destruct (uax29_cls (rev (map cls w) ++ [GC_Regional_Indicator]) (cls c)) eqn:Eb;
            cbn [pos_after]; apply IH.
          -- apply sim_same. eapply sim_end; eassumption.
          -- rewrite <- app_assoc. cbn [app]. apply sim_flag; try assumption.
             ++ apply Forall_app. split; [assumption|]. repeat constructor. now apply Hf.
             ++ now rewrite rcl_snoc, Hr.
        * assert (w = []) as ->.
          { destruct w; [reflexivity|]. simpl in Ew. now apply app_eq_nil in Ew as [_ Ew]. }
          unfold brk, uax29. rewrite Hj, Hsr. cbn [map rev app] in *. rewrite E1, E2.
          cbn [pos_after]. apply IH.
          change ([r; c]) with ([r] ++ [c]). apply sim_suffix; [discriminate|discriminate|].
          eapply ple_plt_trans; [exact Hle|apply adv_plt].
  Qed.

  (** Scanning the joined text ends no later than scanning the two texts one
      after the other. *)
  Lemma joint_ple a b :
    ple (pos_after (Pos 0 0) (graphemes brk (a ++ b)))
        (pos_after (Pos 0 0) (graphemes brk a ++ graphemes brk b)).
  Proof.
    destruct a as [|x a]; [now left|]. destruct b as [|c b].
    - rewrite app_nil_r. simpl (graphemes brk []). rewrite app_nil_r. now left.
    - cbn [graphemes app]. generalize (Pos 0 0). assert (Hx : [x] <> []) by discriminate.
      revert Hx. generalize [x]. induction a as [|y a IH]; intros cur Hc p.
      + cbn [app seg_from pos_after].
        destruct (brk cur c) eqn:E; cbn [pos_after]; [now left|].
        apply sim_seg. apply sim_suffix; [assumption|discriminate|]. apply adv_plt.
      + cbn [app seg_from]. destruct (brk cur y); cbn [pos_after app].
        * apply IH. discriminate.
        * apply IH. destruct cur; discriminate.
  Qed.
End Joint.

(** ** Clusters that never merge *)

Lemma attach_no_break rcl k : rcl <> [] ->
  match rcl with b :: _ => base b || attach b = true | [] => True end ->
  attach k = true -> uax29_cls rcl k = false.
Proof.
  destruct rcl as [|b ctx]; [contradiction|]. intros _ Hb Hk.
  destruct b; try discriminate; destruct k; try discriminate; reflexivity.
Qed.

Lemma simple_single cls u : simple_cluster cls u -> graphemes (uax29 cls) u = [u].
Proof.
  destruct 1 as [c V Hc|c ms V Hc Hms|a b Va Vb Ha Hb].
  - reflexivity.
  - cbn [graphemes].
    enough (H : forall ms cur, Forall (fun m => scalar m = true /\ attach (cls m) = true) ms -> cur <> [] ->
              match rev (map cls cur) with b :: _ => base b || attach b = true | [] => True end ->
              seg_from (uax29 cls) cur ms = [cur ++ ms]).
    { rewrite H; [reflexivity|assumption|discriminate|]. simpl. now rewrite Hc. }
    clear. intros ms cur Hms. revert cur. induction Hms as [|m ms [Vm Hm] Hms IH]; intros cur Hc H.
    + simpl. now rewrite app_nil_r.
    + cbn [seg_from]. unfold uax29 at 1. rewrite attach_no_break; [| |exact H|exact Hm].
      * rewrite IH; [now rewrite <- app_assoc|destruct cur; discriminate|].
        rewrite map_app, rev_app_distr. simpl. rewrite Hm. apply orb_true_r.
      * destruct cur; [contradiction|]. simpl. intros E. now apply app_eq_nil in E as [_ E].
  - cbn [graphemes seg_from]. unfold uax29. simpl. now rewrite Ha, Hb.
Qed.

Lemma simple_last cls u : simple_cluster cls u ->
  exists b ctx, rev (map cls u) = b :: ctx /\
    (solo b = true \/ attach b = true
     \/ (b = GC_Regional_Indicator /\ ri_run (rev (map cls u)) = 2)).
Proof.
  destruct 1 as [c V Hc|c ms V Hc Hms|a b Va Vb Ha Hb].
  - exists (cls c), []. auto.
  - destruct (rev (map cls ms)) as [|k ks] eqn:E.
    + exists (cls c), []. simpl. rewrite E. split; [reflexivity|]. left. now destruct (cls c).
    + exists k, (ks ++ [cls c]). simpl. rewrite E. split; [reflexivity|]. right. left.
      assert (In k (map cls ms)) as Hin by (apply in_rev; rewrite E; now left).
      apply in_map_iff in Hin as (m & <- & Hm). rewrite Forall_forall in Hms. now apply Hms.
  - exists GC_Regional_Indicator, [GC_Regional_Indicator]. simpl. rewrite Ha, Hb.
    split; [reflexivity|]. right. right. now split.
Qed.

Lemma simple_first cls c v : simple_cluster cls (c :: v) ->
  solo (cls c) = true \/ cls c = GC_Regional_Indicator.
Proof.
  intros H. inversion H as [? V Hc|? ? V Hc Hms|? ? Va Vb Ha Hb]; subst; auto.
  left. now destruct (cls c).
Qed.

Lemma simple_break cls u c v : simple_cluster cls u -> simple_cluster cls (c :: v) ->
  uax29 cls u c = true.
Proof.
  intros Hu Hv. destruct (simple_last _ _ Hu) as (b & ctx & E & Hb).
  pose proof (simple_first _ _ _ Hv) as Hc. unfold uax29. rewrite E in *.
  destruct (cls c); destruct Hc as [Hc|Hc]; try discriminate Hc;
  destruct b; destruct Hb as [Hb|[Hb|[Hb Hn]]]; try discriminate Hb; try reflexivity.
  cbn [uax29_cls]. now rewrite Hn.
Qed.

Lemma simple_indep cls : indep (uax29 cls) (simple_cluster cls).
Proof. split; [apply simple_single|apply simple_break]. Qed.
