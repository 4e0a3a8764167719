(** Callbacks installed after a replacement, and calls on the storage through a
    clone (C60, C61). *)
From Verif Require Import Base Utf8 Utf8Proofs Grapheme Position GapBuffer Cursor PathModel Buffer
  Spec Calls CursorSpec CursorCalls BufferCalls Shared SharedSpec SharedProofs.

Section Use.
Variable brk : brk_rule.

Lemma editing_data al c f b h o b' f' h' : editing (PBuffer c) ->
  pbuffer brk reader al c b f h = Ok ((o, b', f'), h') -> rb_data b' = rb_data b.
Proof.
  intros Hc E.
  assert (Edit : forall op h x, op_in_place op ->
    mbind (rop_run brk reader al op b) (fun '(op', b') => ret (rstore b' op')) h = Ok x -> rb_data (fst x) = rb_data b).
  { intros op h0 [b1 h1] Hop Ex. unfold mbind in Ex. destruct (rop_run brk reader al op b h0) as [[[op' b2] h2]|] eqn:Er; [|discriminate].
    injection Ex as <- _. cbn. rewrite (proj1 (store_refs b2 op')). eapply rop_run_data; eassumption. }
  destruct c; cbn [pbuffer editing] in *; try easy; try unfold mbind at 1 in E; try (now injection E as _ <- _ _).
  - destruct (rinsert brk reader al b data h) as [[b1 h1]|] eqn:Ex; [|discriminate]. injection E as _ <- _ _.
    unfold rinsert in Ex. apply (Edit (OpInsert data (c_pos (rc_at (rb_cursor b)))) _ _ I Ex).
  - destruct (rdelete brk reader al b h) as [[b1 h1]|] eqn:Ex; [|discriminate]. injection E as _ <- _ _.
    unfold rdelete in Ex. unfold mbind at 1 in Ex. destruct (reading _ _ h) as [[k h2]|]; [|discriminate].
    cbn [bind] in Ex. unfold rdelete_range in Ex.
    set (r := range_new _ _) in Ex. apply (Edit (OpDelete None r) _ _ I Ex).
  - destruct (rdelete_range brk reader al b (range_new p q) h) as [[b1 h1]|] eqn:Ex; [|discriminate]. injection E as _ <- _ _.
    apply (Edit (OpDelete None (range_new p q)) _ _ I Ex).
  - unfold rstart_group in E. injection E as _ <- _ _. now destruct (rb_group b).
  - unfold rend_group in E. injection E as _ <- _ _. now destruct (rb_group b) as [[|]|].
  - destruct (rmove brk m (rb_cursor b) h) as [[k h1]|]; [|discriminate]. now injection E as _ <- _ _.
  - destruct (rsave f w b h) as [[[[r b1] f1] h1]|] eqn:Ex; [|discriminate]. injection E as _ <- _ _.
    unfold rsave in Ex. destruct (rb_path b); [|now injection Ex as _ <- _ _].
    destruct (outcome _ _ w); [now injection Ex as _ <- _ _|..]; unfold mbind in Ex;
      (destruct (rdata b h) as [[d h2]|]; [|discriminate]); now injection Ex as _ <- _ _.
Qed.

(** The callback, if any, captured the present storage. *)
Definition fresh_callback (p : program) : Prop :=
  rb_callback (pr_buffer p) = None \/ rb_callback (pr_buffer p) = Some (rb_data (pr_buffer p)).

Lemma pexec_fresh al c p o p' : alloc_ok al -> pcall_ok c -> ordinary c -> editing c -> inv p -> tied p -> fresh_callback p ->
  pexec brk al c p = Ok (o, p') -> fresh_callback p' /\ rb_data (pr_buffer p') = rb_data (pr_buffer p).
Proof.
  intros Hal Hc Ho Hi I0 T C E. destruct (inv_view _ I0) as (v & V & W).
  pose proof (pexec_ordinary brk al c p v Hal Hc Ho I0 T V) as X.
  destruct p as [b ks h f]. unfold fresh_callback in *. destruct c as [c| |i m|i|i c].
  - cbn [pr_disk pr_heap pr_buffer pr_cursors] in *.
    destruct (bexec brk al c v f) as [[[o' v'] f']|]; [|congruence].
    destruct X as (b' & h' & E' & V' & A). rewrite E in E'. injection E' as -> ->. cbn.
    assert (D : rb_data b' = rb_data b).
    { cbn [pexec pr_buffer pr_disk pr_heap pr_cursors] in E. destruct (pbuffer brk reader al c b f h) as [[[[o1 b1] f1] h1]|] eqn:Ep; [|discriminate].
      injection E as _ <- _ _. eapply editing_data; eassumption. }
    split; [|assumption]. rewrite D.
    assert (Y : after h b h' b' v' -> rb_callback b' = None \/ rb_callback b' = Some (rb_data b)).
    { intros [_ _ _ [_ _ -> _ _ _]]. exact C. }
    destruct c; try exact (Y A). destruct A as (_ & -> & _). cbn. unfold tied in T. cbn in T. rewrite T. destruct on; auto.
  - destruct X as (o' & ks' & E' & _). rewrite E in E'. injection E' as -> ->. now split.
  - destruct X as (o' & ks' & E' & _). rewrite E in E'. injection E' as -> ->. now split.
  - easy.
  - destruct X as (o' & ks' & E' & _). rewrite E in E'. injection E' as -> ->. now split.
Qed.

Lemma prun_fresh cs : forall p os p', inv p -> tied p -> fresh_callback p ->
  Forall (fun ac => alloc_ok (fst ac) /\ pcall_ok (snd ac) /\ ordinary (snd ac) /\ editing (snd ac)) cs ->
  prun brk cs p = Ok (os, p') -> inv p' /\ tied p' /\ fresh_callback p'.
Proof.
  induction cs as [|[al c] cs IH]; intros p os p' I0 T C F E; cbn [prun] in E; [now injection E as _ <-|].
  apply Forall_cons_iff in F as [(Fa & Fc & Fo & Fi) F']. cbn [fst snd] in *.
  pose proof (pexec_any brk al c p Fa Fc I0) as Y.
  destruct (pexec brk al c p) as [[o p1]|] eqn:Ep; [|discriminate]. cbn [bind] in E.
  destruct (prun brk cs p1) as [[os' p2]|] eqn:Er; [|discriminate]. injection E as _ <-.
  apply (IH p1 os' p2); auto.
  - exact (pexec_tied brk al c p o p1 Fa Fc Fo I0 T Ep).
  - exact (proj1 (pexec_fresh al c p o p1 Fa Fc Fo Fi I0 T C Ep)).
Qed.

Lemma callback_since p0 al0 o0 p1 cs os p al c o p' : reaches brk ordinary p0 -> alloc_ok al0 ->
  pexec brk al0 (PBuffer (BSetCallback true)) p0 = Ok (o0, p1) ->
  Forall (fun ac => alloc_ok (fst ac) /\ pcall_ok (snd ac) /\ ordinary (snd ac) /\ editing (snd ac)) cs ->
  prun brk cs p1 = Ok (os, p) -> rb_callback (pr_buffer p) <> None ->
  alloc_ok al -> call_ok c -> editing (PBuffer c) -> keeps_callback c ->
  pexec brk al (PBuffer c) p = Ok (o, p') ->
  exists l, rb_log (pr_buffer p') = rb_log (pr_buffer p) ++ l /\
    match rev l with
    | [] => ptext p' = ptext p
    | (_, t) :: _ => ptext p' = Ok t
    end.
Proof.
  intros R Ha0 E0 F Er C Ha Hc Hi Hk E.
  pose proof (runs_inv brk _ _ R) as I0. destruct (ordinary_run brk _ R) as (T0 & _).
  pose proof (pexec_any brk al0 (PBuffer (BSetCallback true)) p0 Ha0 I I0) as I1. rewrite E0 in I1.
  pose proof (pexec_tied brk _ _ _ _ _ Ha0 (I : pcall_ok (PBuffer (BSetCallback true))) I I0 T0 E0) as T1.
  assert (C1 : fresh_callback p1).
  { cbn in E0. injection E0 as _ <-. right. cbn. now rewrite T0. }
  destruct (prun_fresh cs p1 os p I1 T1 C1 F Er) as (I2 & T2 & C2).
  destruct (inv_view _ I2) as (v & V & W).
  pose proof (pexec_ordinary brk al (PBuffer c) p v Ha Hc I I2 T2 V) as X. cbn beta iota in X.
  destruct (pexec_fresh al (PBuffer c) p o p' Ha Hc I Hi I2 T2 C2 E) as [_ D].
  destruct (bexec brk al c v (pr_disk p)) as [[[o' v'] f']|]; [|congruence].
  destruct X as (b' & h' & E' & V' & A). rewrite E in E'. injection E' as -> ->. cbn [pr_buffer] in D.
  assert (A' : after (pr_heap p) (pr_buffer p) h' b' v') by (destruct c; exact A || easy).
  destruct C2 as [C'|C']; [congruence|].
  destruct (ev_told _ _ _ _ (af_evolves _ _ _ _ _ A') C' D) as (l & El & Tl). exists l. split; [assumption|].
  unfold ptext. cbn [pr_heap pr_buffer]. rewrite D. destruct (rev l) as [|[q t] l']; [|assumption].
  unfold text_at. now rewrite Tl.
Qed.

(** ** Calls on the storage *)

Lemma storage_call ok p i k al c : reaches brk ok p -> nth_error (pr_cursors p) i = Some k ->
  exists g, nth_error (pr_heap p) (rc_data k) = Some (Cell g Free) /\
    match gexec brk al c g with
    | Ok (o, g') => exists p', pexec brk al (PStorage i c) p = Ok (PGout o, p') /\
        pr_buffer p' = pr_buffer p /\ pr_cursors p' = pr_cursors p /\ pr_disk p' = pr_disk p /\
        length (pr_heap p') = length (pr_heap p) /\
        forall r, nth_error (pr_heap p') r = if r =? rc_data k then Some (Cell g' Free) else nth_error (pr_heap p) r
    | Panic => pexec brk al (PStorage i c) p = Panic
    end.
Proof.
  intros R Ek. pose proof (runs_inv brk _ _ R) as I0.
  pose proof (proj1 (Forall_forall _ _) (inv_clones _ I0) k (nth_error_In _ _ Ek)) as Lk. cbn in Lk.
  destruct (sound_nth _ _ (inv_sound _ I0) Lk) as (g & E & W). exists g. split; [assumption|].
  cbn [pexec]. rewrite Ek.
  assert (Same : forall r, nth_error (pr_heap p) r = if r =? rc_data k then Some (Cell g Free) else nth_error (pr_heap p) r).
  { intros r. destruct (r =? rc_data k) eqn:Er; [|reflexivity]. apply Nat.eqb_eq in Er as ->. assumption. }
  assert (Put : forall g' r, nth_error (put (pr_heap p) (rc_data k) (Cell g' Free)) r
                = if r =? rc_data k then Some (Cell g' Free) else nth_error (pr_heap p) r).
  { intros g' r. destruct (r =? rc_data k) eqn:Er.
    - apply Nat.eqb_eq in Er as ->. now rewrite nth_put.
    - apply Nat.eqb_neq in Er. rewrite nth_put_other by congruence. reflexivity. }
  unfold gexec, pstorage, mbind. destruct c.
  - rewrite (writing_lift _ _ _ _ E). destruct (gb_insert brk al g data p0) as [g'|]; cbn [bind]; [|reflexivity].
    eexists. split; [reflexivity|]. cbn. rewrite put_length. auto 6.
  - rewrite (writing_lift _ _ _ _ E). destruct (gb_delete brk g (range_new p0 q)) as [g'|]; cbn [bind]; [|reflexivity].
    eexists. split; [reflexivity|]. cbn. rewrite put_length. auto 6.
  - rewrite (reading_lift _ _ _ _ E). destruct (gb_read brk g (range_new p0 q)) as [g'|]; cbn [bind]; [|reflexivity].
    eexists. split; [reflexivity|]. cbn. auto 6.
  - rewrite (reading_lift _ _ _ _ E). destruct (in_bounds brk g p0) as [g'|]; cbn [bind]; [|reflexivity].
    eexists. split; [reflexivity|]. cbn. auto 6.
  - rewrite (reading_lift _ _ _ _ E). destruct (gb_to_string g) as [g'|]; cbn [bind]; [|reflexivity].
    eexists. split; [reflexivity|]. cbn. auto 6.
Qed.

(** Through a clone on the buffer's own storage. *)
Lemma storage_of_buffer p i k al c v : reaches brk (fun c => ordinary c /\ in_place c) p ->
  nth_error (pr_cursors p) i = Some k -> buffer_of p = Some v ->
  match gexec brk al c (b_data v) with
  | Ok (o, g') => exists p', pexec brk al (PStorage i c) p = Ok (PGout o, p') /\
      buffer_of p' = Some (set_data v g') /\ pr_cursors p' = pr_cursors p /\ pr_disk p' = pr_disk p
  | Panic => pexec brk al (PStorage i c) p = Panic
  end.
Proof.
  intros R Ek V. destruct (storage_call _ p i k al c R Ek) as (g & Eg & X).
  pose proof (proj1 (Forall_forall _ _) (sd_clones _ (runs_steady brk _ R)) k (nth_error_In _ _ Ek)) as Dk. cbn in Dk.
  rewrite Dk in *. rewrite (seen_data _ _ _ _ V Eg).
  destruct (gexec brk al c g) as [[o g']|]; [|assumption].
  destruct X as (p' & X1 & X2 & X3 & X4 & _ & X5). exists p'. split; [assumption|]. split; [|now split].
  unfold buffer_of, seen in *. rewrite X2, X5, Nat.eqb_refl. rewrite Eg in V. now injection V as <-.
Qed.
End Use.
