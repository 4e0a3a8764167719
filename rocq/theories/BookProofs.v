(** Proofs about BookSpec.v. *)
From Verif Require Import Base Utf8 Grapheme GraphemeProofs Position GapBuffer Cursor PathModel Buffer
  Spec Calls CursorSpec CursorCalls CursorProofs TextProofs TextFacts GapProps Utf8Proofs AnyTextProofs HalvesProofs OpProofs BufferCalls
  Shared SharedSpec SharedProofs World WorldSpec WorldProofs StoreSpec StoreProofs BookSpec.

Definition rbut (b : rbuffer) : option nat * option path * cursor * history * option (list operation) * option syntax * bool :=
  (rb_id b, rb_path b, rc_at (rb_cursor b), rb_history b, rb_group b, rb_syntax b,
   match rb_callback b with Some _ => true | None => false end).

(** From [b] to [b'] by the events [es]: the callback stays, and the cursor moves
    to another storage only with the text. *)
Record seated (es : list event) (b b' : rbuffer) : Prop := Seated {
  st_callback : rb_callback b' = rb_callback b;
  st_cursor : rc_data (rb_cursor b') = if existsb renews es then rb_data b' else rc_data (rb_cursor b);
  st_data : existsb renews es = false -> rb_data b' = rb_data b }.

Lemma seated_nil b b' : rb_callback b' = rb_callback b -> rc_data (rb_cursor b') = rc_data (rb_cursor b) ->
  rb_data b' = rb_data b -> seated [] b b'.
Proof. now split. Qed.
Lemma seated_app es es' a b c : seated es a b -> seated es' b c -> seated (es ++ es') a c.
Proof.
  intros [A1 A2 A3] [B1 B2 B3]. split.
  - congruence.
  - rewrite existsb_app. destruct (existsb renews es') eqn:E; [now rewrite orb_true_r|]. rewrite orb_false_r, B2, A2, (B3 eq_refl). reflexivity.
  - rewrite existsb_app. intros [E1 E2]%orb_false_elim. rewrite (B3 E2). now apply A3.
Qed.

Section Proofs.
Variable brk : brk_rule.
Variable code : closures.
Notation tl := (told brk code).

Lemma rnotify_book b p h b' h' : rnotify tl b p h = Ok (b', h') ->
  rbut b' = rbut b /\ rb_callback b' = rb_callback b /\ rb_cursor b' = rb_cursor b /\ rb_data b' = rb_data b.
Proof.
  unfold rnotify. destruct (rb_callback b) as [n|] eqn:C; intros E.
  - unfold mbind in E. destruct (tl n p (rb_log b) h) as [[t h1]|]; [|discriminate]. cbn in E. unfold ret in E. injection E as <- <-.
    unfold rbut. cbn. now rewrite C.
  - unfold ret in E. injection E as <- <-. auto.
Qed.
Lemma notify_book v p : but_text (notify v p) = but_text v.
Proof. unfold notify. destruct (b_callback v) eqn:E; unfold but_text; cbn; now rewrite ?E. Qed.
Lemma rnotify_seated e b b1 p h b' h' : rnotify tl b1 p h = Ok (b', h') -> rb_callback b1 = rb_callback b ->
  rc_data (rb_cursor b1) = (if renews e then rb_data b1 else rc_data (rb_cursor b)) -> (renews e = false -> rb_data b1 = rb_data b) ->
  seated [e] b b'.
Proof.
  intros N C D R. apply rnotify_book in N as (_ & N1 & N2 & N3). split; cbn [existsb]; rewrite ?orb_false_r.
  - congruence.
  - now rewrite N2, N3.
  - intros X. rewrite N3. now apply R.
Qed.

Lemma rreplace_content_book al s b h b' h' v v' : rreplace_content brk tl al s b h = Ok (b', h') ->
  replace_content brk al s v = Ok v' -> rbut b = but_text v -> rbut b' = but_text v' /\ seated [New s] b b'.
Proof.
  intros E V B. assert (Bc : rc_at (rb_cursor b) = b_cursor v) by (unfold rbut, but_text in B; congruence).
  unfold rreplace_content, mbind, lift in E. unfold replace_content in V. destruct (gb_new al s) as [g|] eqn:G; [|discriminate].
  cbn in E. cbn [bind] in V. set (h1 := h ++ [Cell g Free]) in E. set (b1 := fun c => rset_cursor (rset_data b (length h)) c).
  assert (Ng : nth_error (gaps h1) (length h) = Some g).
  { unfold gaps, h1. rewrite map_app, nth_error_app2; rewrite map_length; [|lia]. now rewrite Nat.sub_diag. }
  assert (X : exists c, rnotify tl (b1 c) (Pos 0 0) h1 = Ok (b', h') /\ rc_data c = length h /\
    v' = notify (set_cursor (set_data v g) (rc_at c)) (Pos 0 0)).
  { destruct (rmove_to brk (rcursor_new (length h) (Pos 0 0)) _ h1) as [[[m c1] h2]|] eqn:M1; [|discriminate].
    apply (rmove_to_gap brk (rcursor_new (length h) (Pos 0 0)) _ _ _ _ _ g Ng) in M1. destruct M1 as (-> & D1 & M1). cbn [rc_at rcursor_new] in M1.
    rewrite <- Bc in V. rewrite M1 in V. cbn [bind] in V. cbn in E. destruct m.
    - cbn in E. exists c1. split; [exact E|]. split; [exact D1|]. cbn [bind] in V. congruence.
    - cbn in E. destruct (rmove_to brk c1 _ h1) as [[[m2 c2] h3]|] eqn:M2; [|discriminate].
      cbn in D1. rewrite <- D1 in Ng. apply (rmove_to_gap brk _ _ _ _ _ _ g Ng) in M2. destruct M2 as (-> & D2 & M2).
      cbn in E. exists c2. split; [exact E|]. split; [congruence|]. rewrite M2 in V. cbn [bind] in V. congruence. }
  destruct X as (c & X & D & ->). split.
  - destruct (rnotify_book _ _ _ _ _ X) as (-> & _). rewrite notify_book. unfold rbut, but_text in *. cbn. congruence.
  - apply (rnotify_seated (New s) b _ _ _ _ _ X); [reflexivity|exact D|discriminate].
Qed.

Lemma run_book al op : forall h b op' b' h' v op2 v', rop_run brk tl al op b h = Ok (op', b', h') ->
  op_run brk al op v = Ok (op2, v') -> rbut b = but_text v -> rbut b' = but_text v' /\ seated (repeated op) b b'.
Proof.
  revert op. fix IH 1. intros [d p|d r|old new|ops] h b op' b' h' v op2 v' E V B.
  - cbn [rop_run] in E. unfold mbind at 1 in E. destruct (writing _ _ h) as [[u h1]|] eqn:W; [|discriminate]. cbn [bind] in E.
    unfold mbind in E. destruct (rnotify _ b p h1) as [[b1 h2]|] eqn:N; [|discriminate]. cbn in E. unfold ret in E. injection E as <- <- <-.
    cbn [op_run] in V. destruct (gb_insert _ _ _ _ _) as [g|]; [|discriminate]. cbn in V. injection V as <- <-. split.
    + destruct (rnotify_book _ _ _ _ _ N) as (-> & _). rewrite notify_book. exact B.
    + now apply (rnotify_seated (Put d p) b _ _ _ _ _ N).
  - cbn [rop_run] in E. unfold mbind at 1 in E. destruct (reading _ _ h) as [[u h1]|] eqn:R; [|discriminate]. cbn [bind] in E.
    unfold mbind at 1 in E. destruct (writing _ _ h1) as [[w h2]|] eqn:W; [|discriminate]. cbn [bind] in E.
    unfold mbind in E. destruct (rnotify _ b _ h2) as [[b1 h3]|] eqn:N; [|discriminate]. cbn in E. unfold ret in E. injection E as <- <- <-.
    cbn [op_run] in V. destruct (gb_read _ _ _) as [t|]; [|discriminate]. cbn [bind] in V. destruct (gb_delete _ _ _) as [g|]; [|discriminate].
    cbn in V. injection V as <- <-. split.
    + destruct (rnotify_book _ _ _ _ _ N) as (-> & _). rewrite notify_book. exact B.
    + now apply (rnotify_seated (Cut r) b _ _ _ _ _ N).
  - cbn [rop_run] in E. unfold mbind in E. destruct (rreplace_content _ _ _ _ _ h) as [[b1 h1]|] eqn:R; [|discriminate]. cbn in E.
    unfold ret in E. injection E as <- <- <-. cbn [op_run] in V. destruct (replace_content _ _ _ _) as [v1|] eqn:V1; [|discriminate].
    cbn in V. injection V as <- <-. exact (rreplace_content_book _ _ _ _ _ _ _ _ R V1 B).
  - cbn [rop_run op_run repeated] in *.
    set (run := fix go (ops : list operation) (b : rbuffer) : M (list operation * rbuffer) :=
         match ops with
         | [] => ret ([], b)
         | o :: rest =>
           let! (o', b1) := rop_run brk tl al o b in
           let! (rest', b2) := go rest b1 in
           ret (o' :: rest', b2)
         end) in *.
    set (vrun := fix go (ops : list operation) (b : buffer) : res (list operation * buffer) :=
         match ops with
         | [] => Ok ([], b)
         | o :: rest =>
           let* (o', b1) := op_run brk al o b in
           let* (rest', b2) := go rest b1 in
           Ok (o' :: rest', b2)
         end) in *.
    set (evs := fix go ops := match ops with [] => [] | o :: rest => repeated o ++ go rest end).
    unfold mbind in E at 1. destruct (run ops b h) as [[[ops' b1] h1]|] eqn:R; [|discriminate]. cbn in E. unfold ret in E. injection E as <- <- <-.
    destruct (vrun ops v) as [[vops v1]|] eqn:Q; [|discriminate]. cbn in V. injection V as <- <-.
    revert h b ops' v vops R Q B. induction ops as [|o ops IHo]; intros h b ops' v vops R Q B.
    + cbn in R, Q. unfold ret in R. injection R as <- <- <-. injection Q as <- <-. split; [exact B|now apply seated_nil].
    + cbn in R, Q. fold run in R. fold vrun in Q.
      unfold mbind at 1 in R. destruct (rop_run brk _ al o b h) as [[[o' b2] h2]|] eqn:A; [|discriminate]. cbn [bind] in R.
      unfold mbind in R. destruct (run ops b2 h2) as [[[os b3] h3]|] eqn:C; [|discriminate]. cbn in R. unfold ret in R. injection R as <- <- <-.
      destruct (op_run brk al o v) as [[vo v2]|] eqn:VA; [|discriminate]. cbn [bind] in Q.
      destruct (vrun ops v2) as [[vos v3]|] eqn:VC; [|discriminate]. cbn in Q. injection Q as <- <-.
      destruct (IH _ _ _ _ _ _ _ _ _ A VA B) as (B2 & S2). destruct (IHo _ _ _ _ _ C VC B2) as (B3 & S3).
      split; [exact B3|]. cbn. fold evs. exact (seated_app _ _ _ _ _ S2 S3).
Qed.
Lemma reverse_book al op : forall h b b' h' v v', rop_reverse brk tl al op b h = Ok (b', h') ->
  op_reverse brk al op v = Ok v' -> rbut b = but_text v -> rbut b' = but_text v' /\ seated (undone brk op) b b'.
Proof.
  revert op. fix IH 1. intros [d p|d r|old new|ops] h b b' h' v v' E V B.
  - cbn [rop_reverse op_reverse] in E, V. rewrite insert_end_from in E, V.
    unfold mbind at 1 in E. destruct (writing _ _ h) as [[u h1]|] eqn:W; [|discriminate]. cbn [bind] in E.
    destruct (gb_delete _ _ _) as [g|]; [|discriminate]. cbn in V. injection V as <-. split.
    + destruct (rnotify_book _ _ _ _ _ E) as (-> & _). rewrite notify_book. exact B.
    + now apply (rnotify_seated (Cut _) b _ _ _ _ _ E).
  - destruct d as [d|]; cbn [rop_reverse op_reverse undone] in *.
    + unfold mbind at 1 in E. destruct (writing _ _ h) as [[u h1]|] eqn:W; [|discriminate]. cbn [bind] in E.
      destruct (gb_insert _ _ _ _ _) as [g|]; [|discriminate]. cbn in V. injection V as <-. split.
      * destruct (rnotify_book _ _ _ _ _ E) as (-> & _). rewrite notify_book. exact B.
      * now apply (rnotify_seated (Put d _) b _ _ _ _ _ E).
    + unfold ret in E. injection E as <- <-. injection V as <-. split; [exact B|now apply seated_nil].
  - exact (rreplace_content_book _ _ _ _ _ _ _ _ E V B).
  - cbn [rop_reverse op_reverse undone] in *.
    set (run := fix go (ops : list operation) (b : rbuffer) : M rbuffer :=
       match ops with
       | [] => ret b
       | o :: rest =>
         let! b1 := go rest b in
         rop_reverse brk tl al o b1
       end) in *.
    match type of V with ?f _ _ = _ => set (vrun := f) in * end.
    set (evs := fix go ops := match ops with [] => [] | o :: rest => go rest ++ undone brk o end).
    revert h' b' v' E V. induction ops as [|o ops IHo]; intros h' b' v' R Q.
    + cbn in R, Q. unfold ret in R. injection R as <- <-. injection Q as <-. split; [exact B|now apply seated_nil].
    + cbn in R, Q. fold run in R. fold vrun in Q.
      unfold mbind at 1 in R. destruct (run ops b h) as [[b2 h2]|] eqn:A; [|discriminate]. cbn [bind] in R.
      destruct (vrun ops v) as [v2|] eqn:VA; [|discriminate]. cbn [bind] in Q.
      destruct (IHo _ _ _ eq_refl eq_refl) as (B2 & S2). destruct (IH _ _ _ _ _ _ _ R Q B2) as (B3 & S3).
      split; [exact B3|]. cbn. fold evs. exact (seated_app _ _ _ _ _ S2 S3).
Qed.

Definition atomic (op : operation) : Prop := match op with OpGroup _ => False | _ => True end.
Lemma run_same_op al op h b op' b' h' v op2 v' : atomic op -> nth_error (gaps h) (rb_data b) = Some (b_data v) ->
  rop_run brk tl al op b h = Ok (op', b', h') -> op_run brk al op v = Ok (op2, v') -> op' = op2.
Proof.
  intros A N E V. destruct op as [d p|d r|old new|ops]; [..|destruct A].
  - cbn [rop_run] in E. unfold mbind at 1 in E. destruct (writing _ _ h) as [[u h1]|]; [|discriminate]. cbn [bind] in E.
    unfold mbind in E. destruct (rnotify _ b p h1) as [[b1 h2]|]; [|discriminate]. cbn in E. unfold ret in E. injection E as <- _ _.
    cbn [op_run] in V. destruct (gb_insert _ _ _ _ _); [|discriminate]. cbn in V. now injection V as <- _.
  - cbn [rop_run] in E. unfold mbind at 1 in E. destruct (reading _ _ h) as [[u h1]|] eqn:R; [|discriminate]. cbn [bind] in E.
    destruct (reading_gap _ _ _ _ _ R) as (-> & g & Ng & G). rewrite N in Ng. injection Ng as <-.
    unfold mbind at 1 in E. destruct (writing _ _ h) as [[w h2]|]; [|discriminate]. cbn [bind] in E.
    unfold mbind in E. destruct (rnotify _ b _ h2) as [[b1 h3]|]; [|discriminate]. cbn in E. unfold ret in E. injection E as <- _ _.
    cbn [op_run] in V. rewrite G in V. cbn [bind] in V. destruct (gb_delete _ _ _); [|discriminate]. cbn in V. now injection V as <- _.
  - cbn [rop_run] in E. unfold mbind in E. destruct (rreplace_content _ _ _ _ _ h) as [[b1 h1]|]; [|discriminate]. cbn in E.
    unfold ret in E. injection E as <- _ _. cbn [op_run] in V. destruct (replace_content _ _ _ _); [|discriminate]. cbn in V. now injection V as <- _.
Qed.
Lemma store_book b v op : rbut b = but_text v -> rbut (rstore b op) = but_text (Buffer.store v op).
Proof.
  intros B. unfold rbut, but_text in *. injection B as B1 B2 B3 B4 B5 B6 B7. unfold rstore, Buffer.store. rewrite B5.
  destruct (b_group v) eqn:Eg; cbn; now rewrite ?B1, ?B2, ?B3, ?B4, ?B5, ?B6, ?B7, ?Eg.
Qed.
Lemma store_seated es b b' op : seated es b b' -> seated es b (rstore b' op).
Proof. intros [A B C]. unfold rstore. destruct (rb_group b'); now split. Qed.
Lemma redit_book al op h b b' h' v v' : nth_error (gaps h) (rb_data b) = Some (b_data v) -> rbut b = but_text v ->
  (let! (op, b') := rop_run brk tl al op b in ret (rstore b' op)) h = Ok (b', h') ->
  (let* (op, v') := op_run brk al op v in Ok (Buffer.store v' op)) = Ok v' -> atomic op ->
  rbut b' = but_text v' /\ seated (repeated op) b b'.
Proof.
  intros N B E V A. unfold mbind in E. destruct (rop_run _ _ al op b h) as [[[o b1] h1]|] eqn:R; [|discriminate].
  cbn in E. unfold ret in E. injection E as <- <-. destruct (op_run brk al op v) as [[o2 v1]|] eqn:Q; [|discriminate]. cbn in V. injection V as <-.
  destruct (run_book _ _ _ _ _ _ _ _ _ _ R Q B) as (B1 & S1). rewrite <- (run_same_op _ _ _ _ _ _ _ _ _ _ A N R Q).
  split; [now apply store_book|now apply store_seated].
Qed.
Lemma rreplace_book al s h b b' h' v v' : nth_error (gaps h) (rb_data b) = Some (b_data v) -> rbut b = but_text v ->
  rreplace brk tl al b s h = Ok (b', h') -> buf_replace brk al v s = Ok v' ->
  rbut b' = but_text v' /\ seated (renewed (b_data v) s) b b'.
Proof.
  intros N B E V. unfold rreplace in E. unfold mbind at 1 in E. unfold rdata in E at 1.
  destruct (reading _ _ h) as [[t h1]|] eqn:R; [|discriminate].
  destruct (reading_gap _ _ _ _ _ R) as (-> & g0 & N0 & T). rewrite N in N0. injection N0 as <-. cbn [bind] in E.
  unfold buf_replace, buf_data in V. unfold renewed. rewrite T in *. cbn [bind] in V. destruct (list_N_eqb s t).
  - unfold ret in E. injection E as <- <-. injection V as <-. split; [exact B|now apply seated_nil].
  - unfold mbind at 1 in E. unfold rdata in E. rewrite R in E. cbn [bind] in E. now apply (redit_book al (OpReplace t s) h b b' h' v v' N B E V).
Qed.

Lemma pbuffer_book al c f h b v o b' f' h' o1 v' f1 : nth_error (gaps h) (rb_data b) = Some (b_data v) -> rbut b = but_text v ->
  (forall m, c <> BMove m) ->
  pbuffer brk tl al c b f h = Ok (o, b', f', h') -> bexec brk al c v f = Ok (o1, v', f1) ->
  o = o1 /\ f' = f1 /\ rbut b' = but_text v' /\ ((forall on, c <> BSetCallback on) -> seated (events brk (b_data v) f c b) b b').
Proof.
  intros N B NM E V. pose proof B as B0. unfold rbut, but_text in B0. injection B0 as B1 B2 B3 B4 B5 B6 B7.
  assert (X : forall (m : M rbuffer), (let! b' := m in ret (BUnit, b', f)) h = Ok (o, b', f', h') -> m h = Ok (b', h') /\ o = BUnit /\ f' = f).
  { intros m Y. unfold mbind in Y. destruct (m h) as [[x h1]|]; [|discriminate]. cbn in Y. unfold ret in Y. injection Y as <- <- <- <-. auto. }
  assert (X' : forall m : res buffer, (let* b' := m in Ok (BUnit, b', f)) = Ok (o1, v', f1) -> m = Ok v' /\ o1 = BUnit /\ f1 = f).
  { intros m Y. destruct m as [x|]; [|discriminate]. cbn in Y. injection Y as <- <- <-. auto. }
  assert (Z : forall (P : Prop) es, rbut b' = but_text v' /\ seated es b b' -> (P -> P) /\ rbut b' = but_text v' /\ ((forall on, c <> BSetCallback on) -> seated es b b')).
  { intros P es [Z1 Z2]. auto. }
  destruct c; cbn [pbuffer bexec events] in *.
  - apply X in E as (E & -> & ->). apply X' in V as (V & -> & ->). split; [reflexivity|]. split; [reflexivity|].
    unfold rinsert in E. unfold buf_insert in V. rewrite B3 in *. destruct (redit_book _ _ _ _ _ _ _ _ N B E V I). auto.
  - apply X in E as (E & -> & ->). apply X' in V as (V & -> & ->). split; [reflexivity|]. split; [reflexivity|].
    unfold rdelete in E. unfold buf_delete in V. rewrite B3 in *. unfold mbind at 1 in E. destruct (reading _ _ h) as [[ok h1]|] eqn:R; [|discriminate].
    destruct (reading_gap _ _ _ _ _ R) as (-> & g0 & N0 & Ib). rewrite N in N0. injection N0 as <-. rewrite Ib in *. cbn [bind] in E, V.
    unfold rdelete_range in E. unfold buf_delete_range in V.
    destruct (redit_book _ _ _ _ _ _ _ _ N B E V I) as [Z1 Z2]. split; [exact Z1|]. intros _. destruct ok; exact Z2.
  - apply X in E as (E & -> & ->). apply X' in V as (V & -> & ->). split; [reflexivity|]. split; [reflexivity|].
    destruct (redit_book _ _ _ _ _ _ _ _ N B E V I). auto.
  - apply X in E as (E & -> & ->). apply X' in V as (V & -> & ->). split; [reflexivity|]. split; [reflexivity|].
    destruct (rreplace_book _ _ _ _ _ _ _ _ N B E V). auto.
  - apply X in E as (E & -> & ->). apply X' in V as (V & -> & ->). split; [reflexivity|]. split; [reflexivity|].
    unfold rundo in E. unfold buf_undo in V. unfold latest.
    assert (U : forall op b1 v1, rbut b1 = but_text v1 -> rb_callback b1 = rb_callback b -> rb_cursor b1 = rb_cursor b -> rb_data b1 = rb_data b ->
      (match op with Some op => rop_reverse brk tl al op b1 | None => ret b1 end) h = Ok (b', h') ->
      match op with Some op => op_reverse brk al op v1 | None => Ok v1 end = Ok v' ->
      rbut b' = but_text v' /\ seated (match op with Some op => undone brk op | None => [] end) b b').
    { intros [op|] b1 v1 Bb C1 C2 C3 E1 V1.
      - destruct (reverse_book _ _ _ _ _ _ _ _ E1 V1 Bb) as [U1 [U2 U3 U4]]. split; [exact U1|]. split; [now rewrite U2| |]; [now rewrite U3, C2|]. intros Hr. now rewrite (U4 Hr).
      - unfold ret in E1. injection E1 as <- <-. injection V1 as <-. split; [exact Bb|]. apply seated_nil; congruence. }
    assert (G : rbut (rset_group b None) = but_text (set_group v None)) by (unfold rbut, but_text; cbn; solve [rewrite ?B1, ?B2, ?B3, ?B4, ?B5, ?B6, ?B7; reflexivity | congruence]).
    assert (H : forall hh, rbut (rset_history (rset_group b None) hh) = but_text (set_history (set_group v None) hh)) by (intros; unfold rbut, but_text; cbn; solve [rewrite ?B1, ?B2, ?B3, ?B4, ?B5, ?B6, ?B7; reflexivity | congruence]).
    cbn [rb_history rset_group] in E. cbn [b_history set_group] in V. rewrite B4, B5 in *. unfold hist_previous in *.
    destruct (b_group v) as [[|o2 ops]|];
      try (destruct (U (Some (OpGroup (o2 :: ops))) _ _ G eq_refl eq_refl eq_refl E V) as [U1 U2]; auto; fail);
      destruct (h_previous (b_history v)) as [|op rest]; cbn [hd_error];
      (destruct (U None _ _ (H _) eq_refl eq_refl eq_refl E V) as [U1 U2] || destruct (U (Some op) _ _ (H _) eq_refl eq_refl eq_refl E V) as [U1 U2]); auto.
  - apply X in E as (E & -> & ->). apply X' in V as (V & -> & ->). split; [reflexivity|]. split; [reflexivity|].
    unfold rredo in E. unfold buf_redo in V. rewrite B4 in *. unfold hist_next in *.
    assert (H : forall hh, rbut (rset_history b hh) = but_text (set_history v hh)) by (intros; unfold rbut, but_text; cbn; solve [rewrite ?B1, ?B2, ?B3, ?B4, ?B5, ?B6, ?B7; reflexivity | congruence]).
    destruct (h_next (b_history v)) as [|op rest].
    + unfold ret in E. injection E as <- <-. injection V as <-. split; [apply H|]. intros _. now apply seated_nil.
    + unfold mbind in E. destruct (rop_run _ _ al op _ h) as [[[o2 b1] h1]|] eqn:R; [|discriminate]. cbn in E. unfold ret in E. injection E as <- <-.
      destruct (op_run brk al op _) as [[o3 v1]|] eqn:Q; [|discriminate]. cbn in V. injection V as <-.
      destruct (run_book _ _ _ _ _ _ _ _ _ _ R Q (H _)) as [U1 [U2 U3 U4]]. split; [exact U1|]. intros _. now split.
  - unfold ret in E. injection E as <- <- <- <-. injection V as <- <- <-. split; [reflexivity|]. split; [reflexivity|].
    unfold rstart_group, start_group. rewrite B5. destruct (b_group v) eqn:Eg; (split; [rewrite <- ?Eg in B5; unfold rbut, but_text; cbn; solve [rewrite ?B1, ?B2, ?B3, ?B4, ?B5, ?B6, ?B7; reflexivity | congruence]|intros _; now apply seated_nil]).
  - unfold ret in E. injection E as <- <- <- <-. injection V as <- <- <-. split; [reflexivity|]. split; [reflexivity|].
    unfold rend_group, end_group. rewrite B5. destruct (b_group v) as [[|]|] eqn:Eg; (split; [rewrite <- ?Eg in B5; unfold rbut, but_text; cbn; solve [rewrite ?B1, ?B2, ?B3, ?B4, ?B5, ?B6, ?B7; reflexivity | congruence]|intros _; now apply seated_nil]).
  - now destruct (NM m).
  - unfold ret in E. injection E as <- <- <- <-. injection V as <- <- <-. split; [reflexivity|]. split; [reflexivity|].
    split; [unfold rbut, but_text; cbn; solve [rewrite ?B1, ?B2, ?B3, ?B4, ?B5, ?B6, ?B7; reflexivity | congruence]|intros _; now apply seated_nil].
  - unfold mbind in E. destruct (rsave f w b h) as [[[[r b1] f2] h1]|] eqn:S; [|discriminate]. cbn in E. unfold ret in E. injection E as <- <- <- <-.
    destruct (buf_save f w v) as [[[r2 v1] f3]|] eqn:Q; [|discriminate]. cbn in V. injection V as <- <- <-.
    unfold rsave in S. unfold buf_save in Q. rewrite B2 in S. destruct (b_path v) as [q|] eqn:Ep; rewrite <- Ep in B2.
    2:{ unfold ret in S. injection S as <- <- <- <-. injection Q as <- <- <-. split; [reflexivity|]. split; [reflexivity|]. split; [exact B|intros _; now apply seated_nil]. }
    destruct (outcome f q w).
    1:{ unfold ret in S. injection S as <- <- <- <-. injection Q as <- <- <-. split; [reflexivity|]. split; [reflexivity|]. split; [exact B|intros _; now apply seated_nil]. }
    all: unfold mbind in S; unfold rdata in S; destruct (reading _ _ h) as [[t h2]|] eqn:R; [|discriminate];
       destruct (reading_gap _ _ _ _ _ R) as (-> & g0 & N0 & T); rewrite N in N0; injection N0 as <-; unfold buf_data in Q; rewrite T in Q;
       cbn in S, Q; unfold ret in S; injection S as <- <- <- <-; injection Q as <- <- <-;
       (split; [reflexivity|]; split; [reflexivity|]; split; [unfold rbut, but_text; cbn; solve [rewrite ?B1, ?B2, ?B3, ?B4, ?B5, ?B6, ?B7; reflexivity | congruence]|intros _; now apply seated_nil]).
  - unfold mbind in E. destruct (rreload brk _ al f b h) as [[[r b1] h1]|] eqn:S; [|discriminate]. cbn in E. unfold ret in E. injection E as <- <- <- <-.
    destruct (buf_reload brk al f v) as [[r2 v1]|] eqn:Q; [|discriminate]. cbn in V. injection V as <- <- <-.
    unfold rreload in S. unfold buf_reload in Q. rewrite B2 in *. destruct (b_path v) as [q|] eqn:Ep; rewrite <- Ep in B2.
    2:{ unfold ret in S. injection S as <- <- <-. injection Q as <- <-. split; [reflexivity|]. split; [reflexivity|]. split; [exact B|intros _; now apply seated_nil]. }
    destruct (read_to_string f q) as [t|].
    2:{ unfold ret in S. injection S as <- <- <-. injection Q as <- <-. split; [reflexivity|]. split; [reflexivity|]. split; [exact B|intros _; now apply seated_nil]. }
    unfold mbind in S. destruct (rreplace brk _ al b t h) as [[b2 h2]|] eqn:R; [|discriminate]. cbn in S. unfold ret in S. injection S as <- <- <-.
    destruct (buf_replace brk al v t) as [v2|] eqn:Q2; [|discriminate]. cbn in Q. injection Q as <- <-.
    split; [reflexivity|]. split; [reflexivity|]. destruct (rreplace_book _ _ _ _ _ _ _ _ N B R Q2) as [U1 [U2 U3 U4]].
    split; [unfold rbut, but_text in *; cbn; solve [rewrite ?B1, ?B2, ?B3, ?B4, ?B5, ?B6, ?B7; reflexivity | congruence]|]. intros _. now split.
  - unfold ret in E. injection E as <- <- <- <-. injection V as <- <- <-. split; [reflexivity|]. split; [reflexivity|].
    split; [unfold rbut, but_text; cbn; solve [rewrite ?B1, ?B2, ?B3, ?B4, ?B5, ?B6, ?B7; reflexivity | congruence]|intros _; now apply seated_nil].
  - unfold ret in E. injection E as <- <- <- <-. injection V as <- <- <-. split; [reflexivity|]. split; [reflexivity|].
    split; [unfold rbut, but_text; cbn; solve [rewrite ?B1, ?B2, ?B3, ?B4, ?B5, ?B6, ?B7; reflexivity | congruence]|intros _; now apply seated_nil].
  - unfold ret in E. injection E as <- <- <- <-. injection V as <- <- <-. split; [reflexivity|]. split; [reflexivity|].
    split; [unfold rbut, but_text; cbn; solve [rewrite ?B1, ?B2, ?B3, ?B4, ?B5, ?B6, ?B7; reflexivity | congruence]|intros _; now apply seated_nil].
  - unfold ret in E. injection E as <- <- <- <-. injection V as <- <- <-. split; [reflexivity|]. split; [reflexivity|].
    split; [unfold rbut, but_text; cbn; destruct on; congruence|intros Hn; now destruct (Hn on)].
  - unfold ret in E. injection E as <- <- <- <-. injection V as <- <- <-. split; [reflexivity|]. split; [reflexivity|].
    split; [exact B|intros _; now apply seated_nil].
Qed.

Lemma view_seen w i v : WorldSpec.view w i = Some v ->
  exists b, nth_error (wo_buffers w) i = Some b /\ nth_error (gaps (wo_heap w)) (rb_data b) = Some (b_data v) /\ rbut b = but_text v.
Proof.
  unfold WorldSpec.view. destruct (nth_error _ i) as [b|]; [|discriminate]. intros E. exists b. split; [reflexivity|]. unfold seen in E.
  destruct (nth_error (wo_heap w) (rb_data b)) as [[g l]|] eqn:N; [|discriminate]. injection E as <-. split; [exact (gaps_nth _ _ _ _ N)|reflexivity].
Qed.
Lemma based_view w i b : nth_error (wo_buffers w) i = Some b -> rb_data b < length (wo_heap w) ->
  exists v, WorldSpec.view w i = Some v /\ rbut b = but_text v.
Proof.
  intros N L. unfold WorldSpec.view. rewrite N. unfold seen. apply nth_error_Some in L. destruct (nth_error (wo_heap w) (rb_data b)) as [c|]; [|easy].
  eexists. split; [reflexivity|]. reflexivity.
Qed.
Lemma buffer_call_ok w i c : ncall_ok code w (NBuffer i c) -> call_ok c.
Proof. cbn. now destruct c. Qed.

Hypothesis Hos : order_safe brk.
Hypothesis Hcode : closures_ok code.

Lemma rest_of_call al i c w o w' v : reached brk code w -> alloc_ok al -> ncall_ok code w (NBuffer i c) -> (forall m, c <> BMove m) ->
  nexec brk code al (NBuffer i c) w = Ok (o, w') -> WorldSpec.view w i = Some v ->
  exists o' v1 v', o = UBuffer o' /\ bexec brk al c v (wo_disk w) = Ok (o', v1, wo_disk w') /\
    WorldSpec.view w' i = Some v' /\ but_text v' = but_text v1.
Proof.
  intros (f0 & cs & os & S) Al Cok NM E V.
  pose proof (world_call _ _ _ _ _ _ _ al (NBuffer i c) o w' S Al Cok I E) as S'.
  pose proof (world_inv brk code Hos Hcode _ _ _ _ _ S) as W. pose proof (world_inv brk code Hos Hcode _ _ _ _ _ S') as W'.
  destruct (view_seen _ _ _ V) as (b & N & G & B).
  pose proof (fine_nth _ _ _ _ (contents_fine brk code Hos Hcode _ _ _ _ _ S) G) as Rg.
  destruct (proj1 (Forall_forall _ _) (wi_buffers _ _ W) b (nth_error_In _ _ N)) as [Bs Os].
  assert (Wb : wfb v).
  { unfold rbut, but_text in B. injection B as _ _ _ B4 B5 _ _. destruct Os as (O1 & O2 & O3). split.
    - exact (reachable_wf _ _ Rg).
    - now rewrite <- B4.
    - now rewrite <- B4.
    - now rewrite <- B5. }
  pose proof (bexec_any brk al c v (wo_disk w) Al (buffer_call_ok _ _ _ Cok) Wb) as X.
  destruct (bexec brk al c v (wo_disk w)) as [[[o1 v1] f1]|] eqn:Q; [|destruct (X Hos)].
  destruct w as [bs ks gs h f]. cbn in *. rewrite N in E.
  destruct (pbuffer brk tl al c b f h) as [[[[o2 b1] f2] h1]|] eqn:P; [|discriminate]. cbn in E. injection E as <- <-.
  destruct (pbuffer_book _ _ _ _ _ _ _ _ _ _ _ _ _ G B NM P Q) as (-> & -> & B1 & _).
  assert (N1 : nth_error (put_at bs i b1) i = Some b1).
  { rewrite nth_put_at by (apply nth_error_Some; congruence). now rewrite Nat.eqb_refl. }
  destruct (proj1 (Forall_forall _ _) (wi_buffers _ _ W') b1 (nth_error_In _ _ N1)) as [(Bs1 & _) _].
  destruct (based_view (World (put_at bs i b1) ks gs h1 f1) i b1 N1 Bs1) as (v' & V' & B').
  exists o1, v1, v'. split; [reflexivity|]. split; [reflexivity|]. split; [exact V'|]. congruence.
Qed.
Lemma seat_of_call al i c w o w' b g : reached brk code w -> alloc_ok al -> ncall_ok code w (NBuffer i c) ->
  (forall on, c <> BSetCallback on) ->
  nexec brk code al (NBuffer i c) w = Ok (o, w') -> nth_error (wo_buffers w) i = Some b -> nth_error (contents w) (rb_data b) = Some g ->
  exists b', nth_error (wo_buffers w') i = Some b' /\ rb_callback b' = rb_callback b /\
    rc_data (rb_cursor b') = if existsb renews (events brk g (wo_disk w) c b) then rb_data b' else rc_data (rb_cursor b).
Proof.
  intros (f0 & cs & os & S) Al Cok NC E N G. pose proof (buffer_call_ok _ _ _ Cok) as Cc.
  pose proof (world_inv brk code Hos Hcode _ _ _ _ _ S) as W.
  destruct (proj1 (Forall_forall _ _) (wi_buffers _ _ W) b (nth_error_In _ _ N)) as [Bs Os].
  destruct (based_view w i b N (proj1 Bs)) as (v & V & B). destruct (view_seen _ _ _ V) as (b0 & N0 & G0 & _).
  rewrite N in N0. injection N0 as <-. unfold contents in G. unfold gaps in G0. rewrite G in G0. injection G0 as ->.
  pose proof (fine_nth _ _ _ _ (contents_fine brk code Hos Hcode _ _ _ _ _ S) G) as Rg.
  destruct (nth_error (wo_buffers w') i) as [b'|] eqn:N'.
  2:{ exfalso. destruct w as [bs ks gs h f]. cbn in *. rewrite N in E.
    destruct (pbuffer brk tl al c b f h) as [[[[o2 b1] f2] h1]|]; [|discriminate]. cbn in E. injection E as <- <-. cbn in N'.
    rewrite nth_put_at in N' by (apply nth_error_Some; congruence). now rewrite Nat.eqb_refl in N'. }
  exists b'. split; [reflexivity|].
  destruct w as [bs ks gs h f]. cbn in *. rewrite N in E.
  destruct (pbuffer brk tl al c b f h) as [[[[o2 b1] f2] h1]|] eqn:P; [|discriminate]. cbn in E. injection E as <- <-. cbn in N'.
  rewrite nth_put_at in N' by (apply nth_error_Some; congruence). rewrite Nat.eqb_refl in N'. injection N' as <-.
  destruct (match c with BMove _ => true | _ => false end) eqn:M.
  - destruct c; try discriminate. cbn in P |- *. unfold mbind in P. destruct (rmove brk m (rb_cursor b) h) as [[k h2]|] eqn:K; [|discriminate].
    cbn in P. unfold ret in P. injection P as <- <- <- <-. cbn. split; [reflexivity|].
    destruct Bs as (_ & Bc & _). cbn in Bc. apply nth_error_Some in Bc. destruct (nth_error h (rc_data (rb_cursor b))) as [[gc l]|] eqn:Nc; [|easy].
    exact (proj1 (proj2 (rmove_gap brk _ _ _ _ _ _ (gaps_nth _ _ _ _ Nc) K))).
  - assert (Wb : wfb v).
    { unfold rbut, but_text in B. injection B as _ _ _ B4 B5 _ _. destruct Os as (O1 & O2 & O3). split.
      - exact (reachable_wf _ _ Rg).
      - now rewrite <- B4.
      - now rewrite <- B4.
      - now rewrite <- B5. }
    pose proof (bexec_any brk al c v f Al Cc Wb) as X.
    destruct (bexec brk al c v f) as [[[o1 v1] f1]|] eqn:Q; [|destruct (X Hos)].
    assert (NM : forall m, c <> BMove m) by (intros m ->; discriminate).
    destruct (pbuffer_book _ _ _ _ _ _ _ _ _ _ _ _ _ G B NM P Q) as (_ & _ & _ & St). destruct (St NC) as [S1 S2 S3]. auto.
Qed.
Lemma move_of_call al i m w o w' b g : nexec brk code al (NBuffer i (BMove m)) w = Ok (o, w') ->
  nth_error (wo_buffers w) i = Some b -> nth_error (contents w) (rc_data (rb_cursor b)) = Some g ->
  exists c', cexec brk g m (rc_at (rb_cursor b)) = Ok c' /\
    w' = World (put_at (wo_buffers w) i (rset_cursor b (RCur (rc_data (rb_cursor b)) c'))) (wo_cursors w) (wo_guards w) (wo_heap w) (wo_disk w).
Proof.
  intros E N G. destruct w as [bs ks gs h f]. cbn in *. rewrite N in E. unfold mbind in E.
  destruct (rmove brk m (rb_cursor b) h) as [[k h2]|] eqn:K; [|discriminate]. cbn in E. unfold ret in E. injection E as <- <-.
  destruct (rmove_gap brk _ _ _ _ _ _ G K) as (-> & D & C). exists (rc_at k). split; [exact C|]. rewrite <- D. now destruct k.
Qed.
End Proofs.
