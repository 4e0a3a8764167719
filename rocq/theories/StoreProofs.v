(** Proofs about StoreSpec.v. *)
From Verif Require Import Base Utf8 Grapheme GraphemeProofs Position GapBuffer Cursor PathModel Buffer
  Spec Calls CursorSpec CursorCalls TextProofs TextFacts GapProps Utf8Proofs AnyTextProofs HalvesProofs OpProofs BufferCalls Shared SharedSpec SharedProofs World WorldSpec WorldProofs StoreSpec.

Definition gaps (h : heap) : store := map c_gap h.
Lemma gaps_put h r c g l : nth_error h r = Some (Cell g l) -> gaps (put h r c) = put_at (gaps h) r (c_gap c).
Proof.
  revert r; induction h as [|x h IH]; intros [|r] E; try discriminate.
  - reflexivity.
  - cbn [put gaps map nth_error] in *. fold (gaps (put h r c)). now rewrite (IH _ E).
Qed.
Lemma gaps_nth h r g l : nth_error h r = Some (Cell g l) -> nth_error (gaps h) r = Some g.
Proof. intros E. unfold gaps. now rewrite (map_nth_error c_gap _ _ E). Qed.
Lemma gaps_len h : length (gaps h) = length h.
Proof. apply map_length. Qed.

Lemma put_at_twice {A} (l : list A) r x y : r < length l -> put_at (put_at l r x) r y = put_at l r y.
Proof.
  unfold put_at. revert r. induction l as [|z l IH]; intros [|r] L; cbn in *; try lia; [reflexivity|].
  f_equal. apply IH. lia.
Qed.

Section Proofs.
Variable brk : brk_rule.
Variable code : closures.

Lemma reading_gap {A} r (f : gapbuf -> res A) h x h' : reading r (fun g => lift (f g)) h = Ok (x, h') ->
  h' = h /\ exists g, nth_error (gaps h) r = Some g /\ f g = Ok x.
Proof.
  intros E. split.
  - exact (still_reading r (fun g => lift (f g)) (fun g => still_lift (f g)) h x h' E).
  - unfold reading, mbind, borrow in E. destruct (nth_error h r) as [[g l]|] eqn:N; [|discriminate].
    exists g. split; [exact (gaps_nth _ _ _ _ N)|].
    destruct l; try discriminate; cbn in E; unfold lift in E; destruct (f g) as [y|]; try discriminate; cbn in E;
      destruct (end_borrow r _) as [[? ?]|]; try discriminate; cbn in E; unfold ret in E; congruence.
Qed.
Lemma writing_gap r (f : gapbuf -> res gapbuf) h x h' : writing r (fun g => lift (f g)) h = Ok (x, h') ->
  exists g g', nth_error (gaps h) r = Some g /\ f g = Ok g' /\ gaps h' = put_at (gaps h) r g'.
Proof.
  intros E. unfold writing, mbind, borrow_mut in E. destruct (nth_error h r) as [[g l]|] eqn:N; [|discriminate].
  destruct l; try discriminate. cbn in E. unfold lift in E. destruct (f g) as [g'|] eqn:F; [|discriminate]. cbn in E.
  exists g, g'. split; [exact (gaps_nth _ _ _ _ N)|]. split; [exact F|].
  unfold end_borrow_mut in E. assert (L : r < length h) by (apply nth_error_Some; congruence).
  assert (N2 : nth_error (put h r (Cell g Writing)) r = Some (Cell g Writing)).
  { clear -N. revert r N; induction h as [|y h IH]; intros [|r] N; try discriminate; cbn; [reflexivity|]. now apply IH. }
  rewrite N2 in E. injection E as <- <-. rewrite (gaps_put _ _ _ _ _ N2), (gaps_put _ _ _ _ _ N). cbn [c_gap].
  apply put_at_twice. now rewrite gaps_len.
Qed.

Lemma pstorage_gap al c r h o h' : pstorage brk al c r h = Ok (o, h') ->
  exists g g', nth_error (gaps h) r = Some g /\ gexec brk al c g = Ok (o, g') /\ gaps h' = put_at (gaps h) r g'.
Proof.
  assert (R : forall A (f : gapbuf -> res A) (k : A -> gout), (let! x := reading r (fun g => lift (f g)) in ret (k x)) h = Ok (o, h') ->
    exists g, nth_error (gaps h) r = Some g /\ (let* x := f g in Ok (k x, g)) = Ok (o, g) /\ gaps h' = put_at (gaps h) r g).
  { intros A f k E. unfold mbind in E. destruct (reading r _ h) as [[x h1]|] eqn:F; [|discriminate].
    cbn in E. injection E as <- <-. destruct (reading_gap _ _ _ _ _ F) as (-> & g & N & G).
    exists g. rewrite G. split; [exact N|]. split; [reflexivity|]. symmetry. now apply put_at_same. }
  assert (W : forall (f : gapbuf -> res gapbuf), (let! _ := writing r (fun g => lift (f g)) in ret OUnit) h = Ok (o, h') ->
    exists g g', nth_error (gaps h) r = Some g /\ (let* x := f g in Ok (OUnit, x)) = Ok (o, g') /\ gaps h' = put_at (gaps h) r g').
  { intros f E. unfold mbind in E. destruct (writing r _ h) as [[x h1]|] eqn:F; [|discriminate].
    cbn in E. injection E as <- <-. destruct (writing_gap _ _ _ _ _ F) as (g & g' & N & G & P).
    exists g, g'. rewrite G. auto. }
  destruct c; cbn [pstorage gexec]; intros E; [now apply W|now apply W|..];
    (apply R in E; destruct E as (g & N & G & P); exists g, g; auto).
Qed.

Lemma script_gap s : forall h t h', run_script brk s h = Ok (t, h') -> on_values brk s (gaps h) = Ok (t, gaps h').
Proof.
  induction s as [t|al r c k IH]; intros h t0 h' E; cbn in *.
  - unfold ret in E. now injection E as <- <-.
  - unfold mbind in E. destruct (pstorage brk al c r h) as [[o h1]|] eqn:F; [|discriminate]. cbn in E.
    destruct (pstorage_gap _ _ _ _ _ _ F) as (g & g' & N & G & P). rewrite N, G. cbn. rewrite <- P. now apply IH.
Qed.

Definition went al es h b h' b' : Prop := rb_callback b' = rb_callback b /\
  happen brk code al (rb_callback b) es (rb_data b) (rb_log b) (gaps h) = Ok (rb_data b', rb_log b', gaps h').
Lemma happen_app al cb es es' : forall r log st r1 log1 st1, happen brk code al cb es r log st = Ok (r1, log1, st1) ->
  happen brk code al cb (es ++ es') r log st = happen brk code al cb es' r1 log1 st1.
Proof.
  induction es as [|e es IH]; intros r log st r1 log1 st1; cbn.
  - now intros [= <- <- <-].
  - destruct (occur brk al e r st) as [[r2 st2]|]; [|discriminate]. cbn. destruct cb as [n|].
    + destruct (on_values brk (code n (place e) log) st2) as [[t st3]|]; [|discriminate]. cbn. apply IH.
    + apply IH.
Qed.
Lemma went_nil al h b : went al [] h b h b.
Proof. split; reflexivity. Qed.
Lemma went_app al es es' h b h1 b1 h2 b2 : went al es h b h1 b1 -> went al es' h1 b1 h2 b2 -> went al (es ++ es') h b h2 b2.
Proof.
  intros [A1 A2] [B1 B2]. split; [congruence|]. rewrite (happen_app _ _ _ _ _ _ _ _ _ _ A2). now rewrite <- A1.
Qed.

Lemma rnotify_gap b p h b' h' : rnotify (told brk code) b p h = Ok (b', h') -> rb_callback b' = rb_callback b /\ rb_data b' = rb_data b /\
  match rb_callback b with
  | None => rb_log b' = rb_log b /\ gaps h' = gaps h
  | Some n => exists t, on_values brk (code n p (rb_log b)) (gaps h) = Ok (t, gaps h') /\ rb_log b' = rb_log b ++ [(p, t)]
  end.
Proof.
  unfold rnotify. destruct (rb_callback b) as [n|] eqn:C; intros E.
  - unfold mbind in E. destruct (told brk code n p (rb_log b) h) as [[t h1]|] eqn:F; [|discriminate]. cbn in E.
    unfold ret in E. injection E as <- <-. cbn. split; [reflexivity|]. split; [reflexivity|]. exists t.
    split; [|reflexivity]. now apply script_gap.
  - unfold ret in E. injection E as <- <-. auto.
Qed.
Lemma went_one al e h b h1 b1 h' b' : rb_callback b1 = rb_callback b -> rb_log b1 = rb_log b ->
  occur brk al e (rb_data b) (gaps h) = Ok (rb_data b1, gaps h1) ->
  rnotify (told brk code) b1 (place e) h1 = Ok (b', h') -> went al [e] h b h' b'.
Proof.
  intros C L O N. apply rnotify_gap in N. destruct N as (N1 & N2 & N3). split; [congruence|].
  cbn [happen]. rewrite O. cbn. rewrite C, L in N3. destruct (rb_callback b) as [n|].
  - destruct N3 as (t & -> & ->). cbn. now rewrite N2.
  - destruct N3 as (-> & ->). now rewrite N2.
Qed.

Lemma rreplace_content_gap al s b h b' h' : rreplace_content brk (told brk code) al s b h = Ok (b', h') -> went al [New s] h b h' b'.
Proof.
  intros E. unfold rreplace_content, mbind, lift in E. destruct (gb_new al s) as [g|] eqn:G; [|discriminate].
  cbn in E. set (h1 := h ++ [Cell g Free]) in E. set (b1 := fun c => rset_cursor (rset_data b (length h)) c).
  assert (X : exists c, rnotify (told brk code) (b1 c) (Pos 0 0) h1 = Ok (b', h')).
  { destruct (rmove_to brk (rcursor_new (length h) (Pos 0 0)) _ h1) as [[[m c1] h2]|] eqn:M1; [|discriminate].
    pose proof (rmove_to_still brk _ _ _ _ _ M1) as ->. cbn in E. destruct m.
    - cbn in E. now exists c1.
    - cbn in E. destruct (rmove_to brk c1 _ h1) as [[[m2 c2] h3]|] eqn:M2; [|discriminate].
      pose proof (rmove_to_still brk _ _ _ _ _ M2) as ->. cbn in E. now exists c2. }
  destruct X as (c & X). apply (went_one al (New s) h b h1 (b1 c) h' b'); try reflexivity; [|exact X].
  cbn [occur]. rewrite G. cbn. rewrite gaps_len. unfold gaps, h1. now rewrite map_app.
Qed.

Lemma run_gap al op : forall h b op' b' h', rop_run brk (told brk code) al op b h = Ok (op', b', h') -> went al (repeated op) h b h' b'.
Proof.
  revert op. fix IH 1. intros [d p|d r|old new|ops] h b op' b' h' E.
  - cbn [rop_run] in E. unfold mbind at 1 in E. destruct (writing _ _ h) as [[u h1]|] eqn:W; [|discriminate]. cbn [bind] in E.
    unfold mbind in E. destruct (rnotify _ b p h1) as [[b1 h2]|] eqn:N; [|discriminate]. cbn in E. unfold ret in E. injection E as <- <- <-.
    destruct (writing_gap _ _ _ _ _ W) as (g & g' & Ng & G & P).
    apply (went_one al (Put d p) h b h1 b); try reflexivity; [|exact N]. cbn [occur]. rewrite Ng, G. cbn. now rewrite P.
  - cbn [rop_run] in E. unfold mbind at 1 in E. destruct (reading _ _ h) as [[u h1]|] eqn:R; [|discriminate]. cbn [bind] in E.
    destruct (reading_gap _ _ _ _ _ R) as [-> _].
    unfold mbind at 1 in E. destruct (writing _ _ h) as [[v h1]|] eqn:W; [|discriminate]. cbn [bind] in E.
    unfold mbind in E. destruct (rnotify _ b _ h1) as [[b1 h2]|] eqn:N; [|discriminate]. cbn in E. unfold ret in E. injection E as <- <- <-.
    destruct (writing_gap _ _ _ _ _ W) as (g & g' & Ng & G & P).
    apply (went_one al (Cut r) h b h1 b); try reflexivity; [|exact N]. cbn [occur]. rewrite Ng, G. cbn. now rewrite P.
  - cbn [rop_run] in E. unfold mbind in E. destruct (rreplace_content _ _ _ _ _ h) as [[b1 h1]|] eqn:R; [|discriminate]. cbn in E.
    unfold ret in E. injection E as <- <- <-. now apply rreplace_content_gap.
  - cbn [rop_run repeated] in *. 
    set (run := fix go (ops : list operation) (b : rbuffer) : M (list operation * rbuffer) :=
         match ops with
         | [] => ret ([], b)
         | o :: rest =>
           let! (o', b1) := rop_run brk (told brk code) al o b in
           let! (rest', b2) := go rest b1 in
           ret (o' :: rest', b2)
         end) in *.
    set (evs := fix go ops := match ops with [] => [] | o :: rest => repeated o ++ go rest end).
    unfold mbind in E at 1. destruct (run ops b h) as [[[ops' b1] h1]|] eqn:R; [|discriminate]. cbn in E. unfold ret in E. injection E as <- <- <-.
    revert h b ops' R. induction ops as [|o ops IHo]; intros h b ops' R.
    + cbn in R. unfold ret in R. injection R as <- <- <-. apply went_nil.
    + cbn in R. fold run in R. unfold mbind at 1 in R. destruct (rop_run brk _ al o b h) as [[[o' b2] h2]|] eqn:A; [|discriminate]. cbn [bind] in R.
      unfold mbind in R. destruct (run ops b2 h2) as [[[os b3] h3]|] eqn:B; [|discriminate]. cbn in R. unfold ret in R. injection R as <- <- <-.
      cbn. fold evs. eapply went_app; [exact (IH _ _ _ _ _ _ A)|]. exact (IHo _ _ _ B).
Qed.
Lemma reverse_gap al op : forall h b b' h', rop_reverse brk (told brk code) al op b h = Ok (b', h') -> went al (undone brk op) h b h' b'.
Proof.
  revert op. fix IH 1. intros [d p|d r|old new|ops] h b b' h' E.
  - cbn [rop_reverse] in E. rewrite insert_end_from in E.
    unfold mbind at 1 in E. destruct (writing _ _ h) as [[u h1]|] eqn:W; [|discriminate]. cbn [bind] in E.
    destruct (writing_gap _ _ _ _ _ W) as (g & g' & Ng & G & P).
    cbn [undone]. rewrite text_end_from.
    assert (F : r_start (range_new p (end_from brk p d)) = p).
    { rewrite range_new_ordered. cbn [r_start]. unfold first_of, before, end_from. cbn [line offset].
      destruct (Nat.ltb_spec (line p + count_lf d) (line p)); [lia|]. cbn [orb].
      destruct (Nat.eqb_spec (count_lf d) 0); [|destruct (Nat.eqb_spec (line p + count_lf d) (line p)); [lia|reflexivity]].
      destruct (Nat.ltb_spec (offset p + length (graphemes brk d)) (offset p)); [lia|]. now rewrite andb_false_r. }
    apply (went_one al (Cut (range_new p (end_from brk p d))) h b h1 b); try reflexivity; [|cbn [place]; rewrite F; exact E].
    cbn [occur]. rewrite Ng, G. cbn. now rewrite P.
  - destruct d as [d|]; cbn [rop_reverse undone] in *.
    + unfold mbind at 1 in E. destruct (writing _ _ h) as [[u h1]|] eqn:W; [|discriminate]. cbn [bind] in E.
      destruct (writing_gap _ _ _ _ _ W) as (g & g' & Ng & G & P).
      apply (went_one al (Put d (r_start r)) h b h1 b); try reflexivity; [|exact E]. cbn [occur]. rewrite Ng, G. cbn. now rewrite P.
    + unfold ret in E. injection E as <- <-. apply went_nil.
  - now apply rreplace_content_gap.
  - cbn [rop_reverse undone] in *.
    set (run := fix go (ops : list operation) (b : rbuffer) : M rbuffer :=
       match ops with
       | [] => ret b
       | o :: rest =>
         let! b1 := go rest b in
         rop_reverse brk (told brk code) al o b1
       end) in *.
    set (evs := fix go ops := match ops with [] => [] | o :: rest => go rest ++ undone brk o end).
    revert h' b' E. induction ops as [|o ops IHo]; intros h' b' R.
    + cbn in R. unfold ret in R. injection R as <- <-. apply went_nil.
    + cbn in R. fold run in R. unfold mbind at 1 in R. destruct (run ops b h) as [[b2 h2]|] eqn:A; [|discriminate]. cbn [bind] in R.
      cbn. fold evs. eapply went_app; [exact (IHo _ _ eq_refl)|]. exact (IH _ _ _ _ _ R).
Qed.

(** ** Cursors *)

Lemma reading_gap2 {A B} r (f : gapbuf -> res A) (k : A -> B) h x h' :
  reading r (fun g => let! s := lift (f g) in ret (k s)) h = Ok (x, h') ->
  h' = h /\ exists g y, nth_error (gaps h) r = Some g /\ f g = Ok y /\ x = k y.
Proof.
  intros E. split.
  - refine (still_reading r _ _ h x h' E). intros g. apply still_bind; [apply still_lift|intros; apply still_ret].
  - unfold reading, mbind, borrow in E. destruct (nth_error h r) as [[g l]|] eqn:N; [|discriminate].
    exists g. destruct l; try discriminate; cbn in E; unfold lift in E; destruct (f g) as [y|]; try discriminate; cbn in E;
      destruct (end_borrow r _) as [[? ?]|]; try discriminate; cbn in E; unfold ret in E; injection E as <- _;
      exists y; (split; [exact (gaps_nth _ _ _ _ N)|auto]).
Qed.
Lemma rmove_to_gap c p h k c' h' g : nth_error (gaps h) (rc_data c) = Some g -> rmove_to brk c p h = Ok (k, c', h') ->
  h' = h /\ rc_data c' = rc_data c /\ move_to brk g (rc_at c) p = Ok (k, rc_at c').
Proof.
  intros N E. unfold rmove_to, mbind in E. destruct (reading _ _ h) as [[ok h1]|] eqn:R; [|discriminate].
  destruct (reading_gap _ _ _ _ _ R) as (-> & g0 & N0 & I). rewrite N in N0. injection N0 as <-.
  unfold move_to. rewrite I. cbn in *. destruct ok; unfold ret in E; injection E as <- <- <-; auto.
Qed.
Lemma rmove_to_gap1 c p h c' h' g : nth_error (gaps h) (rc_data c) = Some g ->
  (let! (_, c') := rmove_to brk c p in ret c') h = Ok (c', h') ->
  h' = h /\ rc_data c' = rc_data c /\ (let* (_, c1) := move_to brk g (rc_at c) p in Ok c1) = Ok (rc_at c').
Proof.
  intros N E. unfold mbind in E. destruct (rmove_to brk c p h) as [[[k c1] h1]|] eqn:M; [|discriminate].
  destruct (rmove_to_gap _ _ _ _ _ _ _ N M) as (-> & D & ->). cbn in *. unfold ret in E. injection E as <- <-. auto.
Qed.
Lemma rmove_to_line_gap c n h c' h' g : nth_error (gaps h) (rc_data c) = Some g -> rmove_to_line brk c n h = Ok (c', h') ->
  h' = h /\ rc_data c' = rc_data c /\ move_to_line brk g (rc_at c) n = Ok (rc_at c').
Proof.
  intros N E. unfold rmove_to_line in E. unfold mbind at 1 in E.
  destruct (rmove_to brk c _ h) as [[[k c1] h1]|] eqn:M; [|discriminate].
  destruct (rmove_to_gap _ _ _ _ _ _ _ N M) as (-> & D & E1). unfold move_to_line. rewrite E1. cbn [bind] in *. destruct k.
  - unfold ret in E. injection E as <- <-. auto.
  - unfold mbind at 1 in E. destruct (reading _ _ h) as [[o h1]|] eqn:R; [|discriminate].
    apply (reading_gap2 (rc_data c1) gb_to_string (fun s => line_length_or_zero brk s n)) in R.
    destruct R as (-> & g0 & s & N0 & T & ->). rewrite D, N in N0. injection N0 as <-. rewrite T. cbn [bind] in *.
    unfold mbind in E. destruct (rmove_to brk c1 _ h) as [[[k2 c2] h2]|] eqn:M2; [|discriminate].
    rewrite <- D in N. destruct (rmove_to_gap _ _ _ _ _ _ _ N M2) as (-> & D2 & E2). rewrite E2. cbn in *.
    unfold ret in E. injection E as <- <-. cbn. split; [reflexivity|]. split; [congruence|reflexivity].
Qed.
Lemma rmove_gap m c h c' h' g : nth_error (gaps h) (rc_data c) = Some g -> rmove brk m c h = Ok (c', h') ->
  h' = h /\ rc_data c' = rc_data c /\ cexec brk g m (rc_at c) = Ok (rc_at c').
Proof.
  intros N E. destruct m; cbn [rmove cexec] in *.
  - exact (rmove_to_gap1 _ _ _ _ _ _ N E).
  - unfold rmove_up, move_up in *. destruct (line (c_pos (rc_at c)) =? 0).
    + unfold ret in E. injection E as <- <-. auto.
    + unfold mbind in E at 1. unfold lift in E. destruct (usub _ 1) as [n|]; [|discriminate]. cbn [bind] in *.
      exact (rmove_to_line_gap _ _ _ _ _ _ N E).
  - exact (rmove_to_line_gap _ _ _ _ _ _ N E).
  - unfold rmove_left, move_left in *. destruct (offset (c_pos (rc_at c)) =? 0).
    + unfold ret in E. injection E as <- <-. auto.
    + unfold mbind in E at 1. unfold lift in E. destruct (usub _ 1) as [n|]; [|discriminate]. cbn [bind] in *.
      exact (rmove_to_gap1 _ _ _ _ _ _ N E).
  - exact (rmove_to_gap1 _ _ _ _ _ _ N E).
  - exact (rmove_to_gap1 _ _ _ _ _ _ N E).
  - unfold rmove_to_end_of_line, move_to_end_of_line in *. unfold mbind at 1 in E.
    destruct (reading _ _ h) as [[s h1]|] eqn:R; [|discriminate].
    destruct (reading_gap _ _ _ _ _ R) as (-> & g0 & N0 & T). rewrite N in N0. injection N0 as <-. rewrite T. cbn [bind] in *.
    destruct (nth_error (str_lines s) _).
    + exact (rmove_to_gap1 _ _ _ _ _ _ N E).
    + unfold ret in E. injection E as <- <-. auto.
  - unfold rmove_to_last_line, move_to_last_line in *. unfold mbind at 1 in E.
    destruct (reading _ _ h) as [[[a b] h1]|] eqn:R; [|discriminate].
    apply (reading_gap2 (rc_data c) gb_to_string (fun s => last_line_loop (graphemes brk s) 0 0)) in R.
    destruct R as (-> & g0 & s & N0 & T & L). rewrite N in N0. injection N0 as <-. rewrite T. cbn [bind] in *. rewrite <- L.
    exact (rmove_to_gap1 _ _ _ _ _ _ N E).
  - unfold rmove_to_first_line, move_to_first_line in *. unfold mbind at 1 in E.
    destruct (reading _ _ h) as [[l h1]|] eqn:R; [|discriminate].
    apply (reading_gap2 (rc_data c) gb_to_string (fun s => match nth_error (str_lines s) 0 with Some l => length (graphemes brk l) | None => 0 end)) in R.
    destruct R as (-> & g0 & s & N0 & T & L). rewrite N in N0. injection N0 as <-. rewrite T. cbn [bind] in *. rewrite <- L.
    exact (rmove_to_gap1 _ _ _ _ _ _ N E).
Qed.

(** ** Calls on a buffer *)

Lemma went_refs al es h b h' b' b2 : went al es h b h' b' ->
  rb_callback b2 = rb_callback b' -> rb_data b2 = rb_data b' -> rb_log b2 = rb_log b' -> went al es h b h' b2.
Proof. intros [A B] E1 E2 E3. split; [congruence|]. now rewrite E2, E3. Qed.
Lemma went_from al es h b b0 h' b' : went al es h b0 h' b' ->
  rb_callback b0 = rb_callback b -> rb_data b0 = rb_data b -> rb_log b0 = rb_log b -> went al es h b h' b'.
Proof. intros [A B] E1 E2 E3. split; [congruence|]. now rewrite <- E1, <- E2, <- E3. Qed.
Lemma went_store al es h b h' b' op : went al es h b h' b' -> went al es h b h' (rstore b' op).
Proof. intros W. apply (went_refs _ _ _ _ _ _ _ W); unfold rstore; now destruct (rb_group b'). Qed.
Lemma redit_gap al op b h b' h' : (let! (op, b') := rop_run brk (told brk code) al op b in ret (rstore b' op)) h = Ok (b', h') ->
  went al (repeated op) h b h' b'.
Proof.
  intros E. unfold mbind in E. destruct (rop_run _ _ al op b h) as [[[o b1] h1]|] eqn:R; [|discriminate].
  cbn in E. unfold ret in E. injection E as <- <-. apply went_store. exact (run_gap _ _ _ _ _ _ _ R).
Qed.
Lemma rreplace_gap al s b h b' h' g : nth_error (gaps h) (rb_data b) = Some g -> rreplace brk (told brk code) al b s h = Ok (b', h') ->
  went al (renewed g s) h b h' b'.
Proof.
  intros N E. unfold rreplace in E. unfold mbind at 1 in E. unfold rdata in E at 1.
  destruct (reading _ _ h) as [[t h1]|] eqn:R; [|discriminate].
  destruct (reading_gap _ _ _ _ _ R) as (-> & g0 & N0 & T). rewrite N in N0. injection N0 as <-. cbn [bind] in E.
  unfold renewed. rewrite T. destruct (list_N_eqb s t).
  - unfold ret in E. injection E as <- <-. apply went_nil.
  - unfold mbind at 1 in E. unfold rdata in E. rewrite R in E. cbn [bind] in E. exact (redit_gap _ _ _ _ _ _ E).
Qed.
Lemma pbuffer_gap al c b f h o b' f' h' g : nth_error (gaps h) (rb_data b) = Some g ->
  pbuffer brk (told brk code) al c b f h = Ok (o, b', f', h') ->
  happen brk code al (rb_callback b) (events brk g f c b) (rb_data b) (rb_log b) (gaps h) = Ok (rb_data b', rb_log b', gaps h').
Proof.
  intros N E.
  assert (X : forall (m : M rbuffer), (let! b' := m in ret (BUnit, b', f)) h = Ok (o, b', f', h') -> m h = Ok (b', h')).
  { intros m Y. unfold mbind in Y. destruct (m h) as [[b1 h1]|]; [|discriminate]. cbn in Y. unfold ret in Y. congruence. }
  assert (Y : forall b1 : rbuffer, ret (BUnit, b1, f) h = Ok (o, b', f', h') -> rb_data b1 = rb_data b -> rb_log b1 = rb_log b ->
    Ok (rb_data b, rb_log b, gaps h) = Ok (rb_data b', rb_log b', gaps h')).
  { intros b1 Z D L. unfold ret in Z. injection Z as <- <- <- <-. now rewrite D, L. }
  destruct c; cbn [pbuffer events] in *.
  - apply X in E. exact (proj2 (redit_gap _ _ _ _ _ _ E)).
  - apply X in E. unfold rdelete in E. unfold mbind at 1 in E. destruct (reading _ _ h) as [[ok h1]|] eqn:R; [|discriminate].
    destruct (reading_gap _ _ _ _ _ R) as (-> & g0 & N0 & I). rewrite N in N0. injection N0 as <-. cbn [bind] in E. rewrite I.
    replace (match ok with true => Pos (line (c_pos (rc_at (rb_cursor b)))) (offset (c_pos (rc_at (rb_cursor b))) + 1)
      | false => Pos (line (c_pos (rc_at (rb_cursor b))) + 1) 0 end) with (if ok then Pos (line (c_pos (rc_at (rb_cursor b)))) (offset (c_pos (rc_at (rb_cursor b))) + 1) else Pos (line (c_pos (rc_at (rb_cursor b))) + 1) 0) by reflexivity.
    exact (proj2 (redit_gap _ _ _ _ _ _ E)).
  - apply X in E. exact (proj2 (redit_gap _ _ _ _ _ _ E)).
  - apply X in E. exact (proj2 (rreplace_gap _ _ _ _ _ _ _ N E)).
  - apply X in E. unfold rundo in E. unfold latest.
    assert (Z : forall op b1, rb_callback b1 = rb_callback b -> rb_data b1 = rb_data b -> rb_log b1 = rb_log b ->
      (match op with Some op => rop_reverse brk (told brk code) al op b1 | None => ret b1 end) h = Ok (b', h') ->
      happen brk code al (rb_callback b) (match op with Some op => undone brk op | None => [] end) (rb_data b) (rb_log b) (gaps h) = Ok (rb_data b', rb_log b', gaps h')).
    { intros [op|] b1 E1 E2 E3 Z.
      - exact (proj2 (went_from _ _ _ _ _ _ _ (reverse_gap _ _ _ _ _ _ Z) E1 E2 E3)).
      - unfold ret in Z. injection Z as <- <-. cbn. now rewrite E2, E3. }
    destruct (rb_group b) as [[|o1 ops]|]; cbn [rb_history rset_group] in E; unfold hist_previous in E;
      try destruct (h_previous (rb_history b)); cbn [hd_error];
      [apply (Z None) in E|apply (Z (Some _)) in E|apply (Z (Some _)) in E|apply (Z (Some _)) in E|apply (Z None) in E|apply (Z (Some _)) in E];
      try reflexivity; exact E.
  - apply X in E. unfold rredo, hist_next in E. destruct (h_next (rb_history b)) as [|op rest].
    + unfold ret in E. injection E as <- <-. reflexivity.
    + unfold mbind in E. destruct (rop_run _ _ al op _ h) as [[[o1 b1] h1]|] eqn:R; [|discriminate]. cbn in E. unfold ret in E. injection E as <- <-.
      exact (proj2 (went_from _ _ _ _ _ _ _ (run_gap _ _ _ _ _ _ _ R) eq_refl eq_refl eq_refl)).
  - apply (Y _ E); unfold rstart_group; now destruct (rb_group b).
  - apply (Y _ E); unfold rend_group; destruct (rb_group b) as [[|]|]; reflexivity.
  - unfold mbind in E. destruct (rmove brk m (rb_cursor b) h) as [[c1 h1]|] eqn:M; [|discriminate]. cbn in E.
    pose proof (rmove_still brk _ _ _ _ _ M) as ->. unfold ret in E. injection E as <- <- <- <-. reflexivity.
  - apply (Y _ E); reflexivity.
  - unfold mbind in E. destruct (rsave f w b h) as [[[[r b1] f1] h1]|] eqn:S; [|discriminate]. cbn in E. unfold ret in E. injection E as <- <- <- <-.
    unfold rsave in S. destruct (rb_path b) as [q|]; [|unfold ret in S; injection S as <- <- <- <-; reflexivity].
    destruct (outcome f q w); [unfold ret in S; injection S as <- <- <- <-; reflexivity|..];
      (unfold mbind in S; unfold rdata in S; destruct (reading _ _ h) as [[t h2]|] eqn:R; [|discriminate];
       destruct (reading_gap _ _ _ _ _ R) as (-> & _); cbn in S; unfold ret in S; injection S as <- <- <- <-; reflexivity).
  - unfold mbind in E. destruct (rreload brk _ al f b h) as [[[r b1] h1]|] eqn:S; [|discriminate]. cbn in E. unfold ret in E. injection E as <- <- <- <-.
    unfold rreload in S. destruct (rb_path b) as [q|]; [|unfold ret in S; injection S as <- <- <-; reflexivity].
    destruct (read_to_string f q) as [t|]; [|unfold ret in S; injection S as <- <- <-; reflexivity].
    unfold mbind in S. destruct (rreplace brk _ al b t h) as [[b2 h2]|] eqn:R; [|discriminate]. cbn in S. unfold ret in S. injection S as <- <- <-.
    exact (proj2 (rreplace_gap _ _ _ _ _ _ _ N R)).
  - apply (Y _ E); reflexivity.
  - apply (Y _ E); reflexivity.
  - apply (Y _ E); reflexivity.
  - apply (Y _ E); reflexivity.
  - unfold ret in E. injection E as <- <- <- <-. reflexivity.
Qed.

(** ** Storages *)

Hypothesis Hos : order_safe brk.
Hypothesis Hcode : closures_ok code.

Definition ev_ok (e : event) : Prop :=
  match e with Put d _ => valid_text d | Cut r => exists p q, r = range_new p q | New t => valid_text t end.
Definition fine (st : store) : Prop := Forall (reachable brk) st.
Lemma fine_put st r g : fine st -> reachable brk g -> fine (put_at st r g).
Proof. intros F R. now apply Forall_put_at. Qed.
Lemma fine_nth st r g : fine st -> nth_error st r = Some g -> reachable brk g.
Proof. intros F N. exact (proj1 (Forall_forall _ _) F g (nth_error_In _ _ N)). Qed.
Lemma on_values_fine s : script_ok s -> forall st t st', fine st -> on_values brk s st = Ok (t, st') -> fine st'.
Proof.
  induction s as [t|al r c k IH]; intros V st t0 st' F E; cbn in E.
  - now injection E as <- <-.
  - inversion V as [|? ? ? ? Va Vc Vk]; subst. destruct (nth_error st r) as [g|] eqn:N; [|discriminate].
    destruct (gexec brk al c g) as [[o g']|] eqn:X; [|discriminate]. cbn in E.
    apply (IH o (Vk o) _ _ _ (fine_put _ r _ F (reachable_exec _ _ _ _ _ _ (fine_nth _ _ _ F N) Va Vc X)) E).
Qed.
Lemma occur_fine al e r st r' st' : alloc_ok al -> ev_ok e -> fine st -> occur brk al e r st = Ok (r', st') -> fine st'.
Proof.
  intros A V F E. destruct e as [d p|x|t]; cbn in E.
  - destruct (nth_error st r) as [g|] eqn:N; [|discriminate]. destruct (gb_insert brk al g d p) as [g'|] eqn:X; [|discriminate].
    injection E as <- <-. apply fine_put; [assumption|].
    apply (reachable_exec brk g al (GInsert d p) OUnit g' (fine_nth _ _ _ F N) A V). cbn. now rewrite X.
  - destruct (nth_error st r) as [g|] eqn:N; [|discriminate]. destruct (gb_delete brk g x) as [g'|] eqn:X; [|discriminate].
    injection E as <- <-. apply fine_put; [assumption|]. destruct V as (p & q & ->).
    apply (reachable_exec brk g al (GDelete p q) OUnit g' (fine_nth _ _ _ F N) A I). cbn. now rewrite X.
  - destruct (reachable_new brk al t V) as (g & G & R & _). rewrite G in E. injection E as <- <-.
    apply Forall_app. split; [assumption|]. now constructor.
Qed.
Lemma happen_fine al cb es : alloc_ok al -> Forall ev_ok es -> forall r log st r' log' st', fine st ->
  happen brk code al cb es r log st = Ok (r', log', st') -> fine st'.
Proof.
  intros A. induction 1 as [|e es V _ IH]; intros r log st r' log' st' F E; cbn in E.
  - now injection E as <- <- <-.
  - destruct (occur brk al e r st) as [[r1 st1]|] eqn:O; [|discriminate]. cbn in E.
    pose proof (occur_fine _ _ _ _ _ _ A V F O) as F1. destruct cb as [n|].
    + destruct (on_values brk (code n (place e) log) st1) as [[t st2]|] eqn:T; [|discriminate]. cbn in E.
      refine (IH _ _ _ _ _ _ _ E). exact (on_values_fine _ (Hcode _ _ _) _ _ _ F1 T).
    + exact (IH _ _ _ _ _ _ F1 E).
Qed.

Lemma repeated_ok op : op_valid op -> Forall ev_ok (repeated op).
Proof.
  revert op. fix IH 1. intros [d p|d r|old new|ops] V; cbn [repeated].
  - now constructor.
  - constructor; [apply V|constructor].
  - constructor; [apply V|constructor].
  - cbn [op_valid] in V. induction ops as [|o ops IHo]; [constructor|]. apply Forall_app. split; [apply IH, V|apply IHo, V].
Qed.
Lemma undone_ok op : op_valid op -> Forall ev_ok (undone brk op).
Proof.
  revert op. fix IH 1. intros [d p|d r|old new|ops] V; cbn [undone].
  - constructor; [|constructor]. cbn. eauto.
  - destruct d as [d|]; constructor; [apply V|constructor].
  - constructor; [apply V|constructor].
  - cbn [op_valid] in V. induction ops as [|o ops IHo]; [constructor|]. apply Forall_app. split; [apply IHo, V|apply IH, V].
Qed.
Lemma renewed_ok g t : valid_text t -> Forall ev_ok (renewed g t).
Proof. intros V. unfold renewed. destruct (gb_to_string g); [|constructor]. destruct (list_N_eqb t _); now constructor. Qed.
Lemma read_valid f q t : read_to_string f q = Some t -> valid_text t.
Proof. unfold read_to_string. destruct (fs_read f q); [|discriminate]. intros E. now apply decode_strict_valid in E as [? _]. Qed.
Lemma events_ok g f c b : call_ok c -> ops_ok b -> Forall ev_ok (events brk g f c b).
Proof.
  intros V (O1 & O2 & O3). destruct c; cbn [events]; try constructor; try constructor; cbn; eauto.
  - now apply renewed_ok.
  - unfold latest. destruct (rb_group b) as [[|o ops]|].
    + destruct O1; [constructor|now apply undone_ok].
    + apply undone_ok. now apply op_valid_group.
    + destruct O1; [constructor|now apply undone_ok].
  - destruct O2; [constructor|now apply repeated_ok].
  - destruct (rb_path b) as [q|]; [|constructor]. destruct (read_to_string f q) as [t|] eqn:E; [|constructor].
    apply renewed_ok. exact (read_valid _ _ _ E).
Qed.

Lemma same_gaps_eq h h' : same_gaps h h' -> gaps h' = gaps h.
Proof.
  intros [L E]. unfold gaps. revert h L E. induction h' as [|x h' IH]; intros [|y h] L E; cbn in *; try lia; [reflexivity|].
  f_equal.
  - specialize (E 0). cbn in E. congruence.
  - apply IH; [lia|]. intros r. exact (E (S r)).
Qed.

Lemma nexec_fine al c w o w' : alloc_ok al -> ncall_ok code w c -> winv code w -> fine (contents w) ->
  nexec brk code al c w = Ok (o, w') -> fine (contents w').
Proof.
  intros A V W F E. destruct w as [bs ks gs h f]. unfold contents in *. cbn [wo_heap] in *. fold (gaps h) in F.
  assert (N : forall g, reachable brk g -> fine (map c_gap (h ++ [Cell g Free]))).
  { intros g R. rewrite map_app. apply Forall_app. split; [assumption|]. now constructor. }
  destruct c; cbn [nexec] in E.
  - unfold rbuffer_new, mbind, lift in E. destruct (reachable_new brk al [] ltac:(constructor)) as (g & G & R & _).
    rewrite G in E. cbn in E. injection E as <- <-. now apply N.
  - unfold rfrom_file in E. destruct (read_to_string f p) as [t|] eqn:T; [|cbn in E; injection E as <- <-; assumption].
    destruct (reachable_new brk al t (read_valid _ _ _ T)) as (g & G & R & _). unfold mbind, lift in E. rewrite G in E. cbn in E.
    destruct (fs_canon f p); cbn in E; injection E as <- <-; now apply N.
  - destruct (nth_error bs i) as [b|] eqn:B; [|injection E as <- <-; assumption].
    destruct (pbuffer brk (told brk code) al c b f h) as [[[[o1 b1] f1] h1]|] eqn:P; [|discriminate]. cbn in E. injection E as <- <-.
    pose proof (proj1 (Forall_forall _ _) (wi_buffers _ _ W) b (nth_error_In _ _ B)) as [Bb Ob]. cbn [wo_heap] in Bb.
    destruct (nth_error (gaps h) (rb_data b)) as [g|] eqn:G.
    2:{ apply nth_error_None in G. rewrite gaps_len in G. destruct Bb as [Bb _]. lia. }
    cbn [wo_heap]. fold (gaps h1). refine (happen_fine _ _ _ A _ _ _ _ _ _ _ F (pbuffer_gap _ _ _ _ _ _ _ _ _ _ G P)).
    apply events_ok; [|assumption]. destruct c; cbn in V; try exact I; try exact V.
  - destruct (nth_error bs i) as [b|] eqn:B; [|injection E as <- <-; assumption]. unfold rdata in E.
    destruct (reading _ _ h) as [[t h1]|] eqn:R; [|discriminate]. cbn in E. injection E as <- <-.
    destruct (reading_gap _ _ _ _ _ R) as (-> & _). assumption.
  - destruct (nth_error bs i) as [b|] eqn:B; [|injection E as <- <-; assumption]. unfold rread in E.
    destruct (reading _ _ h) as [[t h1]|] eqn:R; [|discriminate]. cbn in E. injection E as <- <-.
    destruct (reading_gap _ _ _ _ _ R) as (-> & _). assumption.
  - destruct (nth_error bs i); injection E as <- <-; assumption.
  - destruct (nth_error bs i); injection E as <- <-; assumption.
  - destruct (nth_error bs i); [destruct (nth_error ks k)|]; injection E as <- <-; assumption.
  - destruct (reachable_new brk al t V) as (g & G & R & _). rewrite G in E. cbn in E. injection E as <- <-. now apply N.
  - destruct (nth_error ks k) as [x|] eqn:K; [|injection E as <- <-; assumption].
    destruct (rmove brk m x h) as [[x' h1]|] eqn:M; [|discriminate]. cbn in E. injection E as <- <-.
    pose proof (rmove_still brk _ _ _ _ _ M) as ->. assumption.
  - destruct (nth_error ks k); injection E as <- <-; assumption.
  - destruct (nth_error ks k); [destruct (nth_error ks j)|]; injection E as <- <-; assumption.
  - destruct (nth_error ks k) as [x|] eqn:K; [|injection E as <- <-; assumption].
    destruct (pstorage brk al c (rc_data x) h) as [[o1 h1]|] eqn:P; [|discriminate]. cbn in E. injection E as <- <-.
    destruct (pstorage_gap _ _ _ _ _ _ P) as (g & g' & G & X & Y). cbn [wo_heap]. fold (gaps h1). rewrite Y. apply fine_put; [assumption|].
    exact (reachable_exec _ _ _ _ _ _ (fine_nth _ _ _ F G) A V X).
  - destruct (nth_error ks k) as [x|] eqn:K; [|injection E as <- <-; assumption].
    destruct (hold (rc_data x, m) h) as [[u h1]|] eqn:P; [|discriminate]. cbn in E. injection E as <- <-.
    pose proof (proj1 (Forall_forall _ _) (wi_cursors _ _ W) x (nth_error_In _ _ K)) as L. cbn [wo_heap] in L.
    pose proof (hold_keeps _ _ _ m (wi_kept _ _ W) (wi_guards _ _ W) L) as H. cbn [wo_heap] in H. rewrite P in H.
    cbn [wo_heap]. fold (gaps h1). rewrite (same_gaps_eq _ _ (proj1 (proj2 (proj2 H)))). assumption.
  - destruct (nth_error gs n) as [x|] eqn:K; [|injection E as <- <-; assumption].
    destruct (release_keeps _ _ _ _ (wi_kept _ _ W) (wi_guards _ _ W) K) as (h1 & P & _ & _ & S). cbn [wo_heap] in *. rewrite P in E. cbn in E.
    injection E as <- <-. cbn [wo_heap]. fold (gaps h1). rewrite (same_gaps_eq _ _ S). assumption.
  - injection E as <- <-. assumption.
Qed.
Lemma contents_fine Q f cs os w : world_session brk code Q f cs os w -> fine (contents w).
Proof.
  induction 1 as [|cs os w al c o w' S IH A V _ E]; [constructor|].
  exact (nexec_fine _ _ _ _ _ A V (world_inv brk code Hos Hcode _ _ _ _ _ S) IH E).
Qed.

(** ** What a call leaves alone *)

Lemma put_at_keeps (st : store) r g r0 g0 : r <> r0 -> r < length st -> nth_error st r0 = Some g0 -> nth_error (put_at st r g) r0 = Some g0.
Proof. intros H L E. rewrite nth_put_at by assumption. destruct (Nat.eqb_spec r0 r); [congruence|assumption]. Qed.
Lemma gexec_look al c g o g' : ~ changes c -> gexec brk al c g = Ok (o, g') -> g' = g.
Proof.
  destruct c; cbn; try tauto; intros _.
  - destruct (gb_read brk g _); [|discriminate]. cbn. congruence.
  - destruct (in_bounds brk g p); [|discriminate]. cbn. congruence.
  - destruct (gb_to_string g); [|discriminate]. cbn. congruence.
Qed.
Lemma changes_dec c : changes c \/ ~ changes c.
Proof. destruct c; cbn; tauto. Qed.
Lemma handle_keeps al c (st : store) r g o g' r0 g0 : nth_error st r = Some g -> gexec brk al c g = Ok (o, g') ->
  (changes c -> r <> r0) -> nth_error st r0 = Some g0 -> nth_error (put_at st r g') r0 = Some g0.
Proof.
  intros N X C E. destruct (changes_dec c) as [H|H].
  - apply put_at_keeps; auto. apply nth_error_Some. congruence.
  - rewrite (gexec_look _ _ _ _ _ H X). now rewrite put_at_same.
Qed.
Lemma on_values_keeps r0 g0 s : ~ writes s r0 -> forall st t st', nth_error st r0 = Some g0 -> on_values brk s st = Ok (t, st') -> nth_error st' r0 = Some g0.
Proof.
  induction s as [t|al r c k IH]; intros V st t0 st' F E; cbn in E.
  - now injection E as <- <-.
  - destruct (nth_error st r) as [g|] eqn:N; [|discriminate].
    destruct (gexec brk al c g) as [[o g']|] eqn:X; [|discriminate]. cbn in E.
    refine (IH o _ _ _ _ _ E).
    + intros H. apply V. now apply writes_later with o.
    + apply (handle_keeps _ _ _ _ _ _ _ _ _ N X); [|assumption]. intros C ->. apply V. now apply writes_now.
Qed.
Lemma happen_keeps al cb r0 g0 es : (forall n, cb = Some n -> ~ closure_writes code n r0) -> forall r log st r' log' st',
  r <> r0 -> nth_error st r0 = Some g0 -> happen brk code al cb es r log st = Ok (r', log', st') -> nth_error st' r0 = Some g0.
Proof.
  intros C. induction es as [|e es IH]; intros r log st r' log' st' R F E; cbn in E.
  - now injection E as <- <- <-.
  - destruct (occur brk al e r st) as [[r1 st1]|] eqn:O; [|discriminate]. cbn in E.
    assert (X : r1 <> r0 /\ nth_error st1 r0 = Some g0).
    { destruct e as [d p|x|t]; cbn in O.
      - destruct (nth_error st r) as [g|] eqn:N; [|discriminate]. destruct (gb_insert brk al g d p) as [g'|]; [|discriminate].
        injection O as <- <-. split; [assumption|]. apply put_at_keeps; auto. apply nth_error_Some. congruence.
      - destruct (nth_error st r) as [g|] eqn:N; [|discriminate]. destruct (gb_delete brk g x) as [g'|]; [|discriminate].
        injection O as <- <-. split; [assumption|]. apply put_at_keeps; auto. apply nth_error_Some. congruence.
      - destruct (gb_new al t) as [g|]; [|discriminate]. injection O as <- <-.
        assert (L : r0 < length st) by (apply nth_error_Some; congruence). split; [lia|]. now rewrite nth_error_app1. }
    destruct X as [R1 F1]. destruct cb as [n|].
    + destruct (on_values brk (code n (place e) log) st1) as [[t st2]|] eqn:T; [|discriminate]. cbn in E.
      refine (IH _ _ _ _ _ _ R1 _ E). refine (on_values_keeps _ _ _ _ _ _ _ F1 T). intros W. apply (C n eq_refl). now exists (place e), log.
    + exact (IH _ _ _ _ _ _ R1 F1 E).
Qed.

Lemma nexec_keeps al c w o w' r g : winv code w -> nexec brk code al c w = Ok (o, w') ->
  nth_error (contents w) r = Some g -> ~ may_change code w c r -> nth_error (contents w') r = Some g.
Proof.
  intros W E F T. destruct w as [bs ks gs h f]. unfold contents in *. cbn [wo_heap] in *. fold (gaps h) in F.
  assert (N : forall x, nth_error (map c_gap (h ++ [x])) r = Some g).
  { intros x. rewrite map_app. rewrite nth_error_app1; [assumption|]. apply nth_error_Some. fold (gaps h). congruence. }
  destruct c; cbn [nexec] in E.
  - unfold rbuffer_new, mbind, lift in E. destruct (gb_new al []) as [g1|]; [|discriminate]. cbn in E. injection E as <- <-. apply N.
  - unfold rfrom_file in E. destruct (read_to_string f p) as [t|]; [|cbn in E; injection E as <- <-; assumption].
    unfold mbind, lift in E. destruct (gb_new al t) as [g1|]; [|discriminate]. cbn in E.
    destruct (fs_canon f p); cbn in E; injection E as <- <-; apply N.
  - destruct (nth_error bs i) as [b|] eqn:B; [|injection E as <- <-; assumption].
    destruct (pbuffer brk (told brk code) al c b f h) as [[[[o1 b1] f1] h1]|] eqn:P; [|discriminate]. cbn in E. injection E as <- <-.
    pose proof (proj1 (Forall_forall _ _) (wi_buffers _ _ W) b (nth_error_In _ _ B)) as [Bb _]. cbn [wo_heap] in Bb.
    destruct (nth_error (gaps h) (rb_data b)) as [g1|] eqn:G.
    2:{ apply nth_error_None in G. rewrite gaps_len in G. destruct Bb as [Bb _]. lia. }
    cbn [wo_heap]. fold (gaps h1). refine (happen_keeps _ _ _ _ _ _ _ _ _ _ _ _ _ F (pbuffer_gap _ _ _ _ _ _ _ _ _ _ G P)).
    + intros n Hn X. apply T. cbn. exists b. split; [assumption|]. right. now exists n.
    + intros X. apply T. cbn. exists b. split; [assumption|]. now left.
  - destruct (nth_error bs i) as [b|] eqn:B; [|injection E as <- <-; assumption]. unfold rdata in E.
    destruct (reading _ _ h) as [[t h1]|] eqn:R; [|discriminate]. cbn in E. injection E as <- <-.
    destruct (reading_gap _ _ _ _ _ R) as (-> & _). assumption.
  - destruct (nth_error bs i) as [b|] eqn:B; [|injection E as <- <-; assumption]. unfold rread in E.
    destruct (reading _ _ h) as [[t h1]|] eqn:R; [|discriminate]. cbn in E. injection E as <- <-.
    destruct (reading_gap _ _ _ _ _ R) as (-> & _). assumption.
  - destruct (nth_error bs i); injection E as <- <-; assumption.
  - destruct (nth_error bs i); injection E as <- <-; assumption.
  - destruct (nth_error bs i); [destruct (nth_error ks k)|]; injection E as <- <-; assumption.
  - destruct (gb_new al t) as [g1|]; [|discriminate]. cbn in E. injection E as <- <-. apply N.
  - destruct (nth_error ks k) as [x|] eqn:K; [|injection E as <- <-; assumption].
    destruct (rmove brk m x h) as [[x' h1]|] eqn:M; [|discriminate]. cbn in E. injection E as <- <-.
    pose proof (rmove_still brk _ _ _ _ _ M) as ->. assumption.
  - destruct (nth_error ks k); injection E as <- <-; assumption.
  - destruct (nth_error ks k); [destruct (nth_error ks j)|]; injection E as <- <-; assumption.
  - destruct (nth_error ks k) as [x|] eqn:K; [|injection E as <- <-; assumption].
    destruct (pstorage brk al c (rc_data x) h) as [[o1 h1]|] eqn:P; [|discriminate]. cbn in E. injection E as <- <-.
    destruct (pstorage_gap _ _ _ _ _ _ P) as (g1 & g' & G & X & Y). cbn [wo_heap]. fold (gaps h1). rewrite Y.
    apply (handle_keeps _ _ _ _ _ _ _ _ _ G X); [|assumption]. intros C D. apply T. cbn. split; [assumption|]. now exists x.
  - destruct (nth_error ks k) as [x|] eqn:K; [|injection E as <- <-; assumption].
    destruct (hold (rc_data x, m) h) as [[u h1]|] eqn:P; [|discriminate]. cbn in E. injection E as <- <-.
    pose proof (proj1 (Forall_forall _ _) (wi_cursors _ _ W) x (nth_error_In _ _ K)) as L. cbn [wo_heap] in L.
    pose proof (hold_keeps _ _ _ m (wi_kept _ _ W) (wi_guards _ _ W) L) as H. cbn [wo_heap] in H. rewrite P in H.
    cbn [wo_heap]. fold (gaps h1). rewrite (same_gaps_eq _ _ (proj1 (proj2 (proj2 H)))). assumption.
  - destruct (nth_error gs n) as [x|] eqn:K; [|injection E as <- <-; assumption].
    destruct (release_keeps _ _ _ _ (wi_kept _ _ W) (wi_guards _ _ W) K) as (h1 & P & _ & _ & S). cbn [wo_heap] in *. rewrite P in E. cbn in E.
    injection E as <- <-. cbn [wo_heap]. fold (gaps h1). rewrite (same_gaps_eq _ _ S). assumption.
  - injection E as <- <-. assumption.
Qed.

Lemma nexec_cursors al c w o w' k x : nexec brk code al c w = Ok (o, w') ->
  nth_error (wo_cursors w) k = Some x -> ~ may_move c k -> nth_error (wo_cursors w') k = Some x.
Proof.
  intros E K T. destruct w as [bs ks gs h f]. cbn [wo_cursors] in *.
  assert (L : k < length ks) by (apply nth_error_Some; congruence).
  assert (N : forall y, nth_error (ks ++ [y]) k = Some x) by (intros y; now rewrite nth_error_app1).
  assert (P : forall j y z, nth_error ks j = Some z -> j <> k -> nth_error (put_at ks j y) k = Some x).
  { intros j y z J H. rewrite nth_put_at by (apply nth_error_Some; congruence). destruct (Nat.eqb_spec k j); [congruence|assumption]. }
  destruct c; cbn [nexec] in E; cbn in T;
    repeat match type of E with
    | match ?m with _ => _ end = _ => destruct m eqn:?; try discriminate
    | bind ?m _ = _ => destruct m as [?|] eqn:?; try discriminate; cbn [bind] in E
    | Ok _ = Ok _ => injection E as <- <-; cbn [wo_cursors]; try assumption; try apply N; try (eapply P; eassumption)
    end.
all: destruct r; injection E as <- <-; assumption.
Qed.
End Proofs.

Section Stated.
Variable brk : brk_rule.
Variable code : closures.
Lemma told_exactly al i c w o w' b g : nexec brk code al (NBuffer i c) w = Ok (o, w') ->
  nth_error (wo_buffers w) i = Some b -> nth_error (contents w) (rb_data b) = Some g ->
  exists b', nth_error (wo_buffers w') i = Some b' /\
    happen brk code al (rb_callback b) (events brk g (wo_disk w) c b) (rb_data b) (rb_log b) (contents w)
    = Ok (rb_data b', rb_log b', contents w').
Proof.
  intros E B G. destruct w as [bs ks gs h f]. cbn in *. rewrite B in E.
  destruct (pbuffer brk (told brk code) al c b f h) as [[[[o1 b1] f1] h1]|] eqn:P; [|discriminate]. cbn in E. injection E as <- <-.
  exists b1. cbn. split.
  - rewrite nth_put_at by (apply nth_error_Some; congruence). now rewrite Nat.eqb_refl.
  - exact (pbuffer_gap brk code _ _ _ _ _ _ _ _ _ _ G P).
Qed.
Lemma all_gap_buffers w r g : order_safe brk -> closures_ok code -> reached brk code w ->
  nth_error (contents w) r = Some g -> reachable brk g.
Proof.
  intros Hos Hcode (f & cs & os & S) E. exact (fine_nth _ _ _ _ (contents_fine brk code Hos Hcode _ _ _ _ _ S) E).
Qed.
Lemma moves_on_text al k m w o w' x g : nexec brk code al (NMove k m) w = Ok (o, w') ->
  nth_error (wo_cursors w) k = Some x -> nth_error (contents w) (rc_data x) = Some g ->
  exists c', cexec brk g m (rc_at x) = Ok c' /\ nth_error (wo_cursors w') k = Some (RCur (rc_data x) c') /\
    wo_buffers w' = wo_buffers w /\ contents w' = contents w /\ wo_guards w' = wo_guards w /\ wo_disk w' = wo_disk w.
Proof.
  intros E K G. destruct w as [bs ks gs h f]. cbn in *. rewrite K in E.
  destruct (rmove brk m x h) as [[x' h1]|] eqn:M; [|discriminate]. cbn in E. injection E as <- <-.
  destruct (rmove_gap brk _ _ _ _ _ _ G M) as (-> & D & C). exists (rc_at x'). split; [assumption|]. cbn. split.
  - rewrite nth_put_at by (apply nth_error_Some; congruence). rewrite Nat.eqb_refl, <- D. now destruct x'.
  - auto.
Qed.
Lemma handles_on_text al k c w o w' x g : nexec brk code al (NGap k c) w = Ok (o, w') ->
  nth_error (wo_cursors w) k = Some x -> nth_error (contents w) (rc_data x) = Some g ->
  exists r g', gexec brk al c g = Ok (r, g') /\ o = UStorage r /\ contents w' = put_at (contents w) (rc_data x) g' /\
    wo_buffers w' = wo_buffers w /\ wo_cursors w' = wo_cursors w /\ wo_guards w' = wo_guards w /\ wo_disk w' = wo_disk w.
Proof.
  intros E K G. destruct w as [bs ks gs h f]. cbn in *. rewrite K in E.
  destruct (pstorage brk al c (rc_data x) h) as [[o1 h1]|] eqn:P; [|discriminate]. cbn in E. injection E as <- <-.
  destruct (pstorage_gap brk _ _ _ _ _ _ P) as (g1 & g' & N & X & Y). unfold contents in *. cbn in *. unfold gaps in *. rewrite G in N. injection N as <-.
  exists o1, g'. auto 10.
Qed.
Lemma storage_kept al c w o w' r g : order_safe brk -> closures_ok code -> reached brk code w -> nexec brk code al c w = Ok (o, w') ->
  nth_error (contents w) r = Some g -> ~ may_change code w c r -> nth_error (contents w') r = Some g.
Proof.
  intros Hos Hcode (f & cs & os & S). exact (nexec_keeps brk code al c w o w' r g (world_inv brk code Hos Hcode _ _ _ _ _ S)).
Qed.
Lemma copies al i k j p w b x y : nth_error (wo_buffers w) i = Some b -> nth_error (wo_cursors w) k = Some x -> nth_error (wo_cursors w) j = Some y ->
  let same w' := wo_guards w' = wo_guards w /\ contents w' = contents w /\ wo_disk w' = wo_disk w in
  (exists w', nexec brk code al (NClone i) w = Ok (UUnit, w') /\ same w' /\
     wo_buffers w' = wo_buffers w /\ wo_cursors w' = wo_cursors w ++ [rb_cursor b]) /\
  (exists w', nexec brk code al (NAssign i k) w = Ok (UUnit, w') /\ same w' /\
     wo_buffers w' = put_at (wo_buffers w) i (rset_cursor b x) /\ wo_cursors w' = wo_cursors w) /\
  (exists w', nexec brk code al (NPlace k p) w = Ok (UUnit, w') /\ same w' /\ wo_buffers w' = wo_buffers w /\
     wo_cursors w' = put_at (wo_cursors w) k (RCur (rc_data x) (Cur p (c_sticky (rc_at x))))) /\
  (exists w', nexec brk code al (NData k j) w = Ok (UUnit, w') /\ same w' /\ wo_buffers w' = wo_buffers w /\
     wo_cursors w' = put_at (wo_cursors w) k (RCur (rc_data y) (rc_at x))).
Proof.
  intros B K J same. destruct w as [bs ks gs h f]. cbn in B, K, J. unfold nexec. rewrite B, K, J.
  repeat split; (eexists; split; [reflexivity|]; repeat split).
Qed.
Lemma made al w : (exists w' b g, nexec brk code al NNew w = Ok (UUnit, w') /\ wo_buffers w' = wo_buffers w ++ [b] /\
     wo_cursors w' = wo_cursors w /\ wo_guards w' = wo_guards w /\ wo_disk w' = wo_disk w /\ contents w' = contents w ++ [g] /\
     gb_to_string g = Ok [] /\ rb_data b = length (contents w) /\ rb_cursor b = RCur (rb_data b) (cursor_new (Pos 0 0)) /\
     rb_callback b = None /\ rb_log b = []) /\
  forall t p, valid_text t -> exists w' g, nexec brk code al (NStorage t p) w = Ok (UUnit, w') /\ wo_buffers w' = wo_buffers w /\
     wo_cursors w' = wo_cursors w ++ [RCur (length (contents w)) (cursor_new p)] /\
     wo_guards w' = wo_guards w /\ wo_disk w' = wo_disk w /\ contents w' = contents w ++ [g] /\ gb_to_string g = Ok t.
Proof.
  destruct w as [bs ks gs h f]. unfold contents. cbn [wo_heap wo_buffers wo_cursors wo_guards wo_disk nexec]. split.
  - destruct (reachable_new brk al [] ltac:(constructor)) as (g & G & _ & T). unfold rbuffer_new, mbind, lift. rewrite G. cbn.
    do 3 eexists. split; [reflexivity|]. cbn. rewrite map_app, map_length. repeat split. exact T.
  - intros t p V. destruct (reachable_new brk al t V) as (g & G & _ & T). rewrite G. cbn.
    do 2 eexists. split; [reflexivity|]. cbn. rewrite map_app, map_length. repeat split. exact T.
Qed.
End Stated.
