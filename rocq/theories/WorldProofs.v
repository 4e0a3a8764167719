(** Proofs about programs with many buffers. *)
From Verif Require Import Base Utf8 Utf8Proofs Grapheme Position GapBuffer Cursor PathModel Buffer
  ClusterSpec GraphemeProofs GapBufferProofs Spec Calls TextProofs UaxProofs HalvesProofs
  TextFacts GapProps CursorSpec CursorCalls CursorProofs BufferCalls Timeline OpProofs TimelineProofs
  AnyTextProofs Shared SharedSpec SharedProofs World WorldSpec.

(** ** Borrowing, whatever is borrowed already *)

(** Every storage holds text and is borrowed as [L] says. *)
Definition kept (L : ref -> lease) (h : heap) : Prop :=
  (forall r c, nth_error h r = Some c -> wf (c_gap c) /\ c_lease c = L r) /\
  (forall r, length h <= r -> L r = Free).

Lemma kept_nth L h r : kept L h -> r < length h -> exists g, nth_error h r = Some (Cell g (L r)) /\ wf g.
Proof.
  intros [K _] H. destruct (nth_error h r) as [[g l]|] eqn:E; [|apply nth_error_None in E; lia].
  destruct (K _ _ E) as [W El]. cbn in *. subst l. eauto.
Qed.
Lemma kept_put L h r g : kept L h -> r < length h -> L r = Free -> wf g -> kept L (put h r (Cell g Free)).
Proof.
  intros [K N] Hr Hf W. split; [|now rewrite put_length]. intros r' c E. destruct (Nat.eq_dec r r') as [<-|Hn].
  - rewrite nth_put in E by assumption. injection E as <-. now split.
  - rewrite nth_put_other in E by assumption. now apply K.
Qed.
Lemma kept_new L h g : kept L h -> wf g -> kept L (h ++ [Cell g Free]).
Proof.
  intros [K N] W. split.
  - intros r c E. destruct (Nat.lt_ge_cases r (length h)) as [Hr|Hr].
    + rewrite nth_error_app1 in E by assumption. now apply K.
    + rewrite nth_error_app2 in E by assumption. assert (Er : r - length h = 0).
      { apply nth_lt in E. cbn in E. lia. }
      rewrite Er in E. injection E as <-. split; [assumption|]. symmetry. now apply N.
  - intros r Hr. apply N. rewrite app_length in Hr. lia.
Qed.

Lemma heap_ext (h h' : heap) : (forall r, nth_error h' r = nth_error h r) -> h' = h.
Proof.
  revert h'. induction h as [|c h IH]; intros [|c' h'] H; [reflexivity|specialize (H 0); discriminate|specialize (H 0); discriminate|].
  pose proof (H 0) as H0. injection H0 as ->. f_equal. apply IH. intros r. exact (H (S r)).
Qed.

(** Reading leaves the heap as it was. *)
Definition still {A} (m : M A) : Prop := forall h x h', m h = Ok (x, h') -> h' = h.
Lemma still_ret {A} (x : A) : still (ret x).
Proof. intros h y h' E. now injection E as _ <-. Qed.
Lemma still_lift {A} (m : res A) : still (lift m).
Proof. intros h y h' E. unfold lift in E. destruct m; [|discriminate]. now injection E as _ <-. Qed.
Lemma still_bind {A B} (m : M A) (k : A -> M B) : still m -> (forall x, still (k x)) -> still (mbind m k).
Proof.
  intros Hm Hk h y h' E. unfold mbind in E. destruct (m h) as [[x h1]|] eqn:Em; [|discriminate]. cbn [bind] in E.
  rewrite (Hk _ _ _ _ E). eapply Hm; eassumption.
Qed.
Lemma still_reading {A} r (k : gapbuf -> M A) : (forall g, still (k g)) -> still (reading r k).
Proof.
  intros Hk h y h' E. unfold reading, mbind, borrow in E. destruct (nth_error h r) as [[g [|n|]]|] eqn:En; try discriminate; cbn [bind] in E.
  - destruct (k g _) as [[x h1]|] eqn:Ek; [|discriminate]. apply Hk in Ek. subst h1. cbn [bind] in E.
    unfold end_borrow in E. rewrite nth_put in E by now apply nth_lt in En. cbn in E. injection E as _ <-.
    now rewrite put_put, put_same.
  - destruct (k g _) as [[x h1]|] eqn:Ek; [|discriminate]. apply Hk in Ek. subst h1. cbn [bind] in E.
    unfold end_borrow in E. rewrite nth_put in E by now apply nth_lt in En. rewrite Nat.add_1_r in E. cbn in E. injection E as _ <-.
    now rewrite put_put, put_same.
Qed.
Ltac stays := repeat match goal with
  | |- still (ret _) => apply still_ret
  | |- still (lift _) => apply still_lift
  | |- still (reading _ _) => apply still_reading; intros ?
  | |- still (mbind _ _) => apply still_bind; [|intros ?]
  | |- still (match ?x with _ => _ end) => destruct x
  end.

Lemma reading_borrowed {A} (f : gapbuf -> res A) h r g l : nth_error h r = Some (Cell g l) ->
  reading r (fun g => lift (f g)) h = match l with Writing => Panic | _ => let* x := f g in Ok (x, h) end.
Proof.
  intros E. destruct (reading r (fun g => lift (f g)) h) as [[x h']|] eqn:R.
  - assert (h' = h) as -> by (eapply still_reading; [intros; apply still_lift|exact R]).
    unfold reading, mbind, borrow in R. rewrite E in R. destruct l; try discriminate; cbn [bind] in R; unfold lift in R;
      (destruct (f g) as [y|]; [|discriminate]; cbn [bind] in *; destruct (end_borrow r _) as [[u h2]|]; [|discriminate];
       now injection R as <- _).
  - unfold reading, mbind, borrow in R. rewrite E in R. destruct l; [| |reflexivity]; cbn [bind] in R; unfold lift in R;
      (destruct (f g) as [y|]; [|reflexivity]; cbn [bind] in R; unfold end_borrow in R;
       rewrite nth_put in R by (now apply nth_lt in E)).
    + discriminate.
    + rewrite Nat.add_1_r in R. discriminate.
Qed.
Lemma writing_borrowed (f : gapbuf -> res gapbuf) h r g l : nth_error h r = Some (Cell g l) -> l <> Free ->
  writing r (fun g => lift (f g)) h = Panic.
Proof. intros E H. unfold writing, mbind, borrow_mut. rewrite E. now destruct l. Qed.

Section Proofs.
Variable brk : brk_rule.
Variable code : closures.
Hypothesis Hos : order_safe brk.
Hypothesis Hcode : closures_ok code.

Lemma rmove_to_still c p : still (rmove_to brk c p).
Proof. unfold rmove_to. stays. Qed.
Lemma rmove_still m c : still (rmove brk m c).
Proof.
  destruct m; cbn [rmove]; unfold rmove_up, rmove_down, rmove_left, rmove_right, rmove_to_start_of_line,
    rmove_to_end_of_line, rmove_to_last_line, rmove_to_first_line, rmove_to_line;
    repeat (stays; try apply rmove_to_still).
Qed.
Lemma rmove_to_data c p h k c' h' : rmove_to brk c p h = Ok (k, c', h') -> rc_data c' = rc_data c.
Proof.
  unfold rmove_to, mbind. destruct (reading _ _ h) as [[[|] h1]|]; cbn [bind ret]; [..|discriminate]; now intros [= _ <- _].
Qed.

(** Calls on a storage. *)
Lemma pstorage_steps L al c r h : alloc_ok al -> gcall_ok c -> kept L h -> r < length h ->
  match pstorage brk al c r h with
  | Ok (_, h') => kept L h' /\ length h' = length h /\
      (forall r', r' <> r \/ ~ changes c -> nth_error h' r' = nth_error h r')
  | Panic => L r <> Free
  end.
Proof.
  intros Ha Hc K Hr. destruct (kept_nth L h r K Hr) as (g & E & W).
  set (v := Buf None g None (Cur (Pos 0 0) 0) hist_new None None false []).
  assert (Wr : forall f, (L r = Free -> exists g', f g = Ok g' /\ wf g') ->
    match mbind (writing r (fun g => lift (f g))) (fun _ => ret OUnit) h with
    | Ok (_, h') => kept L h' /\ length h' = length h /\ (forall r', r' <> r -> nth_error h' r' = nth_error h r')
    | Panic => L r <> Free end).
  { intros f Hf. unfold mbind. destruct (L r) eqn:El.
    - rewrite (writing_lift _ _ _ _ E). destruct (Hf eq_refl) as (g' & Eg & Wg). rewrite Eg. cbn.
      split; [now apply kept_put|]. split; [apply put_length|]. intros r' Hn. now apply nth_put_other, not_eq_sym.
    - now rewrite (writing_borrowed _ _ _ _ _ E).
    - now rewrite (writing_borrowed _ _ _ _ _ E). }
  assert (Rd : forall (B : Type) (f : gapbuf -> res B) (o : B -> gout), (exists x, f g = Ok x) ->
    match mbind (reading r (fun g => lift (f g))) (fun x => ret (o x)) h with
    | Ok (_, h') => kept L h' /\ length h' = length h /\ (forall r', nth_error h' r' = nth_error h r')
    | Panic => L r <> Free end).
  { intros B f o (x & Ex). unfold mbind. rewrite (reading_borrowed _ _ _ _ _ E), Ex. destruct (L r); cbn; try easy; now split. }
  destruct c; cbn [pstorage gcall_ok changes] in *.
  - specialize (Wr (fun g => gb_insert brk al g data p)). cbn beta in Wr.
    destruct (mbind _ _ h) as [[o h']|]; [|apply Wr; intros _].
    + destruct Wr as (A & B & C).
      { intros _. destruct (gb_insert_step brk al v data p Ha W Hc) as (g' & E' & St). cbn [b_data v] in E'.
        exists g'. split; [assumption|apply (st_wf _ _ St)]. }
      split; [assumption|]. split; [assumption|]. intros r' [H|H]; [now apply C|now destruct H].
    + destruct (gb_insert_step brk al v data p Ha W Hc) as (g' & E' & St). cbn [b_data v] in E'.
      exists g'. split; [assumption|apply (st_wf _ _ St)].
  - specialize (Wr (fun g => gb_delete brk g (range_new p q))). cbn beta in Wr.
    assert (X : exists g', gb_delete brk g (range_new p q) = Ok g' /\ wf g').
    { pose proof (gb_delete_step brk v p q W) as X. cbn [b_data v] in X.
      destruct (gb_delete brk g (range_new p q)) as [g'|]; [|easy]. exists g'. split; [reflexivity|apply (st_wf _ _ X)]. }
    specialize (Wr (fun _ => X)). destruct (mbind _ _ h) as [[o h']|]; [|assumption]. destruct Wr as (A & B & C).
    split; [assumption|]. split; [assumption|]. intros r' [H|H]; [now apply C|now destruct H].
  - destruct (gb_read_valid brk g p q W) as (m & Em & _).
    specialize (Rd _ (fun g => gb_read brk g (range_new p q)) ORead (ex_intro _ m Em)). cbn beta in Rd.
    destruct (mbind _ _ h) as [[o h']|]; [|assumption]. destruct Rd as (A & B & C). auto.
  - specialize (Rd _ (fun g => in_bounds brk g p) OBool (in_bounds_wf brk g p W)). cbn beta in Rd.
    destruct (mbind _ _ h) as [[o h']|]; [|assumption]. destruct Rd as (A & B & C). auto.
  - specialize (Rd _ gb_to_string OText (to_string_total g W)). cbn beta in Rd.
    destruct (mbind _ _ h) as [[o h']|]; [|assumption]. destruct Rd as (A & B & C). auto.
Qed.

Lemma script_steps L s : script_ok s -> forall h, kept L h -> (forall r, uses s r -> r < length h) ->
  match run_script brk s h with
  | Ok (_, h') => kept L h' /\ length h' = length h /\ (forall r, ~ writes s r -> nth_error h' r = nth_error h r)
  | Panic => exists r, uses s r /\ L r <> Free
  end.
Proof.
  induction 1 as [t|al r c k Ha Hc Hk IH]; intros h K U; cbn [run_script].
  - cbn. auto.
  - unfold mbind. pose proof (pstorage_steps L al c r h Ha Hc K (U r (uses_now _ _ _ _))) as X.
    destruct (pstorage brk al c r h) as [[o h1]|]; cbn [bind].
    + destruct X as (K1 & L1 & F1). specialize (IH o h1 K1). rewrite L1 in IH.
      specialize (IH (fun r' Hr => U r' (uses_later _ _ _ _ o _ Hr))).
      destruct (run_script brk (k o) h1) as [[t h2]|].
      * destruct IH as (K2 & L2 & F2). split; [assumption|]. split; [congruence|].
        intros r' Hn. rewrite F2; [apply F1|].
        -- destruct (Nat.eq_dec r' r) as [->|]; [right|now left]. intros Hx. apply Hn. now constructor.
        -- intros Hw. apply Hn. now apply writes_later with o.
      * destruct IH as (r' & Hu & Hf). exists r'. split; [now apply uses_later with o|assumption].
    + exists r. split; [constructor|assumption].
Qed.

(** ** Buffers *)

Definition based (h : heap) (b : rbuffer) : Prop :=
  rb_data b < length h /\ rc_data (rb_cursor b) < length h /\
  (forall n r, rb_callback b = Some n -> closure_uses code n r -> r < length h).
Definition free (L : ref -> lease) (b : rbuffer) : Prop :=
  L (rb_data b) = Free /\ (forall n r, rb_callback b = Some n -> closure_uses code n r -> L r = Free).
Definition looks (b : rbuffer) : Prop :=
  forall n r, rb_callback b = Some n -> ~ closure_writes code n r.

Record steps (L : ref -> lease) (h : heap) (b : rbuffer) (h' : heap) (b' : rbuffer) : Prop := Steps {
  sp_kept : kept L h';
  sp_length : length h <= length h';
  sp_based : based h' b';
  sp_callback : rb_callback b' = rb_callback b;
  sp_frame : forall r, r < length h -> r <> rb_data b ->
    (forall n, rb_callback b = Some n -> ~ closure_writes code n r) -> nth_error h' r = nth_error h r;
  sp_place : (rb_data b' = rb_data b /\ rc_data (rb_cursor b') = rc_data (rb_cursor b)) \/
             (length h <= rb_data b' /\ rc_data (rb_cursor b') = rb_data b');
  sp_history : rb_history b' = rb_history b;
  sp_group : rb_group b' = rb_group b }.

Lemma steps_refl L h b : kept L h -> based h b -> steps L h b h b.
Proof. intros K B. split; auto. Qed.
Lemma steps_trans L h b h1 b1 h2 b2 : rb_data b < length h -> steps L h b h1 b1 -> steps L h1 b1 h2 b2 -> steps L h b h2 b2.
Proof.
  intros Hd [A1 A2 A3 A4 A5 A6 A7 A8] [B1 B2 B3 B4 B5 B6 B7 B8]. split; try assumption; try congruence; try lia.
  intros r Hr Hn Hw. rewrite B5; [now apply A5|lia| |now rewrite A4].
    destruct A6 as [[-> _]|[A6 _]]; [assumption|lia].
Qed.
Lemma free_later L h b h1 b1 : kept L h -> steps L h b h1 b1 -> free L b -> free L b1.
Proof.
  intros K [A1 A2 A3 A4 A5 A6 _ _] [F1 F2]. split; [|now rewrite A4].
  destruct A6 as [[-> _]|[A6 _]]; [assumption|]. now apply K.
Qed.
Lemma looks_later b b1 : rb_callback b1 = rb_callback b -> looks b -> looks b1.
Proof. unfold looks. now intros ->. Qed.

Lemma seen_at h b v c : seen h b = Some v -> nth_error h (rb_data b) = Some c -> b_data v = c_gap c.
Proof. unfold seen. intros V E. rewrite E in V. now injection V as <-. Qed.

(** Telling the callback. *)
Lemma rnotify_steps L h b p : kept L h -> based h b ->
  match rnotify (told brk code) b p h with
  | Ok (b', h') => kept L h' /\ length h' = length h /\ based h' b' /\ rb_callback b' = rb_callback b /\
      (forall r, (forall n, rb_callback b = Some n -> ~ closure_writes code n r) -> nth_error h' r = nth_error h r) /\
      rb_data b' = rb_data b /\ rb_cursor b' = rb_cursor b /\ rb_history b' = rb_history b /\ rb_group b' = rb_group b /\
      (looks b -> h' = h /\ forall v, seen h b = Some v -> seen h b' = Some (notify v p))
  | Panic => ~ free L b
  end.
Proof.
  intros K (P1 & P2 & P3). unfold rnotify. destruct (rb_callback b) as [n|] eqn:Ec.
  - unfold mbind, told, ret.
    pose proof (script_steps L (code n p (rb_log b)) (Hcode n p _) h K) as X.
    specialize (X (fun r Hr => P3 n r eq_refl (ex_intro _ p (ex_intro _ _ Hr)))).
    destruct (run_script brk (code n p (rb_log b)) h) as [[t h']|]; cbn [bind].
    + destruct X as (K' & L' & F'). split; [assumption|]. split; [assumption|].
      split. { unfold based. cbn. rewrite L'. auto. }
      split; [reflexivity|]. split.
      { intros r Hn. apply F'. intros Hw. apply (Hn n eq_refl). eexists _, _. exact Hw. }
      split; [reflexivity|]. split; [reflexivity|]. split; [reflexivity|]. split; [reflexivity|].
      intros Hl. split.
      { apply heap_ext. intros r. apply F'. intros Hw. apply (Hl n r Ec). eexists _, _. exact Hw. }
      intros v V. unfold seen in *. cbn [rb_data]. destruct (nth_error h (rb_data b)); [|discriminate].
      injection V as <-. unfold notify. cbn. rewrite Ec, map_app. reflexivity.
    + destruct X as (r & Hu & Hf). intros [_ Hx]. apply Hf, (Hx n); [assumption|]. eexists _, _. exact Hu.
  - cbn. split; [assumption|]. split; [reflexivity|]. split; [split; [assumption|split; [assumption|now rewrite Ec]]|].
    split; [assumption|]. split; [auto|]. do 4 (split; [reflexivity|]). intros _. split; [reflexivity|].
    intros v V. rewrite V. f_equal. unfold seen in V. destruct (nth_error h (rb_data b)); [|discriminate].
    injection V as <-. unfold notify. cbn. now rewrite Ec.
Qed.

(** What is proved of each step [m], which returns [x] and a buffer; [n] is the
    same step of Buffer.v. *)
Definition does {A} (L : ref -> lease) (h : heap) (b : rbuffer) (ok : A -> Prop)
    (m : M (A * rbuffer)) (n : buffer -> res (A * buffer)) : Prop :=
  match m h with
  | Ok ((x, b'), h') => steps L h b h' b' /\ ok x /\
      (looks b -> forall v, seen h b = Some v -> exists v', n v = Ok (x, v') /\ seen h' b' = Some v')
  | Panic => ~ free L b
  end.

(** An edit in place followed by the notification. *)
Lemma edit_steps L h b p f : kept L h -> based h b ->
  (forall g, wf g -> exists g', f g = Ok g' /\ wf g') ->
  does L h b (fun _ : unit => True)
    (let! _ := writing (rb_data b) (fun g => lift (f g)) in let! b' := rnotify (told brk code) b p in ret (tt, b'))
    (fun v => let* g := f (b_data v) in Ok (tt, notify (set_data v g) p)).
Proof.
  intros K B Hf. unfold does. destruct (kept_nth L h (rb_data b) K (proj1 B)) as (g & E & W).
  destruct (Hf g W) as (g' & Eg & Wg). unfold mbind at 1. destruct (L (rb_data b)) eqn:El.
  2,3: rewrite (writing_borrowed _ _ _ _ _ E) by easy; cbn; intros [Hx _]; congruence.
  rewrite (writing_lift _ _ _ _ E), Eg. cbn [bind]. set (h1 := put h (rb_data b) (Cell g' Free)).
  assert (K1 : kept L h1) by (apply kept_put; try assumption; apply B).
  assert (L1 : length h1 = length h) by apply put_length.
  assert (B1 : based h1 b) by (unfold based in *; now rewrite L1).
  unfold mbind. pose proof (rnotify_steps L h1 b p K1 B1) as X.
  destruct (rnotify (told brk code) b p h1) as [[b' h']|]; cbn [bind ret]; [|assumption].
  destruct X as (X1 & X2 & X3 & X4 & X5 & X6 & X7 & X8 & X9 & X10). unfold ret. split.
  - split; try assumption; [lia| |left; split; congruence].
    intros r Hr Hn Hw. rewrite X5 by assumption. apply nth_put_other. congruence.
  - split; [exact I|]. intros Hl v V. destruct (X10 Hl) as (-> & X11). pose proof (seen_at _ _ _ _ V E) as Ed. cbn in Ed.
    rewrite Ed, Eg. cbn [bind]. eexists. split; [reflexivity|]. apply X11. unfold seen in *.
    unfold h1. rewrite nth_put by apply B. rewrite E in V. now injection V as <-.
Qed.

Lemma does_map {A B} L h b (ok : A -> Prop) (ok' : B -> Prop) m n (g : A -> B) :
  does L h b ok m n -> (forall x, ok x -> ok' (g x)) ->
  does L h b ok' (let! (x, b') := m in ret (g x, b')) (fun v => let* (x, v') := n v in Ok (g x, v')).
Proof.
  unfold does, mbind. intros D H. destruct (m h) as [[[x b'] h']|]; cbn [bind ret]; [|assumption].
  destruct D as (D1 & D2 & D3). unfold ret. split; [assumption|]. split; [now apply H|].
  intros Hl v V. destruct (D3 Hl v V) as (v' & -> & V'). cbn. eauto.
Qed.
Lemma does_eq {A} L h b (ok : A -> Prop) m m' n n' : does L h b ok m n ->
  m' h = m h -> (forall v, n' v = n v) -> does L h b ok m' n'.
Proof.
  unfold does. intros D -> Hn. destruct (m h) as [[[x b'] h']|]; [|assumption]. destruct D as (D1 & D2 & D3).
  split; [assumption|]. split; [assumption|]. intros Hl v V. rewrite Hn. now apply D3.
Qed.

(** Replacing the storage. *)
Lemma rreplace_content_steps L al s h b : valid_text s -> kept L h -> based h b ->
  does L h b (fun _ : unit => True)
    (let! b' := rreplace_content brk (told brk code) al s b in ret (tt, b'))
    (fun v => let* v' := replace_content brk al s v in Ok (tt, v')).
Proof.
  intros Vs K B. unfold does, rreplace_content, replace_content.
  destruct (new_ok al s Vs) as (g & Eg & R). assert (W : wf g) by now exists s, [].
  rewrite Eg. unfold mbind at 1. unfold mbind at 1, lift at 1. cbn [bind]. unfold mbind at 1, new_cell at 1. cbn [bind].
  set (h1 := h ++ [Cell g Free]). set (r := length h).
  assert (E : nth_error h1 r = Some (Cell g Free)).
  { unfold h1, r. rewrite nth_error_app2, Nat.sub_diag by lia. reflexivity. }
  assert (K1 : kept L h1) by now apply kept_new.
  assert (L1 : length h1 = length h + 1) by (unfold h1; rewrite app_length; reflexivity).
  assert (Hp : forall v, seen h b = Some v -> c_pos (b_cursor v) = c_pos (rc_at (rb_cursor b))).
  { intros v V. unfold seen in V. destruct (nth_error h (rb_data b)); [|discriminate]. now injection V as <-. }
  set (p := c_pos (rc_at (rb_cursor b))) in *.
  assert (X : forall c, match (let* (x, h2) := rnotify (told brk code) (rset_cursor (rset_data b r) (on r c)) (Pos 0 0) h1 in ret (tt, x) h2) with
    | Ok ((x, b'), h') => steps L h b h' b' /\ True /\
      (looks b -> forall v, seen h b = Some v ->
         exists v', Ok (notify (set_cursor (set_data v g) c) (Pos 0 0)) = Ok v' /\ seen h' b' = Some v')
    | Panic => ~ free L b
    end).
  { intros c. set (b1 := rset_cursor (rset_data b r) (on r c)).
    assert (B1 : based h1 b1).
    { destruct B as (Q1 & Q2 & Q3). unfold based, b1. cbn. rewrite L1.
      split; [unfold r; lia|]. split; [unfold r; lia|]. intros n r' Hc Hu. specialize (Q3 n r' Hc Hu). lia. }
    pose proof (rnotify_steps L h1 b1 (Pos 0 0) K1 B1) as X.
    destruct (rnotify (told brk code) b1 (Pos 0 0) h1) as [[b' h']|]; cbn [bind ret].
    - destruct X as (X1 & X2 & X3 & X4 & X5 & X6 & X7 & X8 & X9 & X10). unfold ret. split.
      + split; try assumption; [lia| |right].
        * intros r' Hr Hn Hw. rewrite X5 by assumption. unfold h1. now rewrite nth_error_app1.
        * rewrite X6, X7. cbn. unfold r. split; [lia|reflexivity].
      + split; [exact I|]. intros Hl v V. destruct (X10 Hl) as (-> & X11). eexists. split; [reflexivity|].
        apply X11. unfold seen in *. unfold b1. cbn [rb_data rset_data rset_cursor]. rewrite E.
        destruct (nth_error h (rb_data b)); [|discriminate]. injection V as <-. reflexivity.
    - intros Hf. apply X. destruct Hf as [_ F2]. split; [|exact F2]. cbn. apply K. unfold r. lia. }
  change (rcursor_new r (Pos 0 0)) with (on r (cursor_new (Pos 0 0))).
  unfold mbind at 1. rewrite (rmove_to_sim _ _ _ _ _ _ E).
  destruct (move_to_bool brk g (cursor_new (Pos 0 0)) p W) as (k & c1 & E1). rewrite E1. cbn [bind].
  destruct k; cbn [bind].
  - specialize (X c1). unfold mbind, ret in *. cbn [bind].
    destruct (rnotify _ _ _ h1) as [[b' h']|]; cbn [bind] in *; [|assumption].
    destruct X as (X1 & X2 & X3). split; [assumption|]. split; [exact I|]. intros Hl v V.
    destruct (X3 Hl v V) as (v' & Ev & V'). rewrite (Hp v V), E1. cbn [bind]. injection Ev as <-. eauto.
  - unfold mbind. rewrite (rmove_to_sim _ _ _ _ _ _ E).
    destruct (move_to_bool brk g c1 (Pos (line p) 0) W) as (k2 & c2 & E2). rewrite E2. cbn [bind ret].
    specialize (X c2). unfold ret in *. cbn [bind].
    destruct (rnotify _ _ _ h1) as [[b' h']|]; cbn [bind] in *; [|assumption].
    destruct X as (X1 & X2 & X3). split; [assumption|]. split; [exact I|]. intros Hl v V.
    destruct (X3 Hl v V) as (v' & Ev & V'). rewrite (Hp v V), E1. cbn [bind]. rewrite E2. cbn [bind].
    injection Ev as <-. eauto.
Qed.

Lemma run_steps L al op : alloc_ok al -> op_valid op -> forall h b, kept L h -> based h b ->
  does L h b op_valid (rop_run brk (told brk code) al op b) (op_run brk al op).
Proof.
  intros Ha. induction op as [d p|c r|s t|ops IH] using operation_induction; intros Hv h b K B.
  - pose proof (edit_steps L h b p (fun g => gb_insert brk al g d p) K B) as X.
    eapply does_eq; [eapply (does_map L h b _ op_valid _ _ (fun _ => OpInsert d p)); [apply X|intros; exact Hv]|..].
    + intros g W. set (v := Buf None g None (Cur (Pos 0 0) 0) hist_new None None false []).
      destruct (gb_insert_step brk al v d p Ha W Hv) as (g' & E' & St). exists g'. split; [assumption|apply (st_wf _ _ St)].
    + cbn [rop_run]. unfold mbind. destruct (writing _ _ h) as [[u h1]|]; cbn [bind]; [|reflexivity].
      now destruct (rnotify _ b p h1) as [[b' h']|].
    + intros v. cbn [op_run]. now destruct (gb_insert brk al (b_data v) d p).
  - destruct Hv as [Hv (p & q & ->)]. set (r := range_new p q).
    destruct (kept_nth L h (rb_data b) K (proj1 B)) as (g & E & W).
    destruct (gb_read_valid brk g p q W) as (m & Em & Vm). fold r in Em.
    pose proof (edit_steps L h b (r_start r) (fun g => gb_delete brk g r) K B) as X.
    assert (D : does L h b op_valid
      (let! (_, b') := (let! _ := writing (rb_data b) (fun g => lift (gb_delete brk g r)) in
                        let! b' := rnotify (told brk code) b (r_start r) in ret (tt, b')) in ret (OpDelete m r, b'))
      (fun v => let* (_, v') := (let* g := gb_delete brk (b_data v) r in Ok (tt, notify (set_data v g) (r_start r))) in
                Ok (OpDelete m r, v'))).
    { eapply (does_map L h b _ op_valid _ _ (fun _ => OpDelete m r)); [apply X|intros; split; [assumption|now exists p, q]].
      intros g0 W0. set (v := Buf None g0 None (Cur (Pos 0 0) 0) hist_new None None false []).
      pose proof (gb_delete_step brk v p q W0) as Y. cbn [b_data v] in Y. fold r in Y.
      destruct (gb_delete brk g0 r) as [g'|]; [|easy]. exists g'. split; [reflexivity|apply (st_wf _ _ Y)]. }
    clear X. unfold does in *. cbn [rop_run op_run]. unfold mbind at 1. rewrite (reading_borrowed _ _ _ _ _ E), Em.
    destruct (L (rb_data b)) eqn:El; cbn [bind]; [| |intros [Hx _]; congruence].
    + unfold mbind in *. destruct (writing _ _ h) as [[u h1]|]; cbn [bind] in *; [|assumption].
      destruct (rnotify _ b _ h1) as [[b' h']|]; cbn [bind ret] in *; [|assumption].
      unfold ret in *. cbn [bind] in *. destruct D as (D1 & D2 & D3). split; [assumption|]. split; [assumption|].
      intros Hl v V. destruct (D3 Hl v V) as (v' & Ev & V'). rewrite (seen_at _ _ _ _ V E). cbn [c_gap]. fold r. rewrite Em. cbn [bind].
      rewrite (seen_at _ _ _ _ V E) in Ev. cbn [c_gap] in Ev.
      destruct (gb_delete brk g r); [|discriminate]. cbn [bind] in *. exists v'. split; [congruence|assumption].
    + unfold mbind in *. rewrite (writing_borrowed _ _ _ _ _ E) in * by easy. exact D.
  - destruct Hv as [Vs Vt]. pose proof (rreplace_content_steps L al t h b Vt K B) as X.
    eapply does_eq; [eapply (does_map L h b _ op_valid _ _ (fun _ => OpReplace s t)); [apply X|intros; now split]|..].
    + cbn [rop_run]. unfold mbind. now destruct (rreplace_content _ _ al t b h) as [[b' h']|].
    + intros v. cbn [op_run]. now destruct (replace_content brk al t v).
  - apply op_valid_group in Hv. unfold does. cbn [rop_run].
    set (go := fix go (ops : list operation) (b : rbuffer) : M (list operation * rbuffer) := _).
    assert (X : does L h b (Forall op_valid) (go ops b) (go_run brk al ops)).
    { revert h b K B. induction ops as [|o ops IHo]; intros h b K B.
      - cbn. split; [now apply steps_refl|]. split; [constructor|]. eauto.
      - inversion_clear IH as [|? ? IH1 IH2]. inversion_clear Hv as [|? ? V1 V2].
        specialize (IH1 V1 h b K B). specialize (IHo IH2 V2). unfold does in *. cbn [go_run]. unfold go; fold go. unfold mbind.
        destruct (rop_run brk (told brk code) al o b h) as [[[o' b1] h1]|]; cbn [bind]; [|assumption].
        destruct IH1 as (S1 & O1 & X1). specialize (IHo h1 b1 (sp_kept _ _ _ _ _ S1) (sp_based _ _ _ _ _ S1)). unfold mbind.
        destruct (go ops b1 h1) as [[[ops' b2] h2]|]; cbn [bind].
        + destruct IHo as (S2 & O2 & X2). unfold ret. split; [eapply steps_trans; [apply B|eassumption|eassumption]|].
          split; [now constructor|]. intros Hl v V. destruct (X1 Hl v V) as (v1 & E1 & W1).
          destruct (X2 (looks_later _ _ (sp_callback _ _ _ _ _ S1) Hl) v1 W1) as (v2 & E2 & W2).
          exists v2. rewrite E1. cbn [bind]. rewrite E2. now split.
        + intros Hf. apply IHo. eapply free_later; eassumption. }
    unfold does in X. unfold mbind. destruct (go ops b h) as [[[ops' b'] h']|]; cbn [bind ret]; [|assumption].
    destruct X as (X1 & X2 & X3). unfold ret. split; [assumption|]. split; [now apply op_valid_group|].
    intros Hl v V. destruct (X3 Hl v V) as (v' & Ev & V'). exists v'. split; [|assumption].
    change (op_run brk al (OpGroup ops) v) with (let* (ops', b') := go_run brk al ops v in Ok (OpGroup ops', b')).
    now rewrite Ev.
Qed.

Lemma reverse_steps L al op : alloc_ok al -> op_valid op -> forall h b, kept L h -> based h b ->
  does L h b (fun _ : unit => True) (let! b' := rop_reverse brk (told brk code) al op b in ret (tt, b'))
    (fun v => let* v' := op_reverse brk al op v in Ok (tt, v')).
Proof.
  intros Ha. induction op as [d p|c r|s t|ops IH] using operation_induction; intros Hv h b K B.
  - cbn [rop_reverse op_reverse]. destruct (insert_end brk d p) as [e|].
    2:{ cbn. split; [now apply steps_refl|]. split; [exact I|]. eauto. }
    eapply does_eq; [apply (edit_steps L h b p (fun g => gb_delete brk g (range_new p e)) K B)|..].
    + intros g W. set (v := Buf None g None (Cur (Pos 0 0) 0) hist_new None None false []).
      pose proof (gb_delete_step brk v p e W) as Y. cbn [b_data v] in Y.
      destruct (gb_delete brk g (range_new p e)) as [g'|]; [|easy]. exists g'. split; [reflexivity|apply (st_wf _ _ Y)].
    + unfold mbind. now destruct (writing _ _ h) as [[u h1]|].
    + intros v. cbv beta. now destruct (gb_delete brk (b_data v) (range_new p e)).
  - destruct Hv as [Vc (p & q & ->)]. cbn [rop_reverse op_reverse]. destruct c as [m|].
    2:{ cbn. split; [now apply steps_refl|]. split; [exact I|]. eauto. }
    set (x := r_start (range_new p q)).
    eapply does_eq; [apply (edit_steps L h b x (fun g => gb_insert brk al g m x) K B)|..].
    + intros g W. set (v := Buf None g None (Cur (Pos 0 0) 0) hist_new None None false []).
      destruct (gb_insert_step brk al v m x Ha W Vc) as (g' & E' & St). exists g'. split; [assumption|apply (st_wf _ _ St)].
    + unfold mbind. now destruct (writing _ _ h) as [[u h1]|].
    + intros v. cbv beta. now destruct (gb_insert brk al (b_data v) m x).
  - destruct Hv as [Vs Vt]. cbn [rop_reverse op_reverse]. now apply rreplace_content_steps.
  - apply op_valid_group in Hv. cbn [rop_reverse].
    set (go := fix go (ops : list operation) (b : rbuffer) : M rbuffer := _).
    eapply (does_eq L h b _ (let! b' := go ops b in ret (tt, b')) _ (fun v => let* v' := go_rev brk al ops v in Ok (tt, v'))); [|reflexivity|reflexivity].
    revert h b K B. induction ops as [|o ops IHo]; intros h b K B.
    + cbn. split; [now apply steps_refl|]. split; [exact I|]. eauto.
    + inversion_clear IH as [|? ? IH1 IH2]. inversion_clear Hv as [|? ? V1 V2]. specialize (IHo IH2 V2 h b K B).
      unfold does in *. cbn [go_rev]. unfold go; fold go. unfold mbind in *.
      destruct (go ops b h) as [[b1 h1]|]; cbn [bind ret] in *; [|assumption].
      unfold ret in IHo. destruct IHo as (S1 & _ & X1).
      specialize (IH1 V1 h1 b1 (sp_kept _ _ _ _ _ S1) (sp_based _ _ _ _ _ S1)). 
      destruct (rop_reverse brk (told brk code) al o b1 h1) as [[b2 h2]|]; cbn [bind ret] in *.
      * unfold ret in *. destruct IH1 as (S2 & _ & X2). split; [eapply steps_trans; [apply B|eassumption|eassumption]|].
        split; [exact I|]. intros Hl v V. destruct (X1 Hl v V) as (v1 & E1 & W1).
        destruct (X2 (looks_later _ _ (sp_callback _ _ _ _ _ S1) Hl) v1 W1) as (v2 & E2 & W2).
        destruct (go_rev brk al ops v) as [v1'|]; [|discriminate]. cbn [bind] in *. injection E1 as ->.
        destruct (op_reverse brk al o v1) as [v2'|]; [|discriminate]. injection E2 as ->. now exists v2.
      * intros Hf. apply IH1. eapply free_later; eassumption.
Qed.

(** ** Calls of the buffer API *)

Definition ops_ok (b : rbuffer) : Prop :=
  Forall op_valid (h_previous (rb_history b)) /\ Forall op_valid (h_next (rb_history b)) /\
  match rb_group b with Some ops => Forall op_valid ops | None => True end.

Record moves (L : ref -> lease) (h : heap) (b : rbuffer) (h' : heap) (b' : rbuffer) : Prop := Moves {
  mv_kept : kept L h';
  mv_length : length h <= length h';
  mv_based : based h' b';
  mv_ops : ops_ok b';
  mv_callback : rb_callback b' = rb_callback b \/ rb_callback b' = None;
  mv_frame : forall r, r < length h -> r <> rb_data b ->
    (forall n, rb_callback b = Some n -> ~ closure_writes code n r) -> nth_error h' r = nth_error h r;
  mv_place : (rb_data b' = rb_data b /\ rc_data (rb_cursor b') = rc_data (rb_cursor b)) \/
             (length h <= rb_data b' /\ rc_data (rb_cursor b') = rb_data b') }.

Lemma based_same h b b' : same_refs b b' -> based h b -> based h b'.
Proof. intros (E1 & E2 & E3 & _) B. unfold based in *. now rewrite E1, E2, E3. Qed.
Lemma free_same L b b' : same_refs b b' -> free L b -> free L b'.
Proof. intros (E1 & E2 & E3 & _) B. unfold free in *. now rewrite E1, E3. Qed.
Lemma steps_moves L h b b1 h' b' b2 : same_refs b b1 -> steps L h b1 h' b' -> same_refs b' b2 -> ops_ok b2 ->
  moves L h b h' b2.
Proof.
  intros (E1 & E2 & E3 & _) [A1 A2 A3 A4 A5 A6 _ _] R O. pose proof R as (R1 & R2 & R3 & _). split; try assumption.
  - now apply (based_same _ b').
  - left. congruence.
  - now rewrite <- E1, <- E3.
  - rewrite R1, R2, <- E1, <- E2. assumption.
Qed.
Lemma moves_same L h b b' : kept L h -> based h b -> same_refs b b' -> ops_ok b' -> moves L h b h b'.
Proof.
  intros K B R O. apply (steps_moves L h b b h b b'); try assumption; [now repeat split|now apply steps_refl].
Qed.
Lemma moves_refs L h b h1 b1 b2 : moves L h b h1 b1 -> same_refs b1 b2 -> ops_ok b2 -> moves L h b h1 b2.
Proof.
  intros [A1 A2 A3 A4 A5 A6 A7] R O. pose proof R as (R1 & R2 & R3 & _). split; try assumption.
  - now apply (based_same _ b1).
  - now rewrite R3.
  - now rewrite R1, R2.
Qed.
Lemma same_self b : same_refs b b.
Proof. now repeat split. Qed.

Definition acts (L : ref -> lease) (h : heap) (b : rbuffer) (m : M rbuffer) (n : buffer -> res buffer) : Prop :=
  match m h with
  | Ok (b', h') => moves L h b h' b' /\
      (looks b -> forall v, seen h b = Some v -> exists v', n v = Ok v' /\ seen h' b' = Some v')
  | Panic => ~ free L b
  end.

Lemma ops_store b op : ops_ok b -> op_valid op -> ops_ok (rstore b op).
Proof.
  intros (O1 & O2 & O3) H. unfold rstore, ops_ok. destruct (rb_group b) as [ops|] eqn:Eg; cbn.
  - split; [assumption|]. split; [assumption|]. apply Forall_app. split; [assumption|now repeat constructor].
  - split; [now constructor|]. split; [constructor|]. now rewrite Eg.
Qed.
Lemma ops_same b b' : rb_history b' = rb_history b -> rb_group b' = rb_group b -> ops_ok b -> ops_ok b'.
Proof. unfold ops_ok. now intros -> ->. Qed.

Lemma rdata_reads L h b : kept L h -> based h b ->
  match rdata b h with
  | Ok (t, h') => h' = h /\ valid_text t /\ (forall v, seen h b = Some v -> buf_data v = Ok t)
  | Panic => ~ free L b
  end.
Proof.
  intros K B. destruct (kept_nth L h _ K (proj1 B)) as (g & E & W). unfold rdata. rewrite (reading_borrowed _ _ _ _ _ E).
  destruct W as (s1 & s2 & R).
  assert (X : match (let* t := gb_to_string g in Ok (t, h)) with
    | Ok (t, h') => h' = h /\ valid_text t /\ (forall v, seen h b = Some v -> buf_data v = Ok t)
    | Panic => ~ free L b end).
  { set (v0 := Buf None g None (Cur (Pos 0 0) 0) hist_new None None false []).
    assert (W0 : wfb v0) by (split; cbn; [now exists s1, s2|constructor|constructor|exact I]).
    destruct (wfb_data_total v0 W0) as (t & Et & Vt). unfold buf_data in Et. cbn in Et. rewrite Et. cbn.
    split; [reflexivity|]. split; [assumption|]. intros v V. unfold buf_data. now rewrite (seen_at _ _ _ _ V E). }
  destruct (L (rb_data b)) eqn:El; [exact X|exact X|]. intros [Hf _]. congruence.
Qed.

Lemma redit_acts L al op h b : alloc_ok al -> op_valid op -> kept L h -> based h b -> ops_ok b ->
  acts L h b (mbind (rop_run brk (told brk code) al op b) (fun '(op', b') => ret (rstore b' op')))
    (fun v => let* (op', v') := op_run brk al op v in Ok (store v' op')).
Proof.
  intros Ha Hv K B O. pose proof (run_steps L al op Ha Hv h b K B) as X. unfold does, acts in *. unfold mbind.
  destruct (rop_run brk (told brk code) al op b h) as [[[op' b'] h']|]; cbn [bind]; [|assumption].
  unfold ret. destruct X as (X1 & X2 & X3). split.
  - apply (steps_moves L h b b h' b'); [apply same_self|assumption|apply store_refs|].
    apply ops_store; [|assumption]. apply (ops_same b); try assumption; apply X1.
  - intros Hl v V. destruct (X3 Hl v V) as (v' & Ev & V'). rewrite Ev. cbn. eexists. split; [reflexivity|]. now apply seen_store.
Qed.

Lemma rreplace_acts L al s h b : alloc_ok al -> valid_text s -> kept L h -> based h b -> ops_ok b ->
  acts L h b (rreplace brk (told brk code) al b s) (fun v => buf_replace brk al v s).
Proof.
  intros Ha Vs K B O. unfold acts, rreplace, buf_replace. unfold mbind at 1.
  pose proof (rdata_reads L h b K B) as X. destruct (rdata b h) as [[t h']|] eqn:E; cbn [bind]; [|assumption].
  destruct X as (-> & Vt & Hd). destruct (list_N_eqb s t) eqn:Es.
  - unfold ret. split; [apply moves_same; try assumption; apply same_self|]. intros _ v V. rewrite (Hd v V). cbn.
    rewrite Es. eauto.
  - unfold mbind at 1. rewrite E. cbn [bind].
    pose proof (redit_acts L al (OpReplace t s) h b Ha (conj Vt Vs) K B O) as Y. unfold acts in Y.
    destruct (mbind _ _ h) as [[b' h']|]; [|assumption]. destruct Y as (Y1 & Y2). split; [assumption|].
    intros Hl v V. rewrite (Hd v V). cbn [bind]. rewrite Es. now apply Y2.
Qed.

Lemma rundo_acts L al h b : alloc_ok al -> kept L h -> based h b -> ops_ok b ->
  acts L h b (rundo brk (told brk code) al b) (buf_undo brk al).
Proof.
  intros Ha K B O. unfold acts, rundo, buf_undo.
  assert (Run : forall op b1 (pre : buffer -> buffer), op_valid op -> same_refs b b1 -> ops_ok b1 ->
    (forall v, seen h b = Some v -> seen h b1 = Some (pre v)) ->
    match rop_reverse brk (told brk code) al op b1 h with
    | Ok (b', h') => moves L h b h' b' /\
       (looks b -> forall v, seen h b = Some v -> exists v', op_reverse brk al op (pre v) = Ok v' /\ seen h' b' = Some v')
    | Panic => ~ free L b
    end).
  { intros op b1 pre Hv R O1 Hp.
    pose proof (reverse_steps L al op Ha Hv h b1 K (based_same _ _ _ R B)) as X. unfold does, mbind in X.
    destruct (rop_reverse brk (told brk code) al op b1 h) as [[b' h']|]; cbn [bind ret] in X.
    - unfold ret in X. destruct X as (X1 & _ & X3). split.
      + apply (steps_moves L h b b1 h' b'); [assumption|assumption|apply same_self|].
        apply (ops_same b1); try assumption; apply X1.
      + intros Hl v V. destruct (X3 (looks_later _ _ (proj1 (proj2 (proj2 R))) Hl) _ (Hp v V)) as (v' & Ev & V').
        destruct (op_reverse brk al op (pre v)); [|discriminate]. injection Ev as ->. eauto.
    - intros Hf. apply X. now apply (free_same _ b). }
  assert (Hist :
    let '(op, x) := hist_previous (rb_history b) in
    match match op with Some op => rop_reverse brk (told brk code) al op (rset_history (rset_group b None) x)
                      | None => ret (rset_history (rset_group b None) x) end h with
    | Ok (b', h') => moves L h b h' b' /\
       (looks b -> forall v, seen h b = Some v -> exists v',
          (let '(op, b1) := (let '(op, x) := hist_previous (b_history (set_group v None)) in (op, set_history (set_group v None) x)) in
           match op with Some op => op_reverse brk al op b1 | None => Ok b1 end) = Ok v' /\ seen h' b' = Some v')
    | Panic => ~ free L b
    end).
  { destruct O as (O1 & O2 & O3). destruct (hist_previous (rb_history b)) as [op x] eqn:Ex.
    assert (Ox : ops_ok (rset_history (rset_group b None) x) /\ match op with Some o => op_valid o | None => True end).
    { unfold hist_previous in Ex. destruct (h_previous (rb_history b)) as [|o l] eqn:El; injection Ex as <- <-.
      - split; [|exact I]. unfold ops_ok. cbn. rewrite El. auto.
      - inversion_clear O1. split; [|assumption]. unfold ops_ok. cbn. auto. }
    destruct Ox as [Ox Ho]. assert (R : same_refs b (rset_history (rset_group b None) x)) by now repeat split.
    destruct op as [op|].
    - pose proof (Run op _ (fun v => set_history (set_group v None) x) Ho R Ox (fun v V => seen_history _ _ _ _ (seen_group _ _ _ None V))) as X.
      destruct (rop_reverse brk (told brk code) al op _ h) as [[b' h']|]; [|assumption]. destruct X as [X1 X2].
      split; [assumption|]. intros Hl v V. cbn [b_history set_group].
      destruct (seen_inv _ _ _ V) as (_ & _ & _ & -> & _). rewrite Ex. now apply X2.
    - unfold ret. split; [now apply moves_same|]. intros _ v V. cbn [b_history set_group].
      destruct (seen_inv _ _ _ V) as (_ & _ & _ & -> & _). rewrite Ex. eexists. split; [reflexivity|].
      now apply seen_history, seen_group. }
  destruct (rb_group b) as [[|o ops]|] eqn:Eg.
  - cbn [rb_history rset_group]. destruct (hist_previous (rb_history b)) as [op x].
    match type of Hist with match ?m with _ => _ end => destruct m as [[b' h']|] end; [|assumption]. destruct Hist as [X1 X2].
    split; [assumption|]. intros Hl v V. destruct (seen_inv _ _ _ V) as (_ & _ & _ & _ & -> & _). rewrite Eg. now apply X2.
  - destruct O as (O1 & O2 & O3). rewrite Eg in O3.
    pose proof (Run (OpGroup (o :: ops)) (rset_group b None) (fun v => set_group v None)
      (proj2 (op_valid_group _) O3) ltac:(now repeat split) (conj O1 (conj O2 I)) (fun v V => seen_group _ _ _ None V)) as X.
    destruct (rop_reverse brk (told brk code) al _ _ h) as [[b' h']|]; [|assumption]. destruct X as [X1 X2].
    split; [assumption|]. intros Hl v V. destruct (seen_inv _ _ _ V) as (_ & _ & _ & _ & -> & _). rewrite Eg. now apply X2.
  - cbn [rb_history rset_group]. destruct (hist_previous (rb_history b)) as [op x].
    match type of Hist with match ?m with _ => _ end => destruct m as [[b' h']|] end; [|assumption]. destruct Hist as [X1 X2].
    split; [assumption|]. intros Hl v V. destruct (seen_inv _ _ _ V) as (_ & _ & _ & _ & -> & _). rewrite Eg. now apply X2.
Qed.

Lemma rredo_acts L al h b : alloc_ok al -> kept L h -> based h b -> ops_ok b ->
  acts L h b (rredo brk (told brk code) al b) (buf_redo brk al).
Proof.
  intros Ha K B (O1 & O2 & O3). unfold acts, rredo, buf_redo. destruct (hist_next (rb_history b)) as [op x] eqn:Ex.
  assert (Ox : ops_ok (rset_history b x) /\ match op with Some o => op_valid o | None => True end).
  { unfold hist_next in Ex. destruct (h_next (rb_history b)) as [|o l] eqn:El; injection Ex as <- <-.
    - split; [|exact I]. unfold ops_ok. cbn. rewrite El. auto.
    - inversion_clear O2. split; [|assumption]. unfold ops_ok. cbn. auto. }
  destruct Ox as [Ox Ho]. assert (R : same_refs b (rset_history b x)) by now repeat split. destruct op as [op|].
  - pose proof (run_steps L al op Ha Ho h _ K (based_same _ _ _ R B)) as X. unfold does in X. unfold mbind.
    destruct (rop_run brk (told brk code) al op _ h) as [[[op' b'] h']|]; cbn [bind].
    + unfold ret. destruct X as (X1 & X2 & X3). split.
      * apply (steps_moves L h b _ h' b' b' R); [assumption|apply same_self|]. eapply ops_same; [..|exact Ox]; apply X1.
      * intros Hl v V. destruct (X3 (looks_later b _ eq_refl Hl) _ (seen_history _ _ _ x V)) as (v' & Ev & V').
        destruct (seen_inv _ _ _ V) as (_ & _ & _ & -> & _). rewrite Ex, Ev. cbn. eauto.
    + intros Hf. apply X. now apply (free_same _ b).
  - unfold ret. split; [now apply moves_same|]. intros _ v V. destruct (seen_inv _ _ _ V) as (_ & _ & _ & -> & _).
    rewrite Ex. eexists. split; [reflexivity|]. now apply seen_history.
Qed.

Definition tied (b : rbuffer) : Prop := rc_data (rb_cursor b) = rb_data b.

Lemma rmove_data m c h c' h' : rmove brk m c h = Ok (c', h') -> rc_data c' = rc_data c.
Proof.
  assert (T : forall (p : position) (k : rcursor), (let! (_, c') := rmove_to brk k p in ret c') h = Ok (c', h') -> rc_data c' = rc_data k).
  { intros p k E. unfold mbind in E. destruct (rmove_to brk k p h) as [[[x c1] h1]|] eqn:E1; [|discriminate].
    injection E as <- _. now apply rmove_to_data in E1. }
  assert (R : forall {A} r (f : gapbuf -> M A) (k : A -> M rcursor), (forall g, still (f g)) ->
    (forall x, k x h = Ok (c', h') -> rc_data c' = rc_data c) ->
    mbind (reading r f) k h = Ok (c', h') -> rc_data c' = rc_data c).
  { intros A r f k Hf Hk E. unfold mbind in E. destruct (reading r f h) as [[x h1]|] eqn:E1; [|discriminate].
    assert (h1 = h) as -> by (eapply still_reading; eassumption). now apply (Hk x). }
  assert (Ln : forall n, rmove_to_line brk c n h = Ok (c', h') -> rc_data c' = rc_data c).
  { intros n E. unfold rmove_to_line in E. unfold mbind at 1 in E.
    destruct (rmove_to brk c _ h) as [[[x c1] h1]|] eqn:E1; [|discriminate]. cbn [bind] in E.
    pose proof (rmove_to_data _ _ _ _ _ _ E1) as D1. apply rmove_to_still in E1. subst h1.
    destruct x; [now injection E as <- _|]. rewrite <- D1. rewrite <- D1 in R.
    revert E. apply R; [intros; stays|]. intros y E. unfold mbind in E.
    destruct (rmove_to brk c1 _ h) as [[[x c2] h2]|] eqn:E2; [|discriminate]. apply rmove_to_data in E2.
    now injection E as <- _. }
  destruct m; cbn [rmove].
  - apply T.
  - unfold rmove_up. destruct (_ =? 0); [now intros [= <- _]|]. unfold mbind, lift. destruct (usub _ _); [|discriminate]. cbn. apply Ln.
  - apply Ln.
  - unfold rmove_left. destruct (_ =? 0); [now intros [= <- _]|]. unfold mbind at 1, lift. destruct (usub _ _); [|discriminate]. cbn [bind]. apply T.
  - apply T.
  - apply T.
  - apply R; [intros; apply still_lift|]. intros x. destruct (nth_error _ _); [apply T|now intros [= <- _]].
  - apply R; [intros; stays|]. intros [ln len]. apply T.
  - apply R; [intros; stays|]. intros len. apply T.
Qed.

Lemma pbuffer_moves L al c f h b : alloc_ok al -> call_ok c -> c <> BSetCallback true ->
  kept L h -> based h b -> ops_ok b ->
  match pbuffer brk (told brk code) al c b f h with
  | Ok ((o, b', f'), h') => moves L h b h' b' /\
      (looks b -> tied b -> L (rb_data b) = Free -> forall v, seen h b = Some v -> exists v', bexec brk al c v f = Ok (o, v', f') /\ seen h' b' = Some v')
  | Panic => ~ (forall r, call_needs code b c r -> L r = Free)
  end.
Proof.
  intros Ha Hc Hn K B O.
  assert (Fr : (forall r, r = rb_data b \/ (exists n, rb_callback b = Some n /\ closure_uses code n r) -> L r = Free) -> free L b).
  { intros H. split; [apply H; now left|]. intros n r E U. apply H. right. eauto. }
  assert (Lift : forall (n : buffer -> res buffer) (m : M rbuffer), acts L h b m n ->
    match mbind m (fun b' => ret (BUnit, b', f)) h with
    | Ok ((o, b', f'), h') => moves L h b h' b' /\
        (looks b -> tied b -> L (rb_data b) = Free -> forall v, seen h b = Some v ->
           exists v', (let* v' := n v in Ok (BUnit, v', f)) = Ok (o, v', f') /\ seen h' b' = Some v')
    | Panic => ~ (forall r, r = rb_data b \/ (exists n, rb_callback b = Some n /\ closure_uses code n r) -> L r = Free)
    end).
  { intros n m X. unfold acts in X. unfold mbind. destruct (m h) as [[b' h']|]; cbn [bind]; [|auto].
    unfold ret. destruct X as [X1 X2]. split; [assumption|]. intros Hl _ _ v V. destruct (X2 Hl v V) as (v' & -> & V'). cbn. eauto. }
  assert (Same : forall b' f' o, same_refs b b' -> ops_ok b' ->
    (forall v, seen h b = Some v -> exists v', bexec brk al c v f = Ok (o, v', f') /\ seen h b' = Some v') ->
    moves L h b h b' /\
    (looks b -> tied b -> L (rb_data b) = Free -> forall v, seen h b = Some v -> exists v', bexec brk al c v f = Ok (o, v', f') /\ seen h b' = Some v')).
  { intros b' f' o R O' Hv. split; [now apply moves_same|]. auto. }
  assert (Mark : forall b', ops_ok b' -> ops_ok (rset_history b' (hist_mark (rb_history b')))) by (intros b' X; exact X).
  destruct c; cbn [bexec pbuffer call_ok call_needs] in *.
  - apply Lift. pose proof (redit_acts L al (OpInsert data (c_pos (rc_at (rb_cursor b)))) h b Ha Hc K B O) as X.
    unfold acts in *. unfold rinsert. destruct (mbind _ _ h) as [[b' h']|]; [|assumption]. destruct X as [X1 X2]. split; [assumption|].
    intros Hl v V. unfold buf_insert. destruct (seen_inv _ _ _ V) as (_ & _ & -> & _). now apply X2.
  - apply Lift. unfold acts, rdelete. destruct (kept_nth L h _ K (proj1 B)) as (g & E & W).
    set (p := c_pos (rc_at (rb_cursor b))).
    destruct (in_bounds_wf brk g (Pos (line p) (offset p + 1)) W) as (k & Ek).
    unfold mbind at 1. rewrite (reading_borrowed _ _ _ _ _ E), Ek. destruct (L (rb_data b)) eqn:El; cbn [bind].
    3: intros [Hx _]; congruence.
    all: unfold rdelete_range;
      pose proof (redit_acts L al (OpDelete None (range_new p (if k then Pos (line p) (offset p + 1) else Pos (line p + 1) 0))) h b Ha
        (conj I (ex_intro _ _ (ex_intro _ _ eq_refl))) K B O) as X;
      unfold acts in X; destruct (mbind _ _ h) as [[b' h']|]; [|assumption]; destruct X as [X1 X2]; split; [assumption|];
      intros Hl v V; unfold buf_delete; rewrite (seen_at _ _ _ _ V E); destruct (seen_inv _ _ _ V) as (_ & _ & -> & _);
      fold p; cbn [c_gap]; rewrite Ek; cbn [bind]; now apply X2.
  - apply Lift. apply (redit_acts L al (OpDelete None (range_new p q)) h b Ha); try assumption. split; [exact I|eauto].
  - apply Lift. now apply rreplace_acts.
  - apply Lift. now apply rundo_acts.
  - apply Lift. now apply rredo_acts.
  - unfold ret. apply Same.
    + unfold rstart_group. destruct (rb_group b); now repeat split.
    + destruct O as (O1 & O2 & O3). unfold rstart_group. destruct (rb_group b) eqn:Eg; unfold ops_ok; cbn; rewrite ?Eg; auto.
    + intros v V. eexists. split; [reflexivity|]. unfold rstart_group, start_group.
      destruct (seen_inv _ _ _ V) as (_ & _ & _ & _ & -> & _). destruct (rb_group b); [assumption|now apply seen_group].
  - unfold ret. apply Same.
    + unfold rend_group. destruct (rb_group b) as [[|]|]; now repeat split.
    + destruct O as (O1 & O2 & O3). unfold rend_group. destruct (rb_group b) as [[|o ops]|] eqn:Eg; unfold ops_ok; cbn; rewrite ?Eg; auto.
      split; [|split; [constructor|exact I]]. constructor; [now apply op_valid_group|assumption].
    + intros v V. eexists. split; [reflexivity|]. unfold rend_group, end_group.
      destruct (seen_inv _ _ _ V) as (_ & _ & _ & I4 & -> & _). destruct (rb_group b) as [[|o ops]|]; [now apply seen_group| |assumption].
      cbn. rewrite I4. now apply (seen_history h (rset_group b None)), seen_group.
  - unfold mbind. destruct (rmove brk m (rb_cursor b) h) as [[c' h']|] eqn:Em; cbn [bind].
    + unfold ret. pose proof (rmove_data _ _ _ _ _ Em) as D. pose proof (rmove_still _ _ _ _ _ Em) as ->. split.
      * apply moves_same; try assumption. now repeat split.
      * intros _ Ht El v V. unfold tied in Ht. destruct (kept_nth L h _ K (proj1 B)) as (g & E & W).
        rewrite (seen_at _ _ _ _ V E). cbn [c_gap]. destruct (seen_inv _ _ _ V) as (_ & _ & -> & _).
        rewrite El in E.
        replace (rb_cursor b) with (on (rb_data b) (rc_at (rb_cursor b))) in Em by (unfold on; rewrite <- Ht; now destruct (rb_cursor b)).
        rewrite (rmove_sim _ _ _ _ _ _ E) in Em. destruct (cexec brk g m (rc_at (rb_cursor b))) as [x|]; [|discriminate].
        injection Em as <-. cbn. eexists. split; [reflexivity|]. now apply (seen_cursor h b v (on (rb_data b) x)).
    + intros Hf. specialize (Hf _ eq_refl). destruct (kept_nth L h _ K (proj1 (proj2 B))) as (g & E & W). rewrite Hf in E.
      replace (rb_cursor b) with (on (rc_data (rb_cursor b)) (rc_at (rb_cursor b))) in Em by (now destruct (rb_cursor b)).
      rewrite (rmove_sim _ _ _ _ _ _ E) in Em. destruct (cexec_stays brk g m (rc_at (rb_cursor b)) W) as (x & Ex & _).
      now rewrite Ex in Em.
  - unfold ret. apply Same; [now repeat split|assumption|]. intros v V. eexists. split; [reflexivity|].
    destruct (seen_inv _ _ _ V) as (_ & _ & -> & _).
    exact (seen_cursor h b v (RCur (rc_data (rb_cursor b)) (Cur p (c_sticky (rc_at (rb_cursor b))))) V).
  - unfold rsave. destruct (rb_path b) as [q|] eqn:Ep.
    2:{ cbn. apply Same; [apply same_self|assumption|]. intros v V. unfold buf_save.
        destruct (seen_inv _ _ _ V) as (_ & -> & _). rewrite Ep. cbn. eauto. }
    assert (X : match rdata b h with
      | Ok (t, h') => h' = h /\ valid_text t /\ (forall v, seen h b = Some v -> buf_data v = Ok t)
      | Panic => L (rb_data b) <> Free end).
    { assert (B0 : based h (rset_callback b None)).
      { destruct B as (B1 & B2 & B3). split; [assumption|]. split; [assumption|]. cbn. discriminate. }
      pose proof (rdata_reads L h (rset_callback b None) K B0) as X. unfold rdata in *. cbn [rb_data rset_callback] in X.
      destruct (reading (rb_data b) _ h) as [[t h']|].
      - destruct X as (X1 & X2 & X3). split; [assumption|]. split; [assumption|]. intros v V. unfold seen in *. cbn [rb_data rset_callback] in X3.
        destruct (nth_error h (rb_data b)); [|discriminate]. injection V as <-. exact (X3 _ eq_refl).
      - intros Hf. apply X. split; [assumption|discriminate]. }
    destruct (outcome f q w) eqn:Eo; unfold mbind.
    + cbn. apply Same; [apply same_self|assumption|]. intros v V. unfold buf_save.
      destruct (seen_inv _ _ _ V) as (_ & -> & _). rewrite Ep, Eo. cbn. eauto.
    + destruct (rdata b h) as [[t h']|]; cbn [bind]; [|auto]. unfold ret. cbn [bind]. destruct X as (-> & Vt & Hd).
      apply Same; [apply same_self|assumption|]. intros v V. unfold buf_save.
      destruct (seen_inv _ _ _ V) as (_ & -> & _). rewrite Ep, Eo, (Hd v V). cbn. eauto.
    + destruct (rdata b h) as [[t h']|]; cbn [bind]; [|auto]. unfold ret. cbn [bind]. destruct X as (-> & Vt & Hd).
      apply Same; [now repeat split|now apply Mark|]. intros v V. unfold buf_save.
      destruct (seen_inv _ _ _ V) as (_ & -> & _ & -> & _). rewrite Ep, Eo, (Hd v V). cbn.
      eexists. split; [reflexivity|]. now apply seen_history.
  - unfold rreload. destruct (rb_path b) as [q|] eqn:Ep.
    2:{ cbn. apply Same; [apply same_self|assumption|]. intros v V. unfold buf_reload.
        destruct (seen_inv _ _ _ V) as (_ & -> & _). rewrite Ep. cbn. eauto. }
    destruct (read_to_string f q) as [s|] eqn:Ef.
    2:{ cbn. apply Same; [apply same_self|assumption|]. intros v V. unfold buf_reload.
        destruct (seen_inv _ _ _ V) as (_ & -> & _). rewrite Ep, Ef. cbn. eauto. }
    assert (Vs : valid_text s).
    { unfold read_to_string in Ef. destruct (fs_read f q); [|discriminate]. now apply decode_strict_valid in Ef as [? _]. }
    pose proof (rreplace_acts L al s h b Ha Vs K B O) as X. unfold acts in X. unfold mbind.
    destruct (rreplace brk (told brk code) al b s h) as [[b' h']|]; cbn [bind]; [|auto].
    unfold ret. cbn [bind]. destruct X as [X1 X2]. split.
    + eapply moves_refs; [exact X1|now repeat split|]. apply Mark, X1.
    + intros Hl _ _ v V. destruct (X2 Hl v V) as (v' & Ev & V'). unfold buf_reload.
      destruct (seen_inv _ _ _ V) as (_ & -> & _). rewrite Ep, Ef, Ev. cbn. eexists. split; [reflexivity|].
      destruct (seen_inv _ _ _ V') as (_ & _ & _ & -> & _). now apply seen_history.
  - unfold ret. apply Same; [now repeat split|assumption|]. intros v V. eexists. split; [reflexivity|].
    unfold seen in *. cbn. destruct (nth_error h (rb_data b)); [|discriminate]. now injection V as <-.
  - unfold ret. apply Same; [now repeat split|assumption|]. intros v V. eexists. split; [reflexivity|].
    unfold seen in *. cbn. destruct (nth_error h (rb_data b)); [|discriminate]. now injection V as <-.
  - unfold ret. apply Same; [now repeat split|assumption|]. intros v V. eexists. split; [reflexivity|].
    unfold seen in *. cbn. destruct (nth_error h (rb_data b)); [|discriminate]. now injection V as <-.
  - destruct on; [now destruct Hn|]. unfold ret. split.
    + destruct B as (B1 & B2 & B3). split; try assumption; auto.
      split; [assumption|]. split; [assumption|]. discriminate.
    + intros _ _ _ v V. eexists. split; [reflexivity|].
      unfold seen in *. cbn. destruct (nth_error h (rb_data b)); [|discriminate]. now injection V as <-.
  - unfold ret. apply Same; [apply same_self|assumption|]. intros v V. eauto.
Qed.

(** ** Kept borrows *)

Definition hits (r : ref) (m : bool) (g : ref * bool) : bool := (fst g =? r) && Bool.eqb (snd g) m.
Definition held (gs : list (ref * bool)) (r : ref) (m : bool) : nat := length (filter (hits r m) gs).
Definition lease_of (gs : list (ref * bool)) (r : ref) : lease :=
  if 0 <? held gs r true then Writing else match held gs r false with 0 => Free | S n => Reading n end.
Definition guards_ok (gs : list (ref * bool)) : Prop :=
  forall r, held gs r true = 0 \/ (held gs r true = 1 /\ held gs r false = 0).

Definition hit (g : ref * bool) (r : ref) (m : bool) : nat :=
  if hits r m g then 1 else 0.
Lemma held_app gs gs' r m : held (gs ++ gs') r m = held gs r m + held gs' r m.
Proof. unfold held. now rewrite filter_app, app_length. Qed.
Lemma held_cons g gs r m : held (g :: gs) r m = hit g r m + held gs r m.
Proof. unfold held, hit. cbn [filter]. now destruct (hits r m g). Qed.
Lemma held_without gs n g r m : nth_error gs n = Some g -> held gs r m = hit g r m + held (without gs n) r m.
Proof.
  intros E. destruct (nth_error_split _ _ E) as (l1 & l2 & -> & <-). unfold without.
  rewrite firstn_app, Nat.sub_diag, firstn_all, app_nil_r. change (firstn 0 (g :: l2)) with (@nil (ref * bool)).
  rewrite skipn_app, skipn_all2 by lia. replace (S (length l1) - length l1) with 1 by lia. cbn [skipn app].
  rewrite !held_app, held_cons. lia.
Qed.
Lemma held_in gs r m : 0 < held gs r m <-> In (r, m) gs.
Proof.
  induction gs as [|[r' m'] gs IH]; [unfold held; cbn; split; [lia|easy]|]. rewrite held_cons. unfold hit, hits. cbn.
  destruct (Nat.eqb_spec r' r) as [->|Hr], (Bool.eqb m' m) eqn:Em; cbn.
  - apply Bool.eqb_prop in Em. subst. split; [now left|lia].
  - rewrite IH. split; [now right|]. intros [H|H]; [|assumption]. injection H as ->. now rewrite Bool.eqb_reflx in Em.
  - rewrite IH. split; [now right|]. intros [H|H]; [|assumption]. injection H as ->. easy.
  - rewrite IH. split; [now right|]. intros [H|H]; [|assumption]. injection H as ->. easy.
Qed.
Lemma lease_writing gs r : lease_of gs r = Writing <-> In (r, true) gs.
Proof.
  rewrite <- held_in. unfold lease_of. destruct (Nat.ltb_spec 0 (held gs r true)); [easy|].
  destruct (held gs r false); split; try easy; lia.
Qed.
Lemma lease_free gs r : lease_of gs r = Free <-> ~ exists m, In (r, m) gs.
Proof.
  unfold lease_of. destruct (Nat.ltb_spec 0 (held gs r true)) as [H|H].
  - apply held_in in H. split; [easy|]. intros X. exfalso. eauto.
  - destruct (held gs r false) as [|n] eqn:E.
    + split; [|easy]. intros _ (m & Hm). apply held_in in Hm. destruct m; lia.
    + split; [easy|]. intros X. exfalso. apply X. exists false. apply held_in. lia.
Qed.

Lemma kept_lease L L' h r g l : kept L h -> r < length h -> wf g -> L' r = l -> (forall r', r' <> r -> L' r' = L r') ->
  kept L' (put h r (Cell g l)).
Proof.
  intros [K N] Hr W E F. split.
  - intros r' c Ec. destruct (Nat.eq_dec r r') as [<-|Hn].
    + rewrite nth_put in Ec by assumption. injection Ec as <-. now split.
    + rewrite nth_put_other in Ec by assumption. rewrite F by congruence. now apply K.
  - intros r' Hl. rewrite put_length in Hl. rewrite F by lia. now apply N.
Qed.
Lemma hit_other g r m : r <> fst g -> hit g r m = 0.
Proof. intros H. unfold hit, hits. destruct (Nat.eqb_spec (fst g) r); [congruence|reflexivity]. Qed.
Lemma hit_self r m m' : hit (r, m) r m' = if Bool.eqb m m' then 1 else 0.
Proof. unfold hit, hits. cbn. now rewrite Nat.eqb_refl. Qed.

Lemma put_gap h r g l l' : nth_error h r = Some (Cell g l) ->
  length (put h r (Cell g l')) = length h /\
  forall r', option_map c_gap (nth_error (put h r (Cell g l')) r') = option_map c_gap (nth_error h r').
Proof.
  intros E. split; [apply put_length|]. intros r'. destruct (Nat.eq_dec r r') as [<-|Hn].
  - rewrite nth_put, E by now apply nth_lt in E. reflexivity.
  - now rewrite nth_put_other.
Qed.
Definition same_gaps (h h' : heap) : Prop :=
  length h' = length h /\ forall r, option_map c_gap (nth_error h' r) = option_map c_gap (nth_error h r).

Lemma hold_keeps gs h (r : ref) m : kept (lease_of gs) h -> guards_ok gs -> r < length h ->
  match hold (r, m) h with
  | Ok (_, h') => kept (lease_of (gs ++ [(r, m)])) h' /\ guards_ok (gs ++ [(r, m)]) /\ same_gaps h h' /\
      ~ (lease_of gs r = Writing \/ (m = true /\ lease_of gs r <> Free))
  | Panic => lease_of gs r = Writing \/ (m = true /\ lease_of gs r <> Free)
  end.
Proof.
  intros K G Hr. destruct (kept_nth _ h r K Hr) as (g & E & W).
  assert (H1 : forall r' m', held (gs ++ [(r, m)]) r' m' = held gs r' m' + hit (r, m) r' m').
  { intros. rewrite held_app, held_cons. unfold held at 2. cbn. lia. }
  assert (Ot : forall r', r' <> r -> lease_of (gs ++ [(r, m)]) r' = lease_of gs r').
  { intros r' Hn. unfold lease_of. now rewrite !H1, !hit_other, !Nat.add_0_r by assumption. }
  unfold hold. cbn [fst snd]. destruct m.
  - unfold mbind, borrow_mut. rewrite E. destruct (lease_of gs r) eqn:El; cbn [bind ret]; [|now right|now left].
    assert (Z : held gs r true = 0 /\ held gs r false = 0).
    { apply lease_free in El. split.
      - destruct (held gs r true) eqn:X; [reflexivity|]. exfalso. apply El. exists true. apply held_in. lia.
      - destruct (held gs r false) eqn:X; [reflexivity|]. exfalso. apply El. exists false. apply held_in. lia. }
    split; [|split; [|split]].
    + apply (kept_lease (lease_of gs)); try assumption. apply lease_writing. apply in_or_app. right. now left.
    + intros r'. rewrite !H1. destruct (Nat.eq_dec r' r) as [->|Hn].
      * rewrite !hit_self. cbn. lia.
      * rewrite !hit_other by assumption. rewrite !Nat.add_0_r. apply G.
    + exact (put_gap _ _ _ _ _ E).
    + intros [X|[_ X]]; [discriminate|now apply X].
  - unfold mbind, borrow. rewrite E. destruct (lease_of gs r) as [|n|] eqn:El; cbn [bind ret]; [| |now left].
    + assert (Z : held gs r true = 0 /\ held gs r false = 0).
      { apply lease_free in El. split.
        - destruct (held gs r true) eqn:X; [reflexivity|]. exfalso. apply El. exists true. apply held_in. lia.
        - destruct (held gs r false) eqn:X; [reflexivity|]. exfalso. apply El. exists false. apply held_in. lia. }
      split; [|split; [|split]].
      * apply (kept_lease (lease_of gs)); try assumption. unfold lease_of. rewrite !H1, !hit_self. cbn. now rewrite !(proj1 Z), (proj2 Z).
      * intros r'. rewrite !H1. destruct (Nat.eq_dec r' r) as [->|Hn].
        -- rewrite !hit_self. cbn. lia.
        -- rewrite !hit_other by assumption. rewrite !Nat.add_0_r. apply G.
      * exact (put_gap _ _ _ _ _ E).
      * intros [X|[X _]]; discriminate.
    + assert (Z : held gs r true = 0 /\ held gs r false = S n).
      { unfold lease_of in El. destruct (Nat.ltb_spec 0 (held gs r true)); [discriminate|].
        destruct (held gs r false) as [|k]; [discriminate|]. injection El as <-. split; [lia|reflexivity]. }
      split; [|split; [|split]].
      * apply (kept_lease (lease_of gs)); try assumption. unfold lease_of. rewrite !H1, !hit_self. cbn. destruct Z as (-> & ->). reflexivity.
      * intros r'. rewrite !H1. destruct (Nat.eq_dec r' r) as [->|Hn].
        -- rewrite !hit_self. cbn. lia.
        -- rewrite !hit_other by assumption. rewrite !Nat.add_0_r. apply G.
      * exact (put_gap _ _ _ _ _ E).
      * intros [X|[X _]]; discriminate.
Qed.

Lemma release_keeps gs h n g : kept (lease_of gs) h -> guards_ok gs -> nth_error gs n = Some g ->
  exists h', release g h = Ok (tt, h') /\ kept (lease_of (without gs n)) h' /\ guards_ok (without gs n) /\ same_gaps h h'.
Proof.
  intros K G En. destruct g as [r m].
  assert (Hr : r < length h).
  { destruct (Nat.lt_ge_cases r (length h)); [assumption|]. exfalso. assert (F : lease_of gs r = Free) by now apply K.
    apply lease_free in F. apply F. exists m. eapply nth_error_In; eassumption. }
  destruct (kept_nth _ h r K Hr) as (g & E & W).
  pose proof (fun r' m' => held_without gs n (r, m) r' m' En) as H1.
  assert (Ot : forall r', r' <> r -> lease_of (without gs n) r' = lease_of gs r').
  { intros r' Hn. unfold lease_of. now rewrite (H1 r' true), (H1 r' false), !hit_other by assumption. }
  pose proof (H1 r true) as Ht. pose proof (H1 r false) as Hf. rewrite hit_self in Ht, Hf.
  assert (Gk : guards_ok (without gs n)).
  { intros r'. specialize (G r'). specialize (H1 r'). rewrite !H1 in G. lia. }
  unfold release. cbn [fst snd]. specialize (G r). destruct m; cbn in Ht, Hf.
  - rewrite E. unfold end_borrow_mut. rewrite E. cbn [c_gap c_lease].
    assert (El : lease_of gs r = Writing) by (apply lease_writing; eapply nth_error_In; eassumption).
    rewrite El. cbn. eexists. split; [reflexivity|]. split; [|split; [assumption|exact (put_gap _ _ _ _ _ E)]].
    apply (kept_lease (lease_of gs)); try assumption. unfold lease_of.
    replace (held (without gs n) r true) with 0 by lia. now replace (held (without gs n) r false) with 0 by lia.
  - unfold end_borrow. rewrite E. assert (El : lease_of gs r = Reading (held (without gs n) r false)).
    { unfold lease_of. replace (held gs r true) with 0 by lia. now rewrite Hf. }
    rewrite El. cbn. destruct (held (without gs n) r false) as [|k] eqn:Ek; cbn.
    + eexists. split; [reflexivity|]. split; [|split; [assumption|exact (put_gap _ _ _ _ _ E)]].
      apply (kept_lease (lease_of gs)); try assumption. unfold lease_of. rewrite Ek. now replace (held (without gs n) r true) with 0 by lia.
    + eexists. split; [reflexivity|]. split; [|split; [assumption|exact (put_gap _ _ _ _ _ E)]].
      apply (kept_lease (lease_of gs)); try assumption. unfold lease_of. rewrite Ek. now replace (held (without gs n) r true) with 0 by lia.
Qed.

(** ** Worlds *)

Lemma nth_put_at {A} (l : list A) i j x : i < length l ->
  nth_error (put_at l i x) j = if j =? i then Some x else nth_error l j.
Proof.
  intros H. unfold put_at. assert (Hl : length (firstn i l) = i) by (rewrite firstn_length; lia).
  destruct (Nat.eqb_spec j i) as [->|Hn].
  - rewrite nth_error_app2, Hl, Nat.sub_diag by lia. reflexivity.
  - rewrite <- (firstn_skipn i l) at 3. destruct (Nat.lt_ge_cases j i).
    + now rewrite !nth_error_app1 by lia.
    + rewrite !nth_error_app2, Hl by lia. destruct (j - i) as [|k] eqn:Ek; [lia|]. cbn [nth_error].
      replace (skipn (S i) l) with (tl (skipn i l)) by (clear; revert i; induction l as [|a l IH]; intros [|i]; [reflexivity..|]; cbn [skipn]; apply IH).
      now destruct (skipn i l); [destruct k|].
Qed.
Lemma length_put_at {A} (l : list A) i x : i < length l -> length (put_at l i x) = length l.
Proof. intros H. unfold put_at. rewrite app_length, firstn_length. cbn [length]. rewrite skipn_length. lia. Qed.
Lemma Forall_put_at {A} (P : A -> Prop) l i x : Forall P l -> P x -> Forall P (put_at l i x).
Proof.
  intros H Hx. unfold put_at. replace (S i) with (i + 1) by lia. now apply Forall_replaced.
Qed.
Lemma map_put_at {A B} (f : A -> B) l i x : map f (put_at l i x) = put_at (map f l) i (f x).
Proof. unfold put_at. now rewrite map_app, firstn_map, map_cons, skipn_map. Qed.
Lemma put_at_same {A} (l : list A) i x : nth_error l i = Some x -> put_at l i x = l.
Proof.
  intros E. destruct (nth_error_split _ _ E) as (l1 & l2 & -> & <-). unfold put_at.
  rewrite firstn_app, Nat.sub_diag, firstn_all. rewrite skipn_app, skipn_all2 by lia.
  replace (S (length l1) - length l1) with 1 by lia. cbn. now rewrite app_nil_r.
Qed.
Lemma NoDup_put_at (l : list nat) i x y : NoDup l -> nth_error l i = Some y -> (x = y \/ ~ In x l) -> NoDup (put_at l i x).
Proof.
  intros N E [->|H]; [now rewrite put_at_same|].
  destruct (nth_error_split _ _ E) as (l1 & l2 & -> & <-). unfold put_at.
  rewrite firstn_app, Nat.sub_diag, firstn_all. rewrite skipn_app, skipn_all2 by lia.
  replace (S (length l1) - length l1) with 1 by lia. cbn. rewrite app_nil_r. apply NoDup_remove in N as [N1 N2].
  apply NoDup_Add with x (l1 ++ l2); [apply Add_app|]. split; [assumption|]. intros Hx. apply H. apply in_app_or in Hx.
  apply in_or_app. destruct Hx; [now left|right; now right].
Qed.

Record winv (w : world) : Prop := Winv {
  wi_kept : kept (lease_of (wo_guards w)) (wo_heap w);
  wi_guards : guards_ok (wo_guards w);
  wi_buffers : Forall (fun b => based (wo_heap w) b /\ ops_ok b) (wo_buffers w);
  wi_cursors : Forall (fun k => rc_data k < length (wo_heap w)) (wo_cursors w);
  wi_distinct : NoDup (map rb_data (wo_buffers w)) }.

Lemma based_mono (h h' : heap) b : length h <= length h' -> based h b -> based h' b.
Proof.
  intros H (B1 & B2 & B3). split; [lia|]. split; [lia|]. intros n r E U. specialize (B3 n r E U). lia.
Qed.
Lemma buffers_mono (h h' : heap) bs : length h <= length h' ->
  Forall (fun b => based h b /\ ops_ok b) bs -> Forall (fun b => based h' b /\ ops_ok b) bs.
Proof. intros H. apply Forall_impl. intros b [B O]. split; [now apply (based_mono h)|assumption]. Qed.
Lemma buffers_below h bs : Forall (fun b => based h b /\ ops_ok b) bs -> forall r, In r (map rb_data bs) -> r < length h.
Proof.
  intros F r Hr. apply in_map_iff in Hr as (b & <- & Hb). rewrite Forall_forall in F. apply (F b Hb).
Qed.

(** What a fresh buffer is like. *)
Lemma new_buffer h al : exists b g, rbuffer_new al h = Ok (b, h ++ [Cell g Free]) /\ wf g /\
  rb_data b = length h /\ tied b /\ rb_callback b = None /\ ops_ok b /\
  exists v, buffer_new al = Ok v /\ seen (h ++ [Cell g Free]) b = Some v.
Proof.
  destruct (new_ok al [] ltac:(constructor)) as (g & E & R). unfold rbuffer_new, buffer_new, mbind, lift. rewrite E. cbn.
  eexists _, g. split; [reflexivity|]. split; [now exists [], []|]. split; [reflexivity|]. split; [reflexivity|].
  split; [reflexivity|]. split; [repeat constructor|]. eexists. split; [reflexivity|]. unfold seen. cbn.
  rewrite nth_error_app2, Nat.sub_diag by lia. reflexivity.
Qed.
Lemma opened_buffer h al f p : exists r h', rfrom_file al f p h = Ok (r, h') /\
  ((h' = h /\ exists e, r = RErr e /\ from_file al f p = Ok (RErr e)) \/
   (exists g, h' = h ++ [Cell g Free] /\ wf g /\
    match r with
    | RErr e => from_file al f p = Ok (RErr e)
    | ROk b => rb_data b = length h /\ tied b /\ rb_callback b = None /\ ops_ok b /\
        exists v, from_file al f p = Ok (ROk v) /\ seen h' b = Some v
    end)).
Proof.
  unfold rfrom_file, from_file. destruct (read_to_string f p) as [s|] eqn:Ef.
  2:{ eexists _, h. split; [reflexivity|]. left. split; [reflexivity|]. eauto. }
  assert (Vs : valid_text s).
  { unfold read_to_string in Ef. destruct (fs_read f p); [|discriminate]. now apply decode_strict_valid in Ef as [? _]. }
  destruct (new_ok al s Vs) as (g & E & R). unfold mbind, lift. rewrite E. cbn. destruct (fs_canon f p) as [cp|].
  - eexists _, _. split; [reflexivity|]. right. exists g. split; [reflexivity|]. split; [now exists s, []|].
    split; [reflexivity|]. split; [reflexivity|]. split; [reflexivity|]. split; [repeat constructor|].
    eexists. split; [reflexivity|]. unfold seen. cbn. rewrite nth_error_app2, Nat.sub_diag by lia. reflexivity.
  - eexists _, _. split; [reflexivity|]. right. exists g. split; [reflexivity|]. split; [now exists s, []|reflexivity].
Qed.

Lemma winv_add w b g : winv w -> wf g -> rb_data b = length (wo_heap w) -> tied b -> rb_callback b = None -> ops_ok b ->
  winv (World (wo_buffers w ++ [b]) (wo_cursors w) (wo_guards w) (wo_heap w ++ [Cell g Free]) (wo_disk w)).
Proof.
  intros [I1 I2 I3 I4 I5] W Hd Ht Hc Ho. assert (Hl : length (wo_heap w) <= length (wo_heap w ++ [Cell g Free])) by (rewrite app_length; lia).
  split; cbn; try assumption.
  - now apply kept_new.
  - apply Forall_app. split; [now apply (buffers_mono (wo_heap w))|]. constructor; [|constructor]. split; [|assumption].
    unfold based, tied in *. rewrite Ht, Hd, Hc, app_length. cbn. split; [lia|]. split; [lia|]. discriminate.
  - eapply Forall_impl; [|exact I4]. cbn. intros k. lia.
  - rewrite map_app. cbn. apply NoDup_Add with (rb_data b) (map rb_data (wo_buffers w)).
    + rewrite <- (app_nil_r (map rb_data (wo_buffers w))) at 1. apply Add_app.
    + split; [assumption|]. intros Hx. apply (buffers_below _ _ I3) in Hx. lia.
Qed.
Lemma winv_grow w g : winv w -> wf g ->
  winv (World (wo_buffers w) (wo_cursors w) (wo_guards w) (wo_heap w ++ [Cell g Free]) (wo_disk w)).
Proof.
  intros [I1 I2 I3 I4 I5] W. assert (Hl : length (wo_heap w) <= length (wo_heap w ++ [Cell g Free])) by (rewrite app_length; lia).
  split; cbn; try assumption; [now apply kept_new|now apply (buffers_mono (wo_heap w))|].
  eapply Forall_impl; [|exact I4]. cbn. intros k. lia.
Qed.

Lemma seen_frame h h' b : nth_error h' (rb_data b) = nth_error h (rb_data b) -> seen h' b = seen h b.
Proof. unfold seen. now intros ->. Qed.
Lemma seen_gaps h h' b : same_gaps h h' -> seen h' b = seen h b.
Proof.
  intros [_ H]. specialize (H (rb_data b)). unfold seen.
  destruct (nth_error h' (rb_data b)), (nth_error h (rb_data b)); try discriminate; [|reflexivity]. cbn in H. now injection H as ->.
Qed.

Definition lease_ok (w : world) (r : ref) : Prop := lease_of (wo_guards w) r = Free.

(** Moving a free cursor. *)
Lemma rmove_keeps L m k h : kept L h -> rc_data k < length h ->
  match rmove brk m k h with
  | Ok (k', h') => h' = h /\ rc_data k' = rc_data k
  | Panic => L (rc_data k) <> Free
  end.
Proof.
  intros K Hk. destruct (rmove brk m k h) as [[k' h']|] eqn:Em.
  - split; [exact (rmove_still _ _ _ _ _ Em)|exact (rmove_data _ _ _ _ _ Em)].
  - intros Hf. destruct (kept_nth L h _ K Hk) as (g & E & W). rewrite Hf in E.
    replace k with (on (rc_data k) (rc_at k)) in Em by (now destruct k).
    rewrite (rmove_sim _ _ _ _ _ _ E) in Em. destruct (cexec_stays brk g m (rc_at k) W) as (x & Ex & _).
    now rewrite Ex in Em.
Qed.
Lemma rread_keeps L b p q h : kept L h -> based h b ->
  match rread brk b (range_new p q) h with
  | Ok (t, h') => h' = h /\ (forall v, seen h b = Some v -> buf_read brk v (range_new p q) = Ok t)
  | Panic => L (rb_data b) = Writing
  end.
Proof.
  intros K B. destruct (kept_nth L h _ K (proj1 B)) as (g & E & W). unfold rread.
  rewrite (reading_borrowed _ _ _ _ _ E). destruct (gb_read_valid brk g p q W) as (m & Em & _). rewrite Em.
  destruct (L (rb_data b)); cbn; [..|reflexivity]; (split; [reflexivity|]; intros v V; unfold buf_read; now rewrite (seen_at _ _ _ _ V E)).
Qed.
Lemma rdata_keeps L b h : kept L h -> based h b ->
  match rdata b h with
  | Ok (t, h') => h' = h /\ (forall v, seen h b = Some v -> buf_data v = Ok t)
  | Panic => L (rb_data b) = Writing
  end.
Proof.
  intros K B. destruct (kept_nth L h _ K (proj1 B)) as (g & E & W). unfold rdata.
  rewrite (reading_borrowed _ _ _ _ _ E). destruct (to_string_total g W) as (t & Et). rewrite Et.
  destruct (L (rb_data b)); cbn; [..|reflexivity]; (split; [reflexivity|]; intros v V; unfold buf_data; now rewrite (seen_at _ _ _ _ V E)).
Qed.

(** One call. *)
Lemma nexec_steps al c w : alloc_ok al -> ncall_ok code w c -> winv w ->
  match nexec brk code al c w with
  | Ok (o, w') => winv w' /\ forall j, j < length (wo_buffers w) -> ~ concerns code w c j -> view w' j = view w j
  | Panic => ~ (forall r, needs code w c r -> lease_ok w r)
  end.
Proof.
  intros Ha Hc I. pose proof I as [I1 I2 I3 I4 I5]. destruct w as [bs ks gs h f]. unfold lease_ok. cbn [wo_buffers wo_cursors wo_guards wo_heap wo_disk] in *.
  assert (Bi : forall i b, nth_error bs i = Some b -> based h b /\ ops_ok b).
  { intros i b E. rewrite Forall_forall in I3. apply I3. eapply nth_error_In; eassumption. }
  assert (Ki : forall i k, nth_error ks i = Some k -> rc_data k < length h).
  { intros i k E. rewrite Forall_forall in I4. apply I4. eapply nth_error_In; eassumption. }
  assert (Grown : forall g j, j < length bs -> match nth_error bs j with Some b => seen (h ++ [Cell g Free]) b | None => None end =
      match nth_error bs j with Some b => seen h b | None => None end).
  { intros g j Hj. destruct (nth_error bs j) as [b|] eqn:E; [|reflexivity]. apply seen_frame.
    rewrite nth_error_app1; [reflexivity|]. apply (Bi _ _ E). }
  unfold nexec; destruct c; cbn [ncall_ok needs concerns] in *.
  - destruct (new_buffer h al) as (b & g & -> & Wg & H1 & H2 & H3 & H4 & _). cbn [bind]. split; [now apply (winv_add (World bs ks gs h f))|].
    intros j Hj _. unfold view. cbn. rewrite nth_error_app1 by assumption. now apply Grown.
  - destruct (opened_buffer h al f p) as (r & h' & -> & X). cbn [bind]. destruct X as [(-> & e & -> & _)|(g & -> & Wg & X)]; [now split|].
    destruct r as [b|e].
    + destruct X as (H1 & H2 & H3 & H4 & _). split; [now apply (winv_add (World bs ks gs h f))|].
      intros j Hj _. unfold view. cbn. rewrite nth_error_app1 by assumption. now apply Grown.
    + split; [now apply (winv_grow (World bs ks gs h f))|]. intros j Hj _. unfold view. cbn. now apply Grown.
  - destruct (nth_error bs i) as [b|] eqn:E; [|now split]. destruct (Bi i b E) as [B O].
    assert (Hc' : call_ok c /\ c <> BSetCallback true) by (destruct c; try easy; now destruct on).
    pose proof (pbuffer_moves (lease_of gs) al c f h b Ha (proj1 Hc') (proj2 Hc') I1 B O) as X.
    assert (Hi : i < length bs) by (apply nth_error_Some; congruence).
    destruct (pbuffer brk (told brk code) al c b f h) as [[[[o b'] f'] h']|]; cbn [bind].
    + destruct X as [[A1 A2 A3 A4 A5 A6 A7] _]. split.
      * split; cbn; try assumption.
        -- apply Forall_put_at; [now apply (buffers_mono h)|now split].
        -- eapply Forall_impl; [|exact I4]. cbn. intros k. lia.
        -- rewrite map_put_at. apply (NoDup_put_at _ _ _ (rb_data b)); [assumption|now apply map_nth_error|].
           destruct A7 as [[A7 _]|[A7 _]]; [now left|right]. intros Hx. apply (buffers_below _ _ I3) in Hx. lia.
      * intros j Hj Hn. unfold view. cbn. rewrite nth_put_at by assumption. destruct (Nat.eqb_spec j i) as [->|Hji].
        { exfalso. apply Hn. now left. }
        destruct (nth_error bs j) as [b0|] eqn:Ej; [|reflexivity]. apply seen_frame. apply A6.
        -- apply (Bi _ _ Ej).
        -- intros Hx. apply Hji. eapply (proj1 (NoDup_nth_error (map rb_data bs)) I5).
           ++ rewrite map_length. assumption.
           ++ rewrite (map_nth_error _ _ _ Ej), (map_nth_error _ _ _ E). congruence.
        -- intros n En Hw. apply Hn. right. eexists _, _, _. eauto.
    + intros Hf. apply X. intros r Hr. apply Hf. eauto.
  - destruct (nth_error bs i) as [b|] eqn:E; [|now split]. destruct (Bi i b E) as [B O].
    pose proof (rdata_keeps (lease_of gs) b h I1 B) as X. destruct (rdata b h) as [[t h']|]; cbn [bind].
    + destruct X as [-> _]. now split.
    + intros Hf. rewrite (Hf (rb_data b)) in X; [discriminate|eauto].
  - destruct (nth_error bs i) as [b|] eqn:E; [|now split]. destruct (Bi i b E) as [B O].
    pose proof (rread_keeps (lease_of gs) b p q h I1 B) as X. destruct (rread brk b (range_new p q) h) as [[t h']|]; cbn [bind].
    + destruct X as [-> _]. now split.
    + intros Hf. rewrite (Hf (rb_data b)) in X; [discriminate|eauto].
  - destruct (nth_error bs i) as [b|] eqn:E; [|now split]. destruct (Bi i b E) as [B O].
    assert (Hi : i < length bs) by (apply nth_error_Some; congruence). split.
    + split; cbn; try assumption.
      * apply Forall_put_at; [assumption|]. split; [|assumption]. destruct B as (B1 & B2 & B3). split; [assumption|].
        split; [assumption|]. cbn. intros n' r [= <-] U. now apply Hc.
      * rewrite map_put_at. apply (NoDup_put_at _ _ _ (rb_data b)); [assumption|now apply map_nth_error|now left].
    + intros j Hj Hn. unfold view. cbn. rewrite nth_put_at by assumption. destruct (Nat.eqb_spec j i) as [->|]; [now destruct Hn|reflexivity].
  - destruct (nth_error bs i) as [b|] eqn:E; [|now split]. destruct (Bi i b E) as [B O]. split; [|reflexivity].
    split; cbn; try assumption. apply Forall_app. split; [assumption|]. constructor; [apply B|constructor].
  - destruct (nth_error bs i) as [b|] eqn:E; [|now split]. destruct (nth_error ks k) as [x|] eqn:Ek; [|now split].
    destruct (Bi i b E) as [B O]. assert (Hi : i < length bs) by (apply nth_error_Some; congruence). split.
    + split; cbn; try assumption.
      * apply Forall_put_at; [assumption|]. split; [|assumption]. destruct B as (B1 & B2 & B3). split; [assumption|].
        split; [now apply (Ki k)|assumption].
      * rewrite map_put_at. apply (NoDup_put_at _ _ _ (rb_data b)); [assumption|now apply map_nth_error|now left].
    + intros j Hj Hn. unfold view. cbn. rewrite nth_put_at by assumption. destruct (Nat.eqb_spec j i) as [->|]; [now destruct Hn|reflexivity].
  - destruct (new_ok al t Hc) as (g & E & R). rewrite E. cbn. assert (Wg : wf g) by now exists t, [].
    pose proof (winv_grow _ g I Wg) as [J1 J2 J3 J4 J5]. cbn in *. split.
    + split; cbn; try assumption. apply Forall_app. split; [assumption|]. constructor; [|constructor]. cbn.
      rewrite app_length. cbn. lia.
    + intros j Hj _. unfold view. cbn. now apply Grown.
  - destruct (nth_error ks k) as [x|] eqn:Ek; [|now split]. pose proof (rmove_keeps (lease_of gs) m x h I1 (Ki k x Ek)) as X.
    destruct (rmove brk m x h) as [[x' h']|]; cbn [bind].
    + destruct X as [-> Hd]. split; [|reflexivity]. split; cbn; try assumption. apply Forall_put_at; [assumption|].
      rewrite Hd. now apply (Ki k).
    + intros Hf. apply X, Hf. eauto.
  - destruct (nth_error ks k) as [x|] eqn:Ek; [|now split]. split; [|reflexivity]. split; cbn; try assumption.
    apply Forall_put_at; [assumption|]. exact (Ki k x Ek).
  - destruct (nth_error ks k) as [x|] eqn:Ek; [|now split]. destruct (nth_error ks j) as [y|] eqn:Ej; [|now split].
    split; [|reflexivity]. split; cbn; try assumption. apply Forall_put_at; [assumption|]. exact (Ki j y Ej).
  - destruct (nth_error ks k) as [x|] eqn:Ek; [|now split].
    pose proof (pstorage_steps (lease_of gs) al c (rc_data x) h Ha Hc I1 (Ki k x Ek)) as X.
    destruct (pstorage brk al c (rc_data x) h) as [[o h']|]; cbn [bind].
    + destruct X as (X1 & X2 & X3). split.
      * split; cbn; try assumption; [apply (buffers_mono h); [lia|assumption]|now rewrite X2].
      * intros j Hj Hn. unfold view. cbn. destruct (nth_error bs j) as [b|] eqn:Ej; [|reflexivity]. apply seen_frame, X3.
        destruct (Nat.eq_dec (rb_data b) (rc_data x)) as [Hr|Hr]; [right|now left].
        intros Hx. apply Hn. split; [assumption|]. exists x, b. auto.
    + intros Hf. apply X, Hf. eauto.
  - destruct (nth_error ks k) as [x|] eqn:Ek; [|now split]. pose proof (hold_keeps gs h (rc_data x) m I1 I2 (Ki k x Ek)) as X.
    destruct (hold (rc_data x, m) h) as [[[] h']|]; cbn [bind].
    + destruct X as (X1 & X2 & X3 & _). split.
      * destruct X3 as [X3 _]. split; cbn; try assumption; [apply (buffers_mono h); [lia|assumption]|now rewrite X3].
      * intros j Hj Hn. unfold view. cbn. destruct (nth_error bs j) as [b|]; [|reflexivity]. now apply seen_gaps.
    + intros Hf. rewrite (Hf (rc_data x)) in X by eauto. destruct X as [X|[_ X]]; [discriminate|now apply X].
  - destruct (nth_error gs n) as [g|] eqn:En; [|now split].
    destruct (release_keeps gs h n g I1 I2 En) as (h' & -> & X1 & X2 & X3). cbn [bind]. split.
    + destruct X3 as [X3 _]. split; cbn; try assumption; [apply (buffers_mono h); [lia|assumption]|now rewrite X3].
    + intros j Hj Hn. unfold view. cbn. destruct (nth_error bs j) as [b|]; [|reflexivity]. now apply seen_gaps.
  - split; [split; assumption|reflexivity].
Qed.

Lemma world_inv Q f cs os w : world_session brk code Q f cs os w -> winv w.
Proof.
  induction 1 as [|cs os w al c o w' H IH Ha Hc HQ E].
  - split; cbn; [|now left|constructor..]. split; [now intros [|r] c E|reflexivity].
  - pose proof (nexec_steps al c w Ha Hc IH) as X. rewrite E in X. apply X.
Qed.

(** ** Exactly when calls panic *)

Lemma conflict_lease w r m : conflict w r m <->
  lease_of (wo_guards w) r = Writing \/ (m = true /\ lease_of (wo_guards w) r <> Free).
Proof.
  unfold conflict, guarded. rewrite lease_writing. pose proof (lease_free (wo_guards w) r) as X. split.
  - intros [H|[-> H]]; [now left|right]. split; [reflexivity|]. now rewrite X.
  - intros [H|[-> H]]; [now left|right]. split; [reflexivity|].
    unfold lease_of in H. destruct (Nat.ltb_spec 0 (held (wo_guards w) r true)) as [Hl|Hl].
    + exists true. now apply held_in.
    + exists false. apply held_in. destruct (held (wo_guards w) r false); [now destruct H|lia].
Qed.

Lemma run_delete_borrowed al r h b g l : nth_error h (rb_data b) = Some (Cell g l) -> l <> Free ->
  rop_run brk (told brk code) al (OpDelete None r) b h = Panic.
Proof.
  intros E Hl. cbn [rop_run]. unfold mbind. rewrite (reading_borrowed _ _ _ _ _ E).
  destruct l; [now destruct Hl| |reflexivity]. destruct (gb_read brk g r); [|reflexivity]. cbn [bind].
  now rewrite (writing_borrowed _ _ _ _ _ E).
Qed.

Lemma panics_exactly w al c r m : winv w -> alloc_ok al -> ncall_ok code w c -> borrows w c r m ->
  (nexec brk code al c w = Panic <-> conflict w r m).
Proof.
  intros I Ha Hc Hb. rewrite conflict_lease. pose proof I as [I1 I2 I3 I4 I5].
  destruct w as [bs ks gs h f]. cbn [wo_buffers wo_cursors wo_guards wo_heap wo_disk] in *.
  assert (Bi : forall i b, nth_error bs i = Some b -> based h b /\ ops_ok b).
  { intros i b E. rewrite Forall_forall in I3. apply I3. eapply nth_error_In; eassumption. }
  assert (Ki : forall i k, nth_error ks i = Some k -> rc_data k < length h).
  { intros i k E. rewrite Forall_forall in I4. apply I4. eapply nth_error_In; eassumption. }
  assert (Edit : forall i b c, nth_error bs i = Some b -> rb_callback b = None -> call_ok c -> c <> BSetCallback true ->
    (forall r, call_needs code b c r -> r = rb_data b \/ exists n, rb_callback b = Some n) ->
    (forall g l, nth_error h (rb_data b) = Some (Cell g l) -> l <> Free -> pbuffer brk (told brk code) al c b f h = Panic) ->
    (nexec brk code al (NBuffer i c) (World bs ks gs h f) = Panic <->
     lease_of gs (rb_data b) = Writing \/ (true = true /\ lease_of gs (rb_data b) <> Free))).
  { intros i b c0 E Ec H1 H2 H3 H4. destruct (Bi i b E) as [B O].
    pose proof (pbuffer_moves (lease_of gs) al c0 f h b Ha H1 H2 I1 B O) as X.
    destruct (kept_nth _ h _ I1 (proj1 B)) as (g & Eg & W). specialize (H4 _ _ Eg). unfold nexec. rewrite E. split.
    - destruct (pbuffer brk (told brk code) al c0 b f h) as [[[[o b'] f'] h']|]; [discriminate|]. intros _.
      destruct (lease_of gs (rb_data b)) eqn:El; [|now right|now left]. exfalso. apply X.
      intros r' Hr. destruct (H3 r' Hr) as [->|(n & En)]; [assumption|congruence].
    - intros H. rewrite H4; [reflexivity|]. destruct H as [H|[_ H]]; [now rewrite H|assumption]. }
  inversion Hb; subst; cbn [wo_buffers wo_cursors wo_guards wo_heap wo_disk] in *.
  - apply (Edit i b); try assumption; [easy|intros r' [->|(n & -> & _)]; eauto|].
    intros g l Eg Hl. cbn [pbuffer]. unfold rinsert. cbn [rop_run]. unfold mbind. now rewrite (writing_borrowed _ _ _ _ _ Eg).
  - apply (Edit i b); try assumption; [easy|intros r' [->|(n & -> & _)]; eauto|].
    intros g l Eg Hl. cbn [pbuffer]. unfold rdelete, rdelete_range. unfold mbind at 1. unfold mbind at 1.
    rewrite (reading_borrowed _ _ _ _ _ Eg). destruct l; [now destruct Hl| |reflexivity].
    destruct (in_bounds brk g _) as [k|]; [|reflexivity]. cbn [bind]. unfold mbind. now rewrite (run_delete_borrowed _ _ _ _ _ _ Eg).
  - apply (Edit i b); try assumption; [easy|intros r' [->|(n & -> & _)]; eauto|].
    intros g l Eg Hl. cbn [pbuffer]. unfold rdelete_range, mbind. now rewrite (run_delete_borrowed _ _ _ _ _ _ Eg).
  - unfold nexec. rewrite H. pose proof (rdata_keeps (lease_of gs) b h I1 (proj1 (Bi i b H))) as X.
    destruct (kept_nth _ h _ I1 (proj1 (proj1 (Bi i b H)))) as (g & Eg & W).
    unfold rdata in *. rewrite (reading_borrowed _ _ _ _ _ Eg) in *. destruct (to_string_total g W) as (t & Et). rewrite Et.
    destruct (lease_of gs (rb_data b)); cbn; (split; [try discriminate; auto|intros [Y|[Y _]]; easy]).
  - unfold nexec. rewrite H. destruct (kept_nth _ h _ I1 (proj1 (proj1 (Bi i b H)))) as (g & Eg & W).
    unfold rread. rewrite (reading_borrowed _ _ _ _ _ Eg). destruct (gb_read_valid brk g p q W) as (t & Et & _). rewrite Et.
    destruct (lease_of gs (rb_data b)); cbn; (split; [try discriminate; auto|intros [Y|[Y _]]; easy]).
  - unfold nexec. rewrite H. destruct (kept_nth _ h _ I1 (Ki k x H)) as (g & Eg & W).
    cbn [rmove]. unfold rmove_to, mbind. rewrite (reading_borrowed _ _ _ _ _ Eg). destruct (in_bounds_wf brk g p W) as (t & Et). rewrite Et.
    destruct (lease_of gs (rc_data x)); cbn; [destruct t; cbn|destruct t; cbn|]; (split; [try discriminate; auto|intros [Y|[Y _]]; easy]).
  - unfold nexec. rewrite H. pose proof (pstorage_steps (lease_of gs) al c0 (rc_data x) h Ha Hc I1 (Ki k x H)) as X.
    destruct (kept_nth _ h _ I1 (Ki k x H)) as (g & Eg & W). split.
    + destruct (pstorage brk al c0 (rc_data x) h) as [[o h']|]; [discriminate|]. intros _. destruct (lease_of gs (rc_data x)); [now destruct X|now right|now left].
    + intros Hl. assert (Hn : lease_of gs (rc_data x) <> Free) by (destruct Hl as [->|[_ Hl]]; [easy|assumption]).
      destruct c0; try easy; cbn [pstorage]; unfold mbind; now rewrite (writing_borrowed _ _ _ _ _ Eg).
  - unfold nexec. rewrite H. destruct (kept_nth _ h _ I1 (Ki k x H)) as (g & Eg & W).
    destruct c0; try (exfalso; now apply H0); cbn [pstorage]; unfold mbind; rewrite (reading_borrowed _ _ _ _ _ Eg).
    + destruct (gb_read_valid brk g p q W) as (t & Et & _). rewrite Et.
      destruct (lease_of gs (rc_data x)); cbn; (split; [try discriminate; auto|intros [Y|[Y _]]; easy]).
    + destruct (in_bounds_wf brk g p W) as (t & Et). rewrite Et.
      destruct (lease_of gs (rc_data x)); cbn; (split; [try discriminate; auto|intros [Y|[Y _]]; easy]).
    + destruct (to_string_total g W) as (t & Et). rewrite Et.
      destruct (lease_of gs (rc_data x)); cbn; (split; [try discriminate; auto|intros [Y|[Y _]]; easy]).
  - unfold nexec. rewrite H. pose proof (hold_keeps gs h (rc_data x) m I1 I2 (Ki k x H)) as X.
    destruct (hold (rc_data x, m) h) as [[u h']|]; cbn [bind]; [|tauto]. split; [discriminate|]. intros Y. now destruct X as (_ & _ & _ & X).
Qed.

(** ** Values *)

Hypothesis Hlook : only_look code.

Definition viewed (w : world) (vs : list buffer) : Prop :=
  length vs = length (wo_buffers w) /\ forall i, view w i = nth_error vs i.

Lemma looks_all b : looks b.
Proof. intros n r _. apply Hlook. Qed.

Lemma nexec_value al c w o w' vs : alloc_ok al -> ncall_ok code w c -> plain c -> winv w ->
  wo_guards w = [] -> Forall tied (wo_buffers w) -> viewed w vs -> nexec brk code al c w = Ok (o, w') ->
  wo_guards w' = [] /\ Forall tied (wo_buffers w') /\
  exists vs', vexec brk al c vs (wo_disk w) = Ok (from_buffers o, vs', wo_disk w') /\ viewed w' vs'.
Proof.
  intros Ha Hc Hp I G T [Vl Vv] E. pose proof (nexec_steps al c w Ha Hc I) as St. rewrite E in St. destruct St as [_ Iso].
  pose proof I as [I1 I2 I3 I4 I5].
  destruct w as [bs ks gs h f]. cbn [wo_buffers wo_cursors wo_guards wo_heap wo_disk] in *. subst gs.
  assert (Bi : forall i b, nth_error bs i = Some b -> based h b /\ ops_ok b).
  { intros i b X. rewrite Forall_forall in I3. apply I3. eapply nth_error_In; eassumption. }
  assert (Ti : forall i b, nth_error bs i = Some b -> tied b).
  { intros i b X. rewrite Forall_forall in T. apply T. eapply nth_error_In; eassumption. }
  assert (Vi : forall i b, nth_error bs i = Some b -> exists v, seen h b = Some v /\ nth_error vs i = Some v).
  { intros i b X. specialize (Vv i). unfold view in Vv. cbn in Vv. rewrite X in Vv.
    destruct (seen_some h b (proj1 (proj1 (Bi i b X)))) as (v & V). exists v. split; [assumption|congruence]. }
  assert (Vn : forall i, nth_error bs i = None -> nth_error vs i = None).
  { intros i X. specialize (Vv i). unfold view in Vv. cbn in Vv. now rewrite X in Vv. }
  assert (Grown : forall g, forall i b, nth_error bs i = Some b -> seen (h ++ [Cell g Free]) b = seen h b).
  { intros g i b X. apply seen_frame. rewrite nth_error_app1; [reflexivity|]. apply (Bi _ _ X). }
  assert (Vg : forall ks' g f', viewed (World bs ks' [] (h ++ [Cell g Free]) f') vs).
  { intros ks' g f'. split; [assumption|]. intros i. rewrite <- Vv. unfold view. cbn.
    destruct (nth_error bs i) as [b|] eqn:X; [now apply (Grown g i)|reflexivity]. }
  assert (Add : forall g b v f', seen (h ++ [Cell g Free]) b = Some v -> viewed (World (bs ++ [b]) ks [] (h ++ [Cell g Free]) f') (vs ++ [v])).
  { intros g b v f' V. split; [cbn; rewrite !app_length; cbn; lia|]. intros i. unfold view. cbn.
    destruct (Nat.lt_ge_cases i (length bs)) as [Hi|Hi].
    - rewrite !nth_error_app1 by lia. specialize (Vg ks g f). destruct Vg as [_ Vg]. apply (Vg i).
    - rewrite !nth_error_app2 by lia. rewrite Vl. destruct (i - length bs) as [|k]; [assumption|]. now destruct k. }
  assert (Same : forall ks' f', viewed (World bs ks' [] h f') vs) by (intros; split; [assumption|exact Vv]).
  assert (Put : forall i b b' h' v f', nth_error bs i = Some b ->
    (forall j b0, j <> i -> nth_error bs j = Some b0 -> seen h' b0 = seen h b0) ->
    seen h' b' = Some v -> viewed (World (put_at bs i b') ks [] h' f') (put_at vs i v)).
  { intros i b b' h' v f' X F V. assert (Hi : i < length bs) by (apply nth_error_Some; congruence).
    split; [cbn; rewrite !length_put_at by lia; assumption|]. intros j. unfold view. cbn. rewrite !nth_put_at by lia.
    destruct (Nat.eqb_spec j i) as [->|Hn]; [assumption|]. rewrite <- Vv. unfold view. cbn.
    destruct (nth_error bs j) as [b0|] eqn:Ej; [|reflexivity]. now apply (F j). }
  unfold nexec in E; destruct c; cbn [plain ncall_ok vexec] in *.
  - destruct (new_buffer h al) as (b & g & Eb & Wg & H1 & H2 & H3 & H4 & v & Ev & V). rewrite Eb in E. injection E as <- <-.
    split; [reflexivity|]. split; [apply Forall_app; now repeat constructor|]. rewrite Ev. cbn. eauto.
  - destruct (opened_buffer h al f p) as (r & h' & Er & X). rewrite Er in E. cbn [bind] in E.
    destruct X as [(-> & e & -> & Ef)|(g & -> & Wg & X)].
    + injection E as <- <-. split; [reflexivity|]. split; [assumption|]. rewrite Ef. cbn. eauto.
    + destruct r as [b|e]; injection E as <- <-.
      * destruct X as (H1 & H2 & H3 & H4 & v & Ef & V). split; [reflexivity|]. split; [apply Forall_app; now repeat constructor|].
        rewrite Ef. cbn. eauto.
      * split; [reflexivity|]. split; [assumption|]. rewrite X. cbn. eauto.
  - destruct (nth_error bs i) as [b|] eqn:Ei.
    2:{ injection E as <- <-. rewrite (Vn i Ei). split; [reflexivity|]. split; [assumption|]. eauto. }
    destruct (Bi i b Ei) as [B O]. destruct (Vi i b Ei) as (v & V & Evi). rewrite Evi.
    assert (Hc' : call_ok c /\ c <> BSetCallback true) by (destruct c; try easy; now destruct on).
    pose proof (pbuffer_moves (lease_of []) al c f h b Ha (proj1 Hc') (proj2 Hc') I1 B O) as X.
    destruct (pbuffer brk (told brk code) al c b f h) as [[[[o' b'] f'] h']|]; [|discriminate]. cbn [bind] in E. injection E as <- <-.
    destruct X as [[A1 A2 A3 A4 A5 A6 A7] X]. destruct (X (looks_all b) (Ti i b Ei) eq_refl v V) as (v' & Ev & V').
    split; [reflexivity|]. split.
    + apply Forall_put_at; [assumption|]. unfold tied. pose proof (Ti i b Ei) as Tb. unfold tied in Tb. destruct A7 as [[-> ->]|[_ ->]]; [assumption|reflexivity].
    + rewrite Ev. cbn. eexists. split; [reflexivity|]. apply (Put i b); try assumption.
      intros j b0 Hn Ej. apply seen_frame, A6; [apply (Bi j b0 Ej)| |intros n _; apply Hlook].
      intros Hx. apply Hn. eapply (proj1 (NoDup_nth_error (map rb_data bs)) I5).
      * rewrite map_length. apply nth_error_Some. congruence.
      * rewrite (map_nth_error _ _ _ Ej), (map_nth_error _ _ _ Ei). congruence.
  - destruct (nth_error bs i) as [b|] eqn:Ei.
    2:{ injection E as <- <-. rewrite (Vn i Ei). split; [reflexivity|]. split; [assumption|]. eauto. }
    destruct (Vi i b Ei) as (v & V & Evi). rewrite Evi. pose proof (rdata_keeps (lease_of []) b h I1 (proj1 (Bi i b Ei))) as X.
    destruct (rdata b h) as [[t h']|]; [|discriminate]. cbn in E. injection E as <- <-. destruct X as [-> X].
    split; [reflexivity|]. split; [assumption|]. rewrite (X v V). cbn. eauto.
  - destruct (nth_error bs i) as [b|] eqn:Ei.
    2:{ injection E as <- <-. rewrite (Vn i Ei). split; [reflexivity|]. split; [assumption|]. eauto. }
    destruct (Vi i b Ei) as (v & V & Evi). rewrite Evi. pose proof (rread_keeps (lease_of []) b p q h I1 (proj1 (Bi i b Ei))) as X.
    destruct (rread brk b (range_new p q) h) as [[t h']|]; [|discriminate]. cbn in E. injection E as <- <-. destruct X as [-> X].
    split; [reflexivity|]. split; [assumption|]. rewrite (X v V). cbn. eauto.
  - destruct (nth_error bs i) as [b|] eqn:Ei.
    2:{ injection E as <- <-. rewrite (Vn i Ei). split; [reflexivity|]. split; [assumption|]. eauto. }
    destruct (Vi i b Ei) as (v & V & Evi). rewrite Evi. injection E as <- <-. split; [reflexivity|].
    split; [apply Forall_put_at; [assumption|exact (Ti i b Ei)]|]. eexists. split; [reflexivity|].
    apply (Put i b); try assumption; [reflexivity|]. unfold seen in *. cbn. destruct (nth_error h (rb_data b)); [|discriminate].
    now injection V as <-.
  - destruct (nth_error bs i) as [b|] eqn:Ei; injection E as <- <-; (split; [reflexivity|]; split; [assumption|]; eauto).
  - now destruct Hp.
  - destruct (new_ok al t Hc) as (g & Eg & R). rewrite Eg in E. cbn in E. injection E as <- <-.
    split; [reflexivity|]. split; [assumption|]. eauto.
  - destruct (nth_error ks k) as [x|] eqn:Ek; [|injection E as <- <-; split; [reflexivity|]; split; [assumption|]; eauto].
    destruct (rmove brk m x h) as [[x' h']|] eqn:Em; [|discriminate]. cbn in E. injection E as <- <-.
    apply rmove_still in Em. subst h'. split; [reflexivity|]. split; [assumption|]. eauto.
  - destruct (nth_error ks k) as [x|] eqn:Ek; injection E as <- <-; (split; [reflexivity|]; split; [assumption|]; eauto).
  - destruct (nth_error ks k) as [x|] eqn:Ek; [|injection E as <- <-; split; [reflexivity|]; split; [assumption|]; eauto].
    destruct (nth_error ks j) as [y|] eqn:Ej; injection E as <- <-; (split; [reflexivity|]; split; [assumption|]; eauto).
  - destruct (nth_error ks k) as [x|] eqn:Ek; [|injection E as <- <-; split; [reflexivity|]; split; [assumption|]; eauto].
    assert (Hk : rc_data x < length h) by (rewrite Forall_forall in I4; apply I4; eapply nth_error_In; eassumption).
    pose proof (pstorage_steps (lease_of []) al c (rc_data x) h Ha Hc I1 Hk) as X.
    destruct (pstorage brk al c (rc_data x) h) as [[o' h']|]; [|discriminate]. cbn in E. injection E as <- <-.
    destruct X as (_ & _ & X). assert (h' = h) as -> by (apply heap_ext; intros r; apply X; now right).
    split; [reflexivity|]. split; [assumption|]. eauto.
  - now destruct Hp.
  - cbn in E. destruct (nth_error [] n) as [g|] eqn:En; [now destruct n|]. injection E as <- <-. split; [reflexivity|]. split; [assumption|]. eauto.
  - injection E as <- <-. split; [reflexivity|]. split; [assumption|]. eauto.
Qed.

Lemma vrun_snoc cs al c : forall bs f os bs1 f1 o bs2 f2, vrun brk cs bs f = Ok (os, bs1, f1) ->
  vexec brk al c bs1 f1 = Ok (o, bs2, f2) -> vrun brk (cs ++ [(al, c)]) bs f = Ok (os ++ [o], bs2, f2).
Proof.
  induction cs as [|[al' c'] cs IH]; intros bs f os bs1 f1 o bs2 f2; cbn.
  - intros [= <- <- <-] E. now rewrite E.
  - destruct (vexec brk al' c' bs f) as [[[o1 b1] f1']|]; [|discriminate]. cbn.
    destruct (vrun brk cs b1 f1') as [[[os1 b2] f2']|] eqn:E1; [|discriminate]. cbn. intros [= <- <- <-] E.
    rewrite (IH _ _ _ _ _ _ _ _ E1 E). reflexivity.
Qed.

Lemma values f cs os w : world_session brk code plain f cs os w ->
  wo_guards w = [] /\ Forall tied (wo_buffers w) /\
  exists vs, vrun brk cs [] f = Ok (map from_buffers os, vs, wo_disk w) /\ viewed w vs.
Proof.
  intros H. induction H as [|cs os w al c o w' H IH Ha Hc HQ E].
  - split; [reflexivity|]. split; [constructor|]. exists []. split; [reflexivity|]. split; [reflexivity|]. now intros [|i].
  - destruct IH as (G & T & vs & Er & V). destruct (nexec_value al c w o w' vs Ha Hc HQ (world_inv _ _ _ _ _ H) G T V E) as (G' & T' & vs' & Ev & V').
    split; [assumption|]. split; [assumption|]. exists vs'. split; [|assumption]. rewrite map_app. eapply vrun_snoc; eassumption.
Qed.

(** Each of the buffers is one that Buffer.v reaches. *)
Lemma reach_call v f al c o v' f' : reachable_buffer brk v f -> alloc_ok al -> call_ok c ->
  bexec brk al c v f = Ok (o, v', f') -> reachable_buffer brk v' f'.
Proof.
  intros (b0 & f0 & cs & os & Hf & Hok & E) Ha Hc Ex. exists b0, f0, (cs ++ [(al, c)]), (os ++ [o]).
  split; [assumption|]. split; [apply Forall_app; split; [assumption|now repeat constructor]|].
  clear Hf Hok. revert b0 f0 os E. induction cs as [|[al1 c1] cs IH]; intros b0 f0 os E; cbn in *.
  - injection E as <- <- <-. rewrite Ex. reflexivity.
  - destruct (bexec brk al1 c1 b0 f0) as [[[o1 b1] f1]|]; [|discriminate]. cbn in *.
    destruct (brun brk cs b1 f1) as [[[os1 b2] f2]|] eqn:E1; [|discriminate]. cbn in E. injection E as <- <- <-.
    now rewrite (IH _ _ _ E1).
Qed.
Lemma vexec_reaches al c vs f o vs' f' : alloc_ok al ->
  match c with NBuffer _ c => call_ok c | _ => True end ->
  Forall (fun v => reachable_buffer brk v f) vs -> vexec brk al c vs f = Ok (o, vs', f') ->
  Forall (fun v => reachable_buffer brk v f') vs'.
Proof.
  intros Ha Hc F E.
  assert (Disk : forall f1, Forall (fun v => reachable_buffer brk v f1) vs).
  { intros f1. eapply Forall_impl; [|exact F]. intros v R. eapply (reach_call v f al (BDisk f1)); [exact R|assumption|exact I|reflexivity]. }
  assert (New : forall v, fresh_buffer f v -> reachable_buffer brk v f).
  { intros v H. exists v, f, [], []. split; [assumption|]. split; [constructor|reflexivity]. }
  destruct c; cbn [vexec] in E; try (injection E as <- <- <-; apply Disk).
  - destruct (buffer_new al) as [b|] eqn:Eb; [|discriminate]. injection E as <- <- <-. apply Forall_app. split; [assumption|].
    constructor; [|constructor]. apply New. left. eauto.
  - destruct (from_file al f p) as [[b|e]|] eqn:Eb; [..|discriminate]; injection E as <- <- <-; [|assumption]. apply Forall_app. split; [assumption|].
    constructor; [|constructor]. apply New. right. eauto.
  - destruct (nth_error vs i) as [v|] eqn:Ei; [|injection E as <- <- <-; assumption].
    destruct (bexec brk al c v f) as [[[o1 v1] f1]|] eqn:Ex; [|discriminate]. injection E as <- <- <-.
    apply Forall_put_at; [apply Disk|]. eapply reach_call; [|exact Ha|exact Hc|exact Ex].
    rewrite Forall_forall in F. apply F. eapply nth_error_In; eassumption.
  - destruct (nth_error vs i) as [v|]; [|injection E as <- <- <-; assumption]. destruct (buf_data v); [|discriminate].
    injection E as <- <- <-. assumption.
  - destruct (nth_error vs i) as [v|]; [|injection E as <- <- <-; assumption]. destruct (buf_read brk v (range_new p q)); [|discriminate].
    injection E as <- <- <-. assumption.
  - destruct (nth_error vs i) as [v|] eqn:Ei; injection E as <- <- <-; [|assumption].
    apply Forall_put_at; [assumption|]. eapply (reach_call v f al (BSetCallback true)); [|exact Ha|exact I|reflexivity].
    rewrite Forall_forall in F. apply F. eapply nth_error_In; eassumption.
Qed.
Lemma views_reachable f cs os w : world_session brk code plain f cs os w ->
  forall i v, view w i = Some v -> reachable_buffer brk v (wo_disk w).
Proof.
  intros H. enough (X : exists vs, viewed w vs /\ Forall (fun v => reachable_buffer brk v (wo_disk w)) vs).
  { destruct X as (vs & [_ V] & F). intros i v E. rewrite V in E. rewrite Forall_forall in F. apply F. eapply nth_error_In; eassumption. }
  induction H as [|cs os w al c o w' H IH Ha Hc HQ E].
  - exists []. split; [|constructor]. split; [reflexivity|]. now intros [|i].
  - destruct IH as (vs & V & F). destruct (values _ _ _ _ H) as (G & T & _).
    destruct (nexec_value al c w o w' vs Ha Hc HQ (world_inv _ _ _ _ _ H) G T V E) as (_ & _ & vs' & Ev & V').
    exists vs'. split; [assumption|]. eapply vexec_reaches; [exact Ha| |exact F|exact Ev].
    destruct c; try exact I. cbn in Hc. destruct c; try exact Hc; exact I.
Qed.
End Proofs.

(** ** As the properties state them *)

Section Stated.
Variable brk : brk_rule.
Variable code : closures.

Lemma never_stuck w al c : order_safe brk -> closures_ok code -> reached brk code w -> alloc_ok al -> ncall_ok code w c ->
  (forall r, needs code w c r -> ~ guarded w r) -> exists o w', nexec brk code al c w = Ok (o, w').
Proof.
  intros Hos Hcode (f & cs & os & S) Ha Hc Hn. pose proof (world_inv brk code Hos Hcode _ _ _ _ _ S) as I.
  pose proof (nexec_steps brk code Hos Hcode al c w Ha Hc I) as X.
  destruct (nexec brk code al c w) as [[o w']|]; [eauto|]. exfalso. apply X. intros r Hr.
  apply lease_free. exact (Hn r Hr).
Qed.
Lemma never_stuck_free w al c : order_safe brk -> closures_ok code -> reached brk code w -> alloc_ok al -> ncall_ok code w c ->
  wo_guards w = [] -> exists o w', nexec brk code al c w = Ok (o, w').
Proof.
  intros H1 H2 H3 H4 H5 G. apply never_stuck; try assumption. intros r _ (m & X). now rewrite G in X.
Qed.
Lemma stuck_exactly w al c r m : order_safe brk -> closures_ok code -> reached brk code w -> alloc_ok al -> ncall_ok code w c ->
  borrows w c r m -> (nexec brk code al c w = Panic <-> conflict w r m).
Proof.
  intros Hos Hcode (f & cs & os & S). apply panics_exactly; try assumption. now apply (world_inv brk code Hos Hcode _ _ _ _ _ S).
Qed.
Lemma storages_hold w r x : order_safe brk -> closures_ok code -> reached brk code w -> nth_error (wo_heap w) r = Some x ->
  (exists t, gb_to_string (c_gap x) = Ok t /\ valid_text t) /\ (c_lease x = Free <-> ~ guarded w r).
Proof.
  intros Hos Hcode (f & cs & os & S) E. pose proof (world_inv brk code Hos Hcode _ _ _ _ _ S) as [[K _] _ _ _ _].
  destruct (K _ _ E) as [W El]. split.
  - set (v0 := Buf None (c_gap x) None (Cur (Pos 0 0) 0) hist_new None None false []).
    assert (W0 : wfb v0) by (split; cbn; [assumption|constructor|constructor|exact I]).
    exact (wfb_data_total v0 W0).
  - rewrite El. apply lease_free.
Qed.
Lemma own_storages w : order_safe brk -> closures_ok code -> reached brk code w ->
  NoDup (map rb_data (wo_buffers w)).
Proof. intros Hos Hcode (f & cs & os & S). apply (world_inv brk code Hos Hcode _ _ _ _ _ S). Qed.
Lemma isolated w al c o w' j : order_safe brk -> closures_ok code -> reached brk code w -> alloc_ok al -> ncall_ok code w c ->
  nexec brk code al c w = Ok (o, w') -> j < length (wo_buffers w) -> ~ concerns code w c j -> view w' j = view w j.
Proof.
  intros Hos Hcode (f & cs & os & S) Ha Hc E. pose proof (world_inv brk code Hos Hcode _ _ _ _ _ S) as I.
  pose proof (nexec_steps brk code Hos Hcode al c w Ha Hc I) as X. rewrite E in X. apply X.
Qed.
Lemma are_values f cs os w : order_safe brk -> closures_ok code -> only_look code -> world_session brk code plain f cs os w ->
  exists vs, vrun brk cs [] f = Ok (map from_buffers os, vs, wo_disk w) /\ forall i, view w i = nth_error vs i.
Proof.
  intros Hos Hcode Hl S. destruct (values brk code Hos Hcode Hl _ _ _ _ S) as (_ & _ & vs & E & _ & V). eauto.
Qed.
Lemma are_reachable f cs os w i v : order_safe brk -> closures_ok code -> only_look code -> world_session brk code plain f cs os w ->
  view w i = Some v -> reachable_buffer brk v (wo_disk w).
Proof. intros Hos Hcode Hl S. exact (views_reachable brk code Hos Hcode Hl _ _ _ _ S i v). Qed.
End Stated.
