(** Which storages are held after each call. *)
From Coq Require Import Permutation.
From Verif Require Import Base Utf8 Utf8Proofs Grapheme GraphemeProofs Position GapBuffer
  GapBufferProofs Cursor PathModel Buffer Spec CursorSpec Calls CursorCalls TextProofs UaxProofs HalvesProofs TextFacts
  GapProps CursorProofs OpProofs BufferCalls Timeline TimelineProofs AnyTextProofs BufferProps
  BufferIoProps BufferFacts Token Workspace WorkspaceSpec WorkspaceProofs Shared SharedSpec SharedProofs World WorldSpec WorldProofs
  Desk DeskSpec DeskProofs DeskValues HoldersSpec.

Definition blank (h : heap) (b : rbuffer) : Prop :=
  length h <= rb_data b /\ rc_data (rb_cursor b) = rb_data b /\ rb_callback b = None.

Lemma blank_mono h h' b : length h <= length h' -> blank h' b -> blank h b.
Proof. intros H (B1 & B2 & B3). split; [lia|now split]. Qed.

Lemma new_blank al h b h' : rbuffer_new al h = Ok (b, h') -> blank h b /\ length h <= length h'.
Proof.
  intros E. destruct (new_buffer h al) as (b0 & g & E0 & _ & H1 & H2 & H3 & _). rewrite E0 in E. injection E as <- <-.
  rewrite app_length. split; [|lia]. split; [lia|now split].
Qed.
Lemma opened_blank al f p h r h' : rfrom_file al f p h = Ok (r, h') -> length h <= length h' /\ forall b, r = ROk b -> blank h b.
Proof.
  intros E. destruct (opened_buffer h al f p) as (r0 & h0 & E0 & X). rewrite E0 in E. injection E as <- <-.
  destruct X as [(-> & e & -> & _)|(g & -> & _ & X)]; [split; [lia|discriminate]|]. rewrite app_length. split; [lia|]. intros b ->.
  destruct X as (H1 & H2 & H3 & _). split; [lia|now split].
Qed.

Lemma in_upd {A} (l : list A) : forall i x l' y, upd l i x = Ok l' -> In y l' -> In y l \/ y = x.
Proof.
  induction l as [|z l IH]; intros [|i] x l' y E H; try discriminate; cbn [upd] in E.
  - injection E as <-. destruct H as [<-|H]; [now right|left; now right].
  - destruct (upd l i x) as [m|] eqn:Em; [|discriminate]. injection E as <-. destruct H as [<-|H]; [left; now left|].
    destruct (IH _ _ _ _ Em H) as [H'| ->]; [left; now right|now right].
Qed.
Lemma in_without_any {A} (l : list A) i y : In y (without l i) -> In y l.
Proof. intros H. pose proof (forall_without (fun y => In y l) l i) as F. rewrite !Forall_forall in F. now apply F. Qed.
Lemma in_put_any {A} (l : list A) i x y : In y (put_at l i x) -> In y (without l i) \/ y = x.
Proof.
  unfold put_at, without. intros H. apply in_app_or in H as [H|[H|H]]; [left|now right|left]; apply in_or_app; [now left|now right].
Qed.

(** ** What is in the workspace after each function *)

Lemma rselect_in al w j h x w' h' : rselect_buffer al w j h = Ok ((x, w'), h') ->
  length h <= length h' /\ forall b, in_workspace w' b -> in_workspace w b \/ blank h b.
Proof.
  unfold rselect_buffer, mbind, lift, ret. intros E.
  assert (X : exists w1, (match rw_current w with
    | Some current => match rw_index w with
      | None => fun _ => Panic
      | Some i => fun h => let* (slot, h) := (let* a := get (rw_buffers w) i in Ok (a, h)) in
          let* (bs, h) := (let* a := upd (rw_buffers w) i current in Ok (a, h)) in
          Ok (RWS (rw_path w) bs (rw_next_id w) (Some slot) (rw_index w) (rw_syntaxes w), h) end
    | None => fun h => Ok (w, h) end) h = Ok (w1, h) /\ (forall b, in_workspace w1 b -> in_workspace w b) /\
    (match nth_error (rw_buffers w1) j with
     | Some target => fun h => let* (b, h) := rbuffer_new al h in
         let* (bs, h) := (let* a := upd (rw_buffers w1) j b in Ok (a, h)) in
         Ok ((true, RWS (rw_path w1) bs (rw_next_id w1) (Some target) (Some j) (rw_syntaxes w1)), h)
     | None => fun h => Ok ((false, w1), h) end) h = Ok ((x, w'), h')).
  { destruct (rw_current w) as [c|] eqn:Ec.
    - destruct (rw_index w) as [i|]; [|discriminate]. destruct (get (rw_buffers w) i) as [slot|] eqn:Eg; [|discriminate]. cbn [bind] in *.
      destruct (upd (rw_buffers w) i c) as [bs|] eqn:Eu; [|discriminate]. cbn [bind] in *. eexists. split; [reflexivity|]. split; [|exact E].
      intros b [Hb|Hb]; cbn in Hb.
      + destruct (in_upd _ _ _ _ _ Eu Hb) as [H| ->]; [now left|now right].
      + injection Hb as <-. left. unfold get in Eg. destruct (nth_error (rw_buffers w) i) eqn:En; [|discriminate]. injection Eg as <-.
        eapply nth_error_In; eassumption.
    - exists w. split; [reflexivity|]. split; [auto|exact E]. }
  clear E. destruct X as (w1 & _ & X & E). destruct (nth_error (rw_buffers w1) j) as [target|] eqn:Et.
  - destruct (rbuffer_new al h) as [[b0 h0]|] eqn:Eb; [|discriminate]. cbn [bind] in E. destruct (new_blank _ _ _ _ Eb) as [Bb Lb].
    destruct (upd (rw_buffers w1) j b0) as [bs|] eqn:Eu; [|discriminate]. injection E as _ <- <-. split; [assumption|].
    intros b [Hb|Hb]; cbn in Hb.
    + destruct (in_upd _ _ _ _ _ Eu Hb) as [H| ->]; [left; apply X; now left|now right].
    + injection Hb as <-. left. apply X. left. eapply nth_error_In; eassumption.
  - injection E as _ <- <-. split; [lia|auto].
Qed.

Definition derived (h : heap) (b b' : rbuffer) : Prop :=
  (rb_callback b' = rb_callback b \/ rb_callback b' = None) /\
  ((rb_data b' = rb_data b /\ rc_data (rb_cursor b') = rc_data (rb_cursor b)) \/
   (length h <= rb_data b' /\ rc_data (rb_cursor b') = rb_data b')).
Lemma derived_self h b : derived h b b.
Proof. split; left; auto. Qed.
Lemma derived_entered h b b' : entered b b' -> derived h b b'.
Proof. intros (i & y & ->). split; left; auto. Qed.
Lemma blank_entered h b b' : entered b b' -> blank h b -> blank h b'.
Proof. intros (i & y & ->) B. exact B. Qed.
Lemma derived_trans h b b1 b2 : entered b1 b2 -> derived h b b1 -> derived h b b2.
Proof. intros (i & y & ->) B. exact B. Qed.

(** Where the buffers of a workspace come from. *)
Definition origin (P : rbuffer -> Prop) (h : heap) (b' : rbuffer) : Prop := (exists b, P b /\ derived h b b') \/ blank h b'.
Lemma origin_self (P : rbuffer -> Prop) h b : P b -> origin P h b.
Proof. intros H. left. exists b. split; [assumption|apply derived_self]. Qed.
Lemma origin_entered (P : rbuffer -> Prop) h b b' : entered b b' -> origin P h b -> origin P h b'.
Proof.
  intros E [(x & Hx & D)|B]; [left; exists x; split; [assumption|now apply (derived_trans h x b)]|right; now apply (blank_entered h b)].
Qed.
Lemma origin_mono (P Q : rbuffer -> Prop) h h' b : (forall x, P x -> Q x) -> length h <= length h' -> origin P h' b -> origin Q h b.
Proof.
  intros HPQ Hl [(x & Hx & D1 & D2)|B]; [left; exists x; split; [now apply HPQ|]|right; now apply (blank_mono h h')].
  split; [assumption|]. destruct D2 as [D2|[D2 D3]]; [now left|right; split; [lia|assumption]].
Qed.
Lemma entered_syntax b y : entered b (rset_syntax b y).
Proof. exists (rb_id b), y. now destruct b. Qed.
Lemma entered_id b i : entered b (rset_id b i).
Proof. exists i, (rb_syntax b). now destruct b. Qed.

Lemma rupdate_in w r w' : rupdate_syntax w = (r, w') -> forall b, in_workspace w' b -> exists b0, in_workspace w b0 /\ entered b0 b.
Proof.
  unfold rupdate_syntax. destruct (rw_current w) as [c|] eqn:Ec; intros [= <- <-] b [Hb|Hb]; cbn in Hb.
  - exists b. split; [now left|apply entered_self].
  - injection Hb as <-. exists c. split; [now right|apply entered_syntax].
  - exists b. split; [now left|apply entered_self].
  - congruence.
Qed.

Lemma radd_in al w buf h w' h' : radd_buffer al w buf h = Ok (w', h') ->
  length h <= length h' /\ forall b, in_workspace w' b -> origin (fun x => in_workspace w x \/ x = buf) h b.
Proof.
  unfold radd_buffer. set (buf' := rset_id buf _). set (i := match rw_index w with Some _ => _ | None => _ end).
  unfold mbind at 1, lift. unfold vec_insert. destruct (i <=? length (rw_buffers w)); [|discriminate]. cbn [bind]. unfold mbind at 1.
  set (w1 := RWS _ _ _ _ _ _). destruct (rselect_buffer al w1 i h) as [[[x w2] h2]|] eqn:Es; [|discriminate]. cbn [bind].
  destruct (rselect_in _ _ _ _ _ _ _ Es) as [L X].
  assert (O : forall b, in_workspace w2 b -> origin (fun x => in_workspace w x \/ x = buf) h b).
  { intros b Hb. destruct (X b Hb) as [[H|H]|H]; [| |now right].
    - cbn in H. apply in_app_or in H as [H|[<-|H]].
      + apply origin_self. left. left. rewrite <- (firstn_skipn i (rw_buffers w)). apply in_or_app. now left.
      + apply (origin_entered _ _ buf); [apply entered_id|]. apply origin_self. now right.
      + apply origin_self. left. left. rewrite <- (firstn_skipn i (rw_buffers w)). apply in_or_app. now right.
    - cbn in H. apply origin_self. left. now right. }
  assert (Y : (w' = w2 \/ w' = snd (rupdate_syntax w2)) /\ h' = h2 -> length h <= length h' /\ forall b, in_workspace w' b -> origin (fun x => in_workspace w x \/ x = buf) h b).
  { intros [[-> | ->] ->]; (split; [assumption|]); [exact O|]. intros b Hb. destruct (rupdate_syntax w2) as [r w3] eqn:Eu.
    destruct (rupdate_in _ _ _ Eu b Hb) as (b0 & H0 & E0). apply (origin_entered _ _ b0 b E0). now apply O. }
  intros E. apply Y. unfold ret in E. destruct (rw_current w2) as [c|]; [destruct (rb_syntax c)|]; injection E as <- <-; auto.
Qed.

Lemma rnext_in al w h w' h' : rnext_buffer al w h = Ok (w', h') ->
  length h <= length h' /\ forall b, in_workspace w' b -> origin (in_workspace w) h b.
Proof.
  unfold rnext_buffer, mbind, lift, ret. destruct (rw_index w) as [i|].
  2:{ intros [= <- <-]. split; [lia|]. intros b Hb. now apply origin_self. }
  destruct (usub (length (rw_buffers w)) 1) as [n|]; [|discriminate]. cbn [bind].
  destruct (i =? n); (destruct (rselect_buffer al w _ h) as [[[x w2] h2]|] eqn:Es; [|discriminate]); intros [= <- <-];
    destruct (rselect_in _ _ _ _ _ _ _ Es) as [L X]; (split; [assumption|]); intros b Hb;
    (destruct (X b Hb) as [H|H]; [now apply origin_self|now right]).
Qed.
Lemma rprevious_in al w h w' h' : rprevious_buffer al w h = Ok (w', h') ->
  length h <= length h' /\ forall b, in_workspace w' b -> origin (in_workspace w) h b.
Proof.
  unfold rprevious_buffer, mbind, lift, ret. destruct (rw_index w) as [i|].
  2:{ intros [= <- <-]. split; [lia|]. intros b Hb. now apply origin_self. }
  destruct (0 <? i); [|destruct (usub (length (rw_buffers w)) 1) as [n|]; [|discriminate]; cbn [bind]];
    (destruct (rselect_buffer al w _ h) as [[[x w2] h2]|] eqn:Es; [|discriminate]); intros [= <- <-];
    destruct (rselect_in _ _ _ _ _ _ _ Es) as [L X]; (split; [assumption|]); intros b Hb;
    (destruct (X b Hb) as [H|H]; [now apply origin_self|now right]).
Qed.
Lemma rclose_in al w h w' h' : rclose_current al w h = Ok (w', h') ->
  length h <= length h' /\ forall b, in_workspace w' b ->
    (In b (match rw_index w with Some i => without (rw_buffers w) i | None => rw_buffers w end)) \/ blank h b.
Proof.
  unfold rclose_current, mbind, lift, ret. destruct (rw_index w) as [i|].
  2:{ intros [= <- <-]. split; [lia|]. intros b [Hb|Hb]; [now left|discriminate]. }
  unfold vec_remove. destruct (i <? length (rw_buffers w)); [|discriminate]. cbn [bind]. change (firstn i (rw_buffers w) ++ skipn (S i) (rw_buffers w)) with (without (rw_buffers w) i).
  destruct (without (rw_buffers w) i) as [|z l] eqn:El.
  - intros [= <- <-]. split; [lia|]. intros b [[]|Hb]; discriminate.
  - rewrite <- El. destruct (rselect_buffer al _ _ h) as [[[x w2] h2]|] eqn:Es; [|discriminate]. intros [= <- <-].
    destruct (rselect_in _ _ _ _ _ _ _ Es) as [L X]. split; [assumption|]. intros b Hb.
    destruct (X b Hb) as [[H|H]|H]; [now left|discriminate|now right].
Qed.
Lemma ropen_in al f w p h r w' h' : ropen_buffer al f w p h = Ok ((r, w'), h') ->
  length h <= length h' /\ forall b, in_workspace w' b -> origin (in_workspace w) h b.
Proof.
  unfold ropen_buffer. unfold mbind at 1. destruct (rselect_by_path al f w p h) as [[[x w1] h1]|] eqn:Es; [|discriminate]. cbn [bind].
  assert (S : length h <= length h1 /\ forall b, in_workspace w1 b -> in_workspace w b \/ blank h b).
  { unfold rselect_by_path, ret in Es. destruct (fs_canon f p) as [cp|]; [|injection Es as _ <- <-; split; [lia|auto]].
    destruct (path_is _ cp); [injection Es as _ <- <-; split; [lia|auto]|]. destruct (find_index _ _) as [i|]; [|injection Es as _ <- <-; split; [lia|auto]].
    now apply (rselect_in _ _ _ _ _ _ _ Es). }
  destruct S as [L1 S]. assert (O : forall b, in_workspace w1 b -> origin (in_workspace w) h b).
  { intros b Hb. destruct (S b Hb) as [H|H]; [now apply origin_self|now right]. }
  destruct x; [intros [= _ <- <-]; now split|]. unfold mbind at 1. destruct (rfrom_file al f p h1) as [[r0 h2]|] eqn:Ef; [|discriminate]. cbn [bind].
  destruct (opened_blank _ _ _ _ _ _ Ef) as [L2 Ob]. destruct r0 as [b0|e].
  - unfold mbind. destruct (radd_buffer al w1 b0 h2) as [[w2 h3]|] eqn:Ea; [|discriminate]. intros [= _ <- <-].
    destruct (radd_in _ _ _ _ _ _ Ea) as [L3 A]. split; [lia|]. intros b Hb.
    destruct (A b Hb) as [(x & [Hx | ->] & D)|B].
    + destruct (S x Hx) as [H|H].
      * left. exists x. split; [assumption|]. destruct D as [D1 D2]. split; [assumption|]. destruct D2 as [D2|[D2 D3]]; [now left|right; split; [lia|assumption]].
      * right. destruct H as (B1 & B2 & B3). destruct D as [D1 [[D2 D3]|[D2 D3]]]; (split; [|split]); try congruence; try lia; destruct D1; congruence.
    + right. destruct (Ob b0 eq_refl) as (B1 & B2 & B3). destruct D as [D1 [[D2 D3]|[D2 D3]]]; (split; [|split]); try congruence; try lia; destruct D1; congruence.
    + right. apply (blank_mono h h2); [lia|assumption].
  - intros [= _ <- <-]. split; [lia|exact O].
Qed.

(** ** The buffer in the slot holds its own storage only *)
Definition plain (w : rworkspace) : Prop := forall i, rw_index w = Some i ->
  i < length (rw_buffers w) /\ forall b, nth_error (rw_buffers w) i = Some b -> rc_data (rb_cursor b) = rb_data b /\ rb_callback b = None.
Definition fresh_slot (h : heap) (w : rworkspace) : Prop := forall i, rw_index w = Some i ->
  i < length (rw_buffers w) /\ forall b, nth_error (rw_buffers w) i = Some b -> blank h b.
Definition same_slot (w w' : rworkspace) : Prop := rw_index w' = rw_index w /\ rw_buffers w' = rw_buffers w.
Lemma fresh_plain h w : fresh_slot h w -> plain w.
Proof. intros P i Hi. destruct (P i Hi) as [H X]. split; [assumption|]. intros b Hb. now apply (X b). Qed.
Lemma same_plain w w' : same_slot w w' -> plain w -> plain w'.
Proof. intros [H1 H2] P i. rewrite H1, H2. apply P. Qed.
Lemma fresh_mono h h' w : length h <= length h' -> fresh_slot h' w -> fresh_slot h w.
Proof. intros L P i Hi. destruct (P i Hi) as [H X]. split; [assumption|]. intros b Hb. apply (blank_mono h h' b L). now apply X. Qed.
Lemma same_same w : same_slot w w.
Proof. now split. Qed.
Lemma upd_at {A} (l : list A) : forall i x l', upd l i x = Ok l' -> length l' = length l /\ nth_error l' i = Some x.
Proof.
  induction l as [|y l IH]; intros [|i] x l' E; try discriminate; cbn [upd] in E.
  - injection E as <-. now split.
  - destruct (upd l i x) as [m|] eqn:Em; [|discriminate]. injection E as <-. destruct (IH _ _ _ Em) as [H1 H2]. cbn. now rewrite H1.
Qed.
Lemma rselect_plain al w j h x w' h' : rselect_buffer al w j h = Ok ((x, w'), h') -> j < length (rw_buffers w) -> fresh_slot h w'.
Proof.
  unfold rselect_buffer, mbind, lift, ret. intros E Hj.
  assert (T : forall w1, length (rw_buffers w1) = length (rw_buffers w) ->
    (match nth_error (rw_buffers w1) j with
     | Some target => fun h => let* (b, h) := rbuffer_new al h in
         let* (bs, h) := (let* a := upd (rw_buffers w1) j b in Ok (a, h)) in
         Ok ((true, RWS (rw_path w1) bs (rw_next_id w1) (Some target) (Some j) (rw_syntaxes w1)), h)
     | None => fun h => Ok ((false, w1), h) end) h = Ok ((x, w'), h') -> fresh_slot h w').
  { clear E. intros w1 L E. destruct (nth_error (rw_buffers w1) j) as [t|] eqn:Et; [|apply nth_error_None in Et; lia].
    destruct (rbuffer_new al h) as [[b0 h0]|] eqn:Eb; [|discriminate]. cbn [bind] in E. destruct (new_blank _ _ _ _ Eb) as [Bb _].
    destruct (upd (rw_buffers w1) j b0) as [bs|] eqn:Eu; [|discriminate]. injection E as _ <- <-. destruct (upd_at _ _ _ _ Eu) as [U1 U2].
    intros i [= <-]. cbn. split; [lia|]. intros b Hb. rewrite U2 in Hb. now injection Hb as <-. }
  destruct (rw_current w) as [c|] eqn:Ec.
  - destruct (rw_index w) as [i|]; [|discriminate]. destruct (get (rw_buffers w) i) as [slot|] eqn:Eg; [|discriminate]. cbn [bind] in *.
    destruct (upd (rw_buffers w) i c) as [bs|] eqn:Eu; [|discriminate]. cbn [bind] in *. destruct (upd_at _ _ _ _ Eu) as [U1 _].
    apply (T (RWS (rw_path w) bs (rw_next_id w) (Some slot) (Some i) (rw_syntaxes w))); [exact U1|exact E].
  - apply (T w); [reflexivity|exact E].
Qed.
Lemma radd_plain al w buf h w' h' : radd_buffer al w buf h = Ok (w', h') -> fresh_slot h w'.
Proof.
  unfold radd_buffer. set (buf' := rset_id buf _). set (i := match rw_index w with Some _ => _ | None => _ end).
  unfold mbind at 1, lift. unfold vec_insert. destruct (i <=? length (rw_buffers w)) eqn:Hi; [|discriminate]. apply Nat.leb_le in Hi. cbn [bind]. unfold mbind at 1.
  set (w1 := RWS _ _ _ _ _ _). destruct (rselect_buffer al w1 i h) as [[[x w2] h2]|] eqn:Es; [|discriminate]. cbn [bind].
  assert (P : fresh_slot h w2). { apply (rselect_plain _ _ _ _ _ _ _ Es). cbn. rewrite app_length, firstn_length_le by lia. cbn. lia. }
  unfold ret. destruct (rw_current w2) as [c|] eqn:Ec; [destruct (rb_syntax c)|]; intros [= <- <-]; try exact P.
  unfold rupdate_syntax. rewrite Ec. exact P.
Qed.
Lemma rnext_plain al w h w' h' : rnext_buffer al w h = Ok (w', h') -> plain w -> same_slot w w' \/ fresh_slot h w'.
Proof.
  unfold rnext_buffer, mbind, lift, ret, usub. intros E P. destruct (rw_index w) as [i|] eqn:Ei; [right|injection E as <- <-; left; apply same_same].
  destruct (P i Ei) as [Hi _]. destruct (1 <=? length (rw_buffers w)); [|discriminate]. cbn [bind] in E.
  destruct (i =? length (rw_buffers w) - 1) eqn:El; (destruct (rselect_buffer al w _ h) as [[[x w2] h2]|] eqn:Es; [|discriminate]); injection E as <- <-;
    apply (rselect_plain _ _ _ _ _ _ _ Es); [lia|]. apply Nat.eqb_neq in El. lia.
Qed.
Lemma rprevious_plain al w h w' h' : rprevious_buffer al w h = Ok (w', h') -> plain w -> same_slot w w' \/ fresh_slot h w'.
Proof.
  unfold rprevious_buffer, mbind, lift, ret, usub. intros E P. destruct (rw_index w) as [i|] eqn:Ei; [right|injection E as <- <-; left; apply same_same].
  destruct (P i Ei) as [Hi _]. destruct (0 <? i); [|destruct (1 <=? length (rw_buffers w)); [|discriminate]; cbn [bind] in E];
    (destruct (rselect_buffer al w _ h) as [[[x w2] h2]|] eqn:Es; [|discriminate]); injection E as <- <-;
    apply (rselect_plain _ _ _ _ _ _ _ Es); lia.
Qed.
Lemma rclose_plain al w h w' h' : rclose_current al w h = Ok (w', h') -> plain w -> same_slot w w' \/ fresh_slot h w'.
Proof.
  unfold rclose_current, mbind, lift, ret. intros E P. destruct (rw_index w) as [i|] eqn:Ei.
  2:{ injection E as <- <-. left. split; [now symmetry|reflexivity]. }
  right.
  destruct (P i Ei) as [Hi _]. unfold vec_remove in E. destruct (i <? length (rw_buffers w)); [|discriminate]. cbn [bind] in E.
  change (firstn i (rw_buffers w) ++ skipn (S i) (rw_buffers w)) with (without (rw_buffers w) i) in E.
  assert (L : S (length (without (rw_buffers w) i)) = length (rw_buffers w)).
  { unfold without. rewrite app_length, firstn_length_le, skipn_length by lia. lia. }
  destruct (without (rw_buffers w) i) as [|z l] eqn:El; [injection E as <- <-; intros i'; discriminate|]. rewrite <- El in E, L.
  assert (L' : 0 < length (without (rw_buffers w) i)) by (rewrite El; cbn; lia).
  destruct (rselect_buffer al _ _ h) as [[[x w2] h2]|] eqn:Es; [|discriminate]. injection E as <- <-.
  apply (rselect_plain _ _ _ _ _ _ _ Es). cbn. lia.
Qed.
Lemma find_index_lt {A} (f : A -> bool) l : forall i, find_index f l = Some i -> i < length l.
Proof.
  induction l as [|x l IH]; intros i E; [discriminate|]. cbn [find_index] in E. destruct (f x); [injection E as <-; cbn; lia|].
  destruct (find_index f l) as [j|]; [|discriminate]. injection E as <-. cbn. specialize (IH j eq_refl). lia.
Qed.
Lemma ropen_plain al f w p h r w' h' : ropen_buffer al f w p h = Ok ((r, w'), h') -> same_slot w w' \/ fresh_slot h w'.
Proof.
  unfold ropen_buffer. unfold mbind at 1. destruct (rselect_by_path al f w p h) as [[[x w1] h1]|] eqn:Es; [|discriminate]. cbn [bind]. intros E.
  assert (P1 : length h <= length h1 /\ (same_slot w w1 \/ fresh_slot h w1)).
  { assert (Z : forall x0, Ok ((x0, w), h) = Ok ((x, w1), h1) -> length h <= length h1 /\ (same_slot w w1 \/ fresh_slot h w1)).
    { intros x0 [= _ <- <-]. split; [lia|left; apply same_same]. }
    unfold rselect_by_path, ret in Es. destruct (fs_canon f p) as [cp|]; [|now apply (Z _ Es)].
    destruct (path_is _ cp); [now apply (Z _ Es)|]. destruct (find_index _ _) as [i|] eqn:Ef; [|now apply (Z _ Es)].
    split; [now apply (rselect_in _ _ _ _ _ _ _ Es)|]. right. apply (rselect_plain _ _ _ _ _ _ _ Es). now apply find_index_lt in Ef. }
  destruct P1 as [L P1]. destruct x; [now injection E as _ <- _|]. unfold mbind in E.
  destruct (rfrom_file al f p h1) as [[r0 h2]|] eqn:Ef; [|discriminate]. destruct (opened_blank _ _ _ _ _ _ Ef) as [L2 _].
  destruct r0 as [b0|e]; cbn [bind] in E.
  - destruct (radd_buffer al w1 b0 h2) as [[w2 h3]|] eqn:Ea; [|discriminate]. injection E as _ <- _. right.
    apply (fresh_mono h h2); [lia|]. now apply radd_plain in Ea.
  - now injection E as _ <- _.
Qed.

(** ** Every buffer has its own storage, the one in the slot too *)

Definition datas (w : rworkspace) : list ref :=
  map rb_data (rw_buffers w) ++ match rw_current w with Some b => [rb_data b] | None => [] end.
Definition sound (R : list ref) (h : heap) (w : rworkspace) : Prop :=
  NoDup (datas w ++ R) /\ Forall (fun r => r < length h) (datas w ++ R).
Lemma sound_perm R h w R' h' w' gone : sound R h w -> Permutation (datas w ++ R) (gone ++ datas w' ++ R') -> length h <= length h' -> sound R' h' w'.
Proof.
  intros [N F] P L. apply (Permutation_NoDup P) in N. apply (Permutation_Forall P) in F. split.
  - clear - N. induction gone as [|x l IH]; [assumption|]. cbn in N. inversion_clear N. now apply IH.
  - apply Forall_app in F as [_ F]. eapply Forall_impl; [|exact F]. cbn. intros r. lia.
Qed.
Lemma upd_nth {A} (l : list A) : forall i x l' y, upd l i x = Ok l' -> nth_error l i = Some y -> exists a z, l = a ++ y :: z /\ l' = a ++ x :: z.
Proof.
  induction l as [|u l IH]; intros [|i] x l' y E H; try discriminate; cbn [upd] in E.
  - injection E as <-. injection H as <-. now exists [], l.
  - destruct (upd l i x) as [m|] eqn:Em; [|discriminate]. injection E as <-. destruct (IH _ _ _ _ Em H) as (a & z & -> & ->). now exists (u :: a), z.
Qed.
Lemma new_at al h b h' : rbuffer_new al h = Ok (b, h') -> rb_data b = length h /\ length h' = S (length h).
Proof.
  intros E. destruct (new_buffer h al) as (b0 & g & E0 & _ & H1 & _). rewrite E0 in E. injection E as <- <-. rewrite app_length. cbn. lia.
Qed.

Lemma rselect_sound R al w j h x w' h' : sound R h w -> rselect_buffer al w j h = Ok ((x, w'), h') -> sound R h' w'.
Proof.
  unfold rselect_buffer, mbind, lift, ret. intros Hs E.
  assert (X : exists w1, sound R h w1 /\
    (match nth_error (rw_buffers w1) j with
     | Some target => fun h => let* (b, h) := rbuffer_new al h in
         let* (bs, h) := (let* a := upd (rw_buffers w1) j b in Ok (a, h)) in
         Ok ((true, RWS (rw_path w1) bs (rw_next_id w1) (Some target) (Some j) (rw_syntaxes w1)), h)
     | None => fun h => Ok ((false, w1), h) end) h = Ok ((x, w'), h')).
  { destruct (rw_current w) as [c|] eqn:Ec.
    - destruct (rw_index w) as [i|]; [|discriminate]. unfold get in E. destruct (nth_error (rw_buffers w) i) as [slot|] eqn:Eg; [|discriminate]. cbn [bind] in *.
      destruct (upd (rw_buffers w) i c) as [bs|] eqn:Eu; [|discriminate]. cbn [bind] in *. eexists. split; [|exact E].
      apply (sound_perm R h w R h _ []); [assumption| |lia]. destruct (upd_nth _ _ _ _ _ Eu Eg) as (a & z & Ea & ->). unfold datas. rewrite Ec, Ea. cbn [app rw_buffers rw_current].
      apply Permutation_app_tail. rewrite !map_app. cbn [map]. rewrite <- !app_assoc. apply Permutation_app_head. cbn [app].
      etransitivity; [apply perm_skip; symmetry; apply Permutation_cons_append|]. etransitivity; [apply perm_swap|]. apply perm_skip, Permutation_cons_append.
    - exists w. split; assumption. }
  clear E. destruct X as (w1 & S1 & E). destruct (nth_error (rw_buffers w1) j) as [target|] eqn:Et.
  - destruct (rbuffer_new al h) as [[b0 h0]|] eqn:Eb; [|discriminate]. cbn [bind] in E. destruct (new_at _ _ _ _ Eb) as [Bb Lb].
    destruct (upd (rw_buffers w1) j b0) as [bs|] eqn:Eu; [|discriminate]. injection E as _ <- <-. destruct (upd_nth _ _ _ _ _ Eu Et) as (a & z & Ea & ->).
    assert (S2 : sound (rb_data b0 :: R) h0 (RWS (rw_path w1) (a ++ target :: z) (rw_next_id w1) None (Some j) (rw_syntaxes w1))).
    { destruct S1 as [N F]. unfold sound, datas in *. rewrite Ea in *. cbn [rw_buffers rw_current] in *. rewrite app_nil_r. set (l := map rb_data (a ++ target :: z)) in *.
      rewrite <- app_assoc in N, F.
      assert (F' : Forall (fun r => r < length h) (l ++ R)) by (apply Forall_app in F as [F1 F2]; apply Forall_app in F2 as [_ F2]; now apply Forall_app).
      assert (N' : NoDup (l ++ R)).
      { destruct (rw_current w1) as [c|]; [|assumption]. cbn in N. now apply NoDup_remove_1 in N. }
      split.
      - apply (Permutation_NoDup (Permutation_middle l R (rb_data b0))). constructor; [|assumption]. intros Hx. rewrite Forall_forall in F'. apply F' in Hx. lia.
      - apply (Permutation_Forall (Permutation_middle l R (rb_data b0))). constructor; [lia|]. eapply Forall_impl; [|exact F']. cbn. intros r. lia. }
    apply (sound_perm _ _ _ R h0 _ [] S2); [|lia]. unfold datas. cbn [app rw_buffers rw_current]. rewrite app_nil_r, !map_app. cbn [map]. rewrite <- !app_assoc. apply Permutation_app_head.
    cbn [app]. set (t := rb_data target). set (u := rb_data b0). etransitivity; [apply perm_skip; symmetry; apply Permutation_middle|]. etransitivity; [apply perm_swap|]. apply perm_skip.
    apply Permutation_middle.
  - injection E as _ <- <-. assumption.
Qed.
Lemma rupdate_datas w : datas (snd (rupdate_syntax w)) = datas w.
Proof. unfold rupdate_syntax, datas. destruct (rw_current w) as [c|] eqn:Ec; cbn; [reflexivity|now rewrite Ec]. Qed.
Lemma radd_sound R al w buf h w' h' : sound (rb_data buf :: R) h w -> radd_buffer al w buf h = Ok (w', h') -> sound R h' w'.
Proof.
  intros Hs. unfold radd_buffer. set (buf' := rset_id buf _). set (i := match rw_index w with Some _ => _ | None => _ end).
  unfold mbind at 1, lift. unfold vec_insert. destruct (i <=? length (rw_buffers w)); [|discriminate]. cbn [bind]. unfold mbind at 1.
  set (w1 := RWS _ _ _ _ _ _). destruct (rselect_buffer al w1 i h) as [[[x w2] h2]|] eqn:Es; [|discriminate]. cbn [bind].
  assert (S1 : sound R h w1).
  { apply (sound_perm _ _ _ R h w1 [] Hs); [|lia]. unfold datas, w1. cbn [app rw_buffers rw_current].
    etransitivity; [symmetry; apply Permutation_middle|]. change (rb_data buf) with (rb_data buf'). rewrite app_comm_cons, app_comm_cons.
    apply Permutation_app_tail, Permutation_app_tail. change (rb_data buf' :: map rb_data (rw_buffers w)) with (map rb_data (buf' :: rw_buffers w)).
    apply Permutation_map. rewrite <- (firstn_skipn i (rw_buffers w)) at 1. apply Permutation_middle. }
  pose proof (rselect_sound _ _ _ _ _ _ _ _ S1 Es) as S2. intros E. unfold ret in E.
  assert (Y : sound R h2 (snd (rupdate_syntax w2))) by (unfold sound; now rewrite rupdate_datas).
  destruct (rw_current w2) as [c|]; [destruct (rb_syntax c)|]; injection E as <- <-; assumption.
Qed.
Lemma rclose_sound R al w h w' h' : sound R h w -> rclose_current al w h = Ok (w', h') -> sound R h' w'.
Proof.
  intros Hs. unfold rclose_current, mbind, lift, ret.
  assert (C : forall (l : list ref) (o : option rbuffer), Permutation (l ++ match o with Some b => [rb_data b] | None => [] end)
    (match o with Some b => [rb_data b] | None => [] end ++ l)) by (intros; apply Permutation_app_comm).
  destruct (rw_index w) as [i|].
  2:{ intros [= <- <-]. eapply (sound_perm _ _ _ R h _ (match rw_current w with Some b => [rb_data b] | None => [] end) Hs); [|lia].
      unfold datas. cbn [rw_buffers rw_current]. rewrite app_nil_r, !app_assoc. apply Permutation_app_tail, C. }
  unfold vec_remove. destruct (i <? length (rw_buffers w)) eqn:El; [|discriminate]. cbn [bind]. change (firstn i (rw_buffers w) ++ skipn (S i) (rw_buffers w)) with (without (rw_buffers w) i).
  apply Nat.ltb_lt in El. destruct (nth_error (rw_buffers w) i) as [b|] eqn:Eb; [|apply nth_error_None in Eb; lia].
  assert (S1 : forall p n ix ss, sound R h (RWS p (without (rw_buffers w) i) n None ix ss)).
  { intros. eapply (sound_perm _ _ _ R h _ (match rw_current w with Some b => [rb_data b] | None => [] end ++ [rb_data b]) Hs); [|lia].
    unfold datas. cbn [rw_buffers rw_current]. rewrite app_nil_r, <- (app_assoc _ [rb_data b]), !app_assoc. apply Permutation_app_tail.
    rewrite C, <- app_assoc. apply Permutation_app_head. cbn [app]. change (rb_data b :: map rb_data (without (rw_buffers w) i)) with (map rb_data (b :: without (rw_buffers w) i)).
    apply Permutation_map. now apply without_perm. }
  destruct (without (rw_buffers w) i) as [|z l]; [intros [= <- <-]; apply S1|].
  destruct (rselect_buffer al _ _ h) as [[[x w2] h2]|] eqn:Es; [|discriminate]. intros [= <- <-]. eapply rselect_sound; [|exact Es]. apply S1.
Qed.
Lemma rnext_sound R al w h w' h' : sound R h w -> rnext_buffer al w h = Ok (w', h') -> sound R h' w'.
Proof.
  intros Hs. unfold rnext_buffer, mbind, lift, ret. destruct (rw_index w) as [i|]; [|now intros [= <- <-]].
  destruct (usub (length (rw_buffers w)) 1) as [n|]; [|discriminate]. cbn [bind].
  destruct (i =? n); (destruct (rselect_buffer al w _ h) as [[[x w2] h2]|] eqn:Es; [|discriminate]); intros [= <- <-]; eapply rselect_sound; eassumption.
Qed.
Lemma rprevious_sound R al w h w' h' : sound R h w -> rprevious_buffer al w h = Ok (w', h') -> sound R h' w'.
Proof.
  intros Hs. unfold rprevious_buffer, mbind, lift, ret. destruct (rw_index w) as [i|]; [|now intros [= <- <-]].
  destruct (0 <? i); [|destruct (usub (length (rw_buffers w)) 1) as [n|]; [|discriminate]; cbn [bind]];
    (destruct (rselect_buffer al w _ h) as [[[x w2] h2]|] eqn:Es; [|discriminate]); intros [= <- <-]; eapply rselect_sound; eassumption.
Qed.
Lemma ropen_sound R al f w p h r w' h' : sound R h w -> ropen_buffer al f w p h = Ok ((r, w'), h') -> sound R h' w'.
Proof.
  intros Hs. unfold ropen_buffer. unfold mbind at 1. destruct (rselect_by_path al f w p h) as [[[x w1] h1]|] eqn:Es; [|discriminate]. cbn [bind].
  assert (S1 : sound R h1 w1).
  { unfold rselect_by_path, ret in Es. destruct (fs_canon f p) as [cp|]; [|now injection Es as _ <- <-].
    destruct (path_is _ cp); [now injection Es as _ <- <-|]. destruct (find_index _ _) as [i|]; [|now injection Es as _ <- <-].
    eapply rselect_sound; eassumption. }
  destruct x; [now intros [= _ <- <-]|]. unfold mbind at 1. destruct (opened_buffer h1 al f p) as (r0 & h2 & Ef & X). rewrite Ef. cbn [bind].
  destruct X as [(-> & e & -> & _)|(g & -> & _ & X)]; [now intros [= _ <- <-]|].
  assert (S2 : forall r0, r0 = length h1 -> sound (r0 :: R) (h1 ++ [Cell g Free]) w1).
  { intros r1 ->. destruct S1 as [N F]. split.
    - apply (Permutation_NoDup (Permutation_middle _ _ _)). constructor; [|assumption]. intros Hx. rewrite Forall_forall in F. apply F in Hx. lia.
    - apply (Permutation_Forall (Permutation_middle _ _ _)). rewrite app_length. cbn. constructor; [lia|]. eapply Forall_impl; [|exact F]. cbn. intros. lia. }
  destruct r0 as [b|e].
  - unfold mbind. destruct (radd_buffer al w1 b (h1 ++ [Cell g Free])) as [[w2 h3]|] eqn:Ea; [|discriminate]. intros [= _ <- <-].
    eapply radd_sound; [|exact Ea]. apply S2. apply X.
  - intros [= _ <- <-]. eapply (sound_perm _ _ _ _ _ _ [length h1] (S2 _ eq_refl)); [|lia]. cbn [app]. symmetry. apply Permutation_middle.
Qed.

Lemma writes_used (k : script) r : writes k r -> uses k r.
Proof. induction 1; [apply uses_now|eapply uses_later; eassumption]. Qed.
Lemma in_put_old {A} (l : list A) i x y : In y (put_at l i x) -> In y l \/ y = x.
Proof. intros H. destruct (in_put_any l i x y H) as [H'|H']; [left; now apply (in_without_any l i)|now right]. Qed.

Lemma hold_frame g h x h' : hold g h = Ok (x, h') -> length h' = length h /\ forall r, r <> fst g -> nth_error h' r = nth_error h r.
Proof.
  unfold hold, mbind, ret, borrow, borrow_mut. destruct g as [r0 m]. cbn [fst snd].
  destruct m; destruct (nth_error h r0) as [[g [|n|]]|]; try discriminate; intros [= _ <-];
    (split; [apply put_length|intros r Hr; now apply nth_put_other, not_eq_sym]).
Qed.
Lemma release_frame g h x h' : release g h = Ok (x, h') -> length h' = length h /\ forall r, r <> fst g -> nth_error h' r = nth_error h r.
Proof.
  unfold release, end_borrow, end_borrow_mut. destruct g as [r0 m]. cbn [fst snd].
  destruct m; destruct (nth_error h r0) as [[g [|[|n]|]]|]; try discriminate; intros [= _ <-];
    (split; [apply put_length|intros r Hr; now apply nth_put_other, not_eq_sym]).
Qed.

Section Steps.
Variable brk : brk_rule.
Variable code : closures.
Hypothesis Hos : order_safe brk.
Hypothesis Hcode : closures_ok code.

Lemma moved_derived L h b h' b' : moves code L h b h' b' -> derived h b b'.
Proof. intros [_ _ _ _ A5 _ A7]. now split. Qed.
Lemma moved_frame L h b h' b' r : moves code L h b h' b' -> r < length h -> ~ buffer_holds code b r -> nth_error h' r = nth_error h r.
Proof.
  intros [_ _ _ _ _ A6 _] Hr Hn. apply A6; [assumption|intros ->; apply Hn; now left|]. intros n En (p & log & Hw). apply Hn. right. right.
  exists n. split; [assumption|]. exists p, log. now apply writes_used.
Qed.

Lemma nexec_holds al c w o w' : alloc_ok al -> ncall_ok code w c -> winv code w -> nexec brk code al c w = Ok (o, w') ->
  length (wo_heap w) <= length (wo_heap w') /\
  (forall b', In b' (wo_buffers w') -> origin (fun b => In b (wo_buffers w)) (wo_heap w) b' \/
     (exists i k b x, c = NAssign i k /\ In b (wo_buffers w) /\ In x (wo_cursors w) /\ b' = rset_cursor b x) \/
     (exists i n b, c = NCallback i n /\ In b (wo_buffers w) /\ b' = rset_callback b (Some n))) /\
  (forall k', In k' (wo_cursors w') -> (exists k, In k (wo_cursors w) /\ rc_data k' = rc_data k) \/
     (exists i b, c = NClone i /\ In b (wo_buffers w) /\ k' = rb_cursor b) \/
     (exists t p, c = NStorage t p /\ rc_data k' = length (wo_heap w))) /\
  (forall r, guarded w' r -> guarded w r \/ exists k m x, c = NHold k m /\ In x (wo_cursors w) /\ rc_data x = r) /\
  (forall r, r < length (wo_heap w) -> (forall b, In b (wo_buffers w) -> ~ buffer_holds code b r) ->
     (forall k, In k (wo_cursors w) -> rc_data k <> r) -> ~ guarded w r -> nth_error (wo_heap w') r = nth_error (wo_heap w) r).
Proof.
  intros Ha Hc [I1 I2 I3 I4 I5] E. destruct w as [bs ks gs h f]. cbn [wo_buffers wo_cursors wo_guards wo_heap wo_disk] in *.
  assert (Bi : forall i b, nth_error bs i = Some b -> based code h b /\ ops_ok b).
  { intros i b Ei. rewrite Forall_forall in I3. apply I3. eapply nth_error_In; eassumption. }
  assert (Ki : forall i k, nth_error ks i = Some k -> rc_data k < length h).
  { intros i k Ei. rewrite Forall_forall in I4. apply I4. eapply nth_error_In; eassumption. }
  assert (Bs : forall b, In b bs -> origin (fun b => In b bs) h b) by (intros b Hb; now apply origin_self).
  assert (Ks : forall k, In k ks -> exists k0, In k0 ks /\ rc_data k = rc_data k0) by (intros k Hk; now exists k).
  assert (Id : World bs ks gs h f = w' -> length (wo_heap (World bs ks gs h f)) <= length (wo_heap w') /\
    (forall b', In b' (wo_buffers w') -> origin (fun b => In b bs) h b') /\
    (forall k', In k' (wo_cursors w') -> exists k, In k ks /\ rc_data k' = rc_data k) /\
    (forall r, guarded w' r -> guarded (World bs ks gs h f) r) /\
    (forall r, nth_error (wo_heap w') r = nth_error h r)).
  { intros <-. cbn. repeat (split; [solve [auto|lia]|]). auto. }
  assert (Id2 : World bs ks gs h f = w' -> length h <= length (wo_heap w') /\
    (forall b', In b' (wo_buffers w') -> origin (fun b => In b bs) h b' \/
     (exists i k b x, c = NAssign i k /\ In b bs /\ In x ks /\ b' = rset_cursor b x) \/
     (exists i n b, c = NCallback i n /\ In b bs /\ b' = rset_callback b (Some n))) /\
    (forall k', In k' (wo_cursors w') -> (exists k, In k ks /\ rc_data k' = rc_data k) \/
     (exists i b, c = NClone i /\ In b bs /\ k' = rb_cursor b) \/
     (exists t p, c = NStorage t p /\ rc_data k' = length h)) /\
    (forall r, guarded w' r -> guarded (World bs ks gs h f) r \/ exists k m x, c = NHold k m /\ In x ks /\ rc_data x = r) /\
    (forall r, r < length h -> (forall b, In b bs -> ~ buffer_holds code b r) ->
     (forall k, In k ks -> rc_data k <> r) -> ~ guarded (World bs ks gs h f) r -> nth_error (wo_heap w') r = nth_error h r)).
  { intros Ew. destruct (Id Ew) as (J1 & J2 & J3 & J4 & J5). split; [assumption|]. split; [auto|]. split; [auto|]. split; auto. }
  unfold nexec in E. destruct c; cbn [ncall_ok] in *.
  - destruct (new_buffer h al) as (b & g & Eb & Wg & H1 & H2 & H3 & _). rewrite Eb in E. injection E as <- <-. cbn.
    rewrite app_length. split; [lia|]. split; [|split; [auto|split; [auto|intros r Hr _ _ _; now rewrite nth_error_app1]]].
    intros b' Hb. left. apply in_app_or in Hb as [Hb|[<-|[]]]; [auto|]. right. split; [lia|now split].
  - destruct (rfrom_file al f p h) as [[r h']|] eqn:Ef; [|discriminate]. destruct (opened_blank _ _ _ _ _ _ Ef) as [L O].
    assert (G : forall r0, r0 < length h -> nth_error h' r0 = nth_error h r0).
    { destruct (opened_buffer h al f p) as (r1 & h1 & E1 & X). rewrite E1 in Ef. injection Ef as <- <-.
      destruct X as [(-> & _)|(g & -> & _)]; [reflexivity|]. intros r0 Hr. now rewrite nth_error_app1. }
    destruct r as [b|e]; injection E as <- <-; cbn; (split; [assumption|]); (split; [|split; [auto|split; [auto|auto]]]); intros b' Hb; left; [|auto].
    apply in_app_or in Hb as [Hb|[<-|[]]]; [auto|]. right. now apply O.
  - destruct (nth_error bs i) as [b|] eqn:Ei; [|injection E as _ E; now apply Id2]. destruct (Bi i b Ei) as [B O].
    assert (Hc' : call_ok c /\ c <> BSetCallback true) by (destruct c; try easy; now destruct on).
    pose proof (pbuffer_moves brk code Hos Hcode (lease_of gs) al c f h b Ha (proj1 Hc') (proj2 Hc') I1 B O) as X.
    destruct (pbuffer brk (told brk code) al c b f h) as [[[[o' b'] f'] h']|]; [|discriminate]. injection E as <- <-. destruct X as [X _]. cbn.
    split; [apply X|]. split; [|split; [auto|split; [auto|]]].
    + intros b0 Hb. left. apply in_put_old in Hb as [Hb| ->]; [auto|]. left. exists b. split; [eapply nth_error_In; eassumption|]. now apply (moved_derived (lease_of gs) _ _ h').
    + intros r Hr Hn _ _. apply (moved_frame (lease_of gs) h b h' b'); [assumption..|]. apply Hn. eapply nth_error_In; eassumption.
  - destruct (nth_error bs i) as [b|] eqn:Ei; [|injection E as _ E; now apply Id2]. destruct (Bi i b Ei) as [B O].
    pose proof (rdata_keeps code (lease_of gs) b h I1 B) as X. destruct (rdata b h) as [[t h']|]; [|discriminate].
    destruct X as [-> _]. injection E as _ E. now apply Id2.
  - destruct (nth_error bs i) as [b|] eqn:Ei; [|injection E as _ E; now apply Id2]. destruct (Bi i b Ei) as [B O].
    pose proof (rread_keeps brk code (lease_of gs) b p q h I1 B) as X. destruct (rread brk b (range_new p q) h) as [[t h']|]; [|discriminate].
    destruct X as [-> _]. injection E as _ E. now apply Id2.
  - destruct (nth_error bs i) as [b|] eqn:Ei; [|injection E as _ E; now apply Id2]. injection E as <- <-. cbn.
    split; [lia|]. split; [|split; [auto|split; auto]]. intros b' Hb. apply in_put_old in Hb as [Hb| ->]; [auto|]. right. right. exists i, n, b.
    split; [reflexivity|]. split; [eapply nth_error_In; eassumption|reflexivity].
  - destruct (nth_error bs i) as [b|] eqn:Ei; [|injection E as _ E; now apply Id2]. injection E as <- <-. cbn.
    split; [lia|]. split; [auto|]. split; [|split; auto]. intros k' Hk. apply in_app_or in Hk as [Hk|[<-|[]]]; [auto|]. right. left. exists i, b.
    split; [reflexivity|]. split; [eapply nth_error_In; eassumption|reflexivity].
  - destruct (nth_error bs i) as [b|] eqn:Ei; [|injection E as _ E; now apply Id2].
    destruct (nth_error ks k) as [x|] eqn:Ek; [|injection E as _ E; now apply Id2]. injection E as <- <-. cbn.
    split; [lia|]. split; [|split; [auto|split; auto]]. intros b' Hb. apply in_put_old in Hb as [Hb| ->]; [auto|]. right. left. exists i, k, b, x.
    split; [reflexivity|]. split; [eapply nth_error_In; eassumption|]. split; [eapply nth_error_In; eassumption|reflexivity].
  - destruct (gb_new al t) as [g|]; [|discriminate]. injection E as <- <-. cbn. rewrite app_length. split; [lia|]. split; [auto|].
    split; [|split; [auto|intros r Hr _ _ _; now rewrite nth_error_app1]].
    intros k' Hk. apply in_app_or in Hk as [Hk|[<-|[]]]; [auto|]. right. right. exists t, p. now split.
  - destruct (nth_error ks k) as [x|] eqn:Ek; [|injection E as _ E; now apply Id2].
    pose proof (rmove_keeps brk (lease_of gs) m x h I1 (Ki k x Ek)) as X.
    destruct (rmove brk m x h) as [[x' h']|]; [|discriminate]. destruct X as [-> Hd]. injection E as <- <-. cbn.
    split; [lia|]. split; [auto|]. split; [|split; auto]. intros k' Hk. left. apply in_put_old in Hk as [Hk| ->]; [auto|].
    exists x. split; [eapply nth_error_In; eassumption|assumption].
  - destruct (nth_error ks k) as [x|] eqn:Ek; [|injection E as _ E; now apply Id2]. injection E as <- <-. cbn.
    split; [lia|]. split; [auto|]. split; [|split; auto]. intros k' Hk. left. apply in_put_old in Hk as [Hk| ->]; [auto|].
    exists x. split; [eapply nth_error_In; eassumption|reflexivity].
  - destruct (nth_error ks k) as [x|] eqn:Ek; [|injection E as _ E; now apply Id2].
    destruct (nth_error ks j) as [y|] eqn:Ej; [|injection E as _ E; now apply Id2]. injection E as <- <-. cbn.
    split; [lia|]. split; [auto|]. split; [|split; auto]. intros k' Hk. left. apply in_put_old in Hk as [Hk| ->]; [auto|].
    exists y. split; [eapply nth_error_In; eassumption|reflexivity].
  - destruct (nth_error ks k) as [x|] eqn:Ek; [|injection E as _ E; now apply Id2].
    pose proof (pstorage_steps brk Hos (lease_of gs) al c (rc_data x) h Ha Hc I1 (Ki k x Ek)) as X.
    destruct (pstorage brk al c (rc_data x) h) as [[o' h']|]; [|discriminate]. destruct X as (X1 & X2 & X3). injection E as <- <-. cbn.
    split; [lia|]. split; [auto|]. split; [auto|]. split; [auto|]. intros r Hr _ Hk _. apply X3. left. intros ->.
    apply (Hk x); [eapply nth_error_In; eassumption|reflexivity].
  - destruct (nth_error ks k) as [x|] eqn:Ek; [|injection E as _ E; now apply Id2].
    destruct (hold (rc_data x, m) h) as [[[] h']|] eqn:Eh; [|discriminate]. destruct (hold_frame _ _ _ _ Eh) as [X1 X2]. injection E as <- <-. cbn.
    split; [lia|]. split; [auto|]. split; [auto|]. split.
    + intros r (m' & Hm). cbn in Hm. apply in_app_or in Hm as [Hm|[[= <- <-]|[]]]; [left; now exists m'|right].
      exists k, m, x. split; [reflexivity|]. split; [eapply nth_error_In; eassumption|reflexivity].
    + intros r Hr _ Hk _. apply X2. intros ->. apply (Hk x); [eapply nth_error_In; eassumption|reflexivity].
  - destruct (nth_error gs n) as [g|] eqn:En; [|injection E as _ E; now apply Id2].
    destruct (release g h) as [[[] h']|] eqn:Eh; [|discriminate]. destruct (release_frame _ _ _ _ Eh) as [X1 X2]. injection E as <- <-. cbn.
    split; [lia|]. split; [auto|]. split; [auto|]. split.
    + intros r (m' & Hm). left. exists m'. cbn in *. now apply in_without_any in Hm.
    + intros r Hr _ _ Hg. apply X2. intros ->. apply Hg. destruct g as [r0 m0]. exists m0. eapply nth_error_In; eassumption.
  - injection E as <- <-. cbn. split; [lia|]. split; [auto|]. split; [auto|]. split; auto.
Qed.

Definition member (s : desk) (b : rbuffer) : Prop := in_workspace (d_ws s) b \/ In b (wo_buffers (d_world s)).
Definition shown (s : desk) (b : rbuffer) : Prop := In b (d_lineup s ++ wo_buffers (d_world s)).
Lemma shown_member s b : shown s b -> member s b.
Proof.
  intros H. apply in_app_or in H as [H|H]; [left|now right]. unfold d_lineup, lineup in H.
  destruct (rw_index (d_ws s)); [|now left]. destruct (rw_current (d_ws s)) as [c|] eqn:Ec; [|now left].
  apply in_put_any in H as [H| ->]; [left; now apply in_without_any in H|now right].
Qed.
Definition took (s : desk) (c : dcall) (s' : desk) : Prop :=
  length (d_heap s) <= length (d_heap s') /\
  (forall b', member s' b' -> origin (member s) (d_heap s) b' \/
     (exists b x, ~ modest c /\ member s b /\ In x (wo_cursors (d_world s)) /\ b' = rset_cursor b x) \/
     (exists n b, (c = DCallback n \/ exists i, c = DWorld (NCallback i n)) /\ member s b /\ b' = rset_callback b (Some n))) /\
  (forall k', In k' (wo_cursors (d_world s')) -> (exists k, In k (wo_cursors (d_world s)) /\ rc_data k' = rc_data k) \/
     (exists b, ~ modest c /\ shown s b /\ k' = rb_cursor b) \/ (~ modest c /\ rc_data k' = length (d_heap s))) /\
  (forall r, guarded (d_world s') r -> guarded (d_world s) r \/ exists x, ~ modest c /\ In x (wo_cursors (d_world s)) /\ rc_data x = r) /\
  (forall r, r < length (d_heap s) -> ~ holds code s r -> nth_error (d_heap s') r = nth_error (d_heap s) r).

Lemma grown_frame h h' r : grown h h' -> r < length h -> nth_error h' r = nth_error h r.
Proof. intros (n & -> & _) H. now apply nth_error_app1. Qed.

Lemma winv_own rs w : winv code (whole rs w) -> winv code w.
Proof. destruct w as [bs ks gs h f]. unfold whole, behind. cbn. intros I. eapply winv_part; [exact I|apply Permutation_refl]. Qed.
Lemma winv_open rs w : winv code (whole rs w) -> kept (lease_of (wo_guards w)) (wo_heap w) /\
  forall b, In b (rs_buffers rs) -> based code (wo_heap w) b /\ ops_ok b.
Proof.
  destruct w as [bs ks gs h f]. unfold whole, behind. cbn. intros [I1 _ I3 _ _]. cbn in *. split; [assumption|]. intros b Hb.
  rewrite Forall_forall in I3. apply I3. apply in_or_app. now left.
Qed.

Lemma took_ws s c s' (P : rbuffer -> Prop) : grown (d_heap s) (d_heap s') ->
  (forall b, in_workspace (d_ws s') b -> origin (member s) (d_heap s) b) ->
  (forall b, In b (wo_buffers (d_world s')) -> In b (wo_buffers (d_world s))) ->
  wo_cursors (d_world s') = wo_cursors (d_world s) -> wo_guards (d_world s') = wo_guards (d_world s) -> took s c s'.
Proof.
  intros G H1 H2 H3 H4. split; [destruct G as (n & -> & _); rewrite app_length; lia|]. split; [|split; [|split]].
  - intros b' [Hb|Hb]; left; [now apply H1|]. apply origin_self. right. now apply H2.
  - rewrite H3. intros k Hk. left. now exists k.
  - unfold guarded. rewrite H4. auto.
  - intros r Hr _. now apply grown_frame.
Qed.

Lemma dexec_took al c s o s' : alloc_ok al -> dcall_ok code s c -> dinv code s -> dexec brk code al c s = Ok (o, s') -> took s c s'.
Proof.
  intros Ha Hc (rs & S & I) E. destruct s as [[bs ks gs h f] ws]. cbn [d_world d_ws] in *.
  assert (Self : took (Desk (World bs ks gs h f) ws) c (Desk (World bs ks gs h f) ws)).
  { apply (took_ws _ _ _ (fun _ => True)); try easy; [apply grown_refl|]. intros b Hb. apply origin_self. now left. }
  unfold dexec in E. destruct c.
  - destruct (nexec brk code al c (World bs ks gs h f)) as [[o' w']|] eqn:En; [|discriminate]. injection E as <- <-.
    destruct (nexec_holds al c _ _ _ Ha Hc (winv_own _ _ I) En) as (X1 & X2 & X3 & X4 & X5).
    split; [exact X1|]. split; [|split; [|split]]; cbn [d_world d_ws] in *.
    + intros b' [Hb|Hb]; [left; apply origin_self; now left|]. destruct (X2 b' Hb) as [X|[(i & k & b & x & -> & H1 & H2 & H3)|(i & n & b & -> & H1 & H2)]].
      * left. apply (origin_mono (fun b => In b bs) _ _ h); [intros x Hx; now right|apply Nat.le_refl|assumption].
      * right. left. exists b, x. split; [now intros []|]. split; [now right|now split].
      * right. right. exists n, b. split; [right; now exists i|]. split; [now right|assumption].
    + intros k' Hk. destruct (X3 k' Hk) as [X|[(i & b & -> & H1 & H2)|(t & p & -> & H1)]]; [now left| |].
      * right. left. exists b. split; [now intros []|]. split; [apply in_or_app; now right|assumption].
      * right. right. split; [now intros []|assumption].
    + intros r Hr. destruct (X4 r Hr) as [X|(k & m & x & -> & H1 & H2)]; [now left|]. right. exists x. split; [now intros []|now split].
    + intros r Hr Hn. apply X5; [assumption| | |].
      * intros b Hb Hx. apply Hn. left. exists b. split; [now right|assumption].
      * intros k Hk Hx. apply Hn. right. left. now exists k.
      * intros Hx. apply Hn. right. now right.
  - destruct (nth_error bs i) as [b|] eqn:Ei; [|now injection E as <- <-].
    destruct (radd_sim al ws rs b h S) as (ws' & h' & E' & G & S'). rewrite E' in E. injection E as <- <-.
    destruct (radd_in _ _ _ _ _ _ E') as [_ X]. apply (took_ws _ _ _ (fun _ => True)); try reflexivity; cbn; [assumption| |].
    + intros x Hx. eapply origin_mono; [|apply Nat.le_refl|exact (X x Hx)]. cbn. intros y [Hy| ->]; [now left|right]. eapply nth_error_In; eassumption.
    + intros x Hx. now apply in_without_any in Hx.
  - destruct (ropen_buffer al f ws p h) as [[[r ws'] h']|] eqn:Eo; [|discriminate]. injection E as <- <-.
    destruct (ropen_in _ _ _ _ _ _ _ _ Eo) as [_ X]. apply (took_ws _ _ _ (fun _ => True)); try reflexivity; try easy; cbn.
    + assert (K : alloc_ok al -> True) by easy. pose proof (dexec_steps brk code Hos Hcode al (DOpen p) (Desk (World bs ks gs h f) ws) Ha Logic.I) as Y.
      unfold dexec in Y. rewrite Eo in Y. cbn [bind] in Y. destruct Y as (_ & _ & Y & _); [exists rs; now split|]. now apply Y.
    + intros x Hx. eapply origin_mono; [|apply Nat.le_refl|exact (X x Hx)]. cbn. intros y Hy. now left.
  - destruct (rclose_sim al ws rs h S) as (ws' & h' & E' & G & S'). rewrite E' in E. injection E as <- <-.
    destruct (rclose_in _ _ _ _ _ E') as [_ X]. apply (took_ws _ _ _ (fun _ => True)); try reflexivity; try easy; cbn.
    intros x Hx. destruct (X x Hx) as [H|H]; [|now right]. apply origin_self. left. left. destruct (rw_index ws); [now apply in_without_any in H|assumption].
  - destruct (rnext_sim al ws rs h S) as (ws' & h' & E' & G & S'). rewrite E' in E. injection E as <- <-.
    destruct (rnext_in _ _ _ _ _ E') as [_ X]. apply (took_ws _ _ _ (fun _ => True)); try reflexivity; try easy; cbn.
    intros x Hx. eapply origin_mono; [|apply Nat.le_refl|exact (X x Hx)]. cbn. intros y Hy. now left.
  - destruct (rprevious_sim al ws rs h S) as (ws' & h' & E' & G & S'). rewrite E' in E. injection E as <- <-.
    destruct (rprevious_in _ _ _ _ _ E') as [_ X]. apply (took_ws _ _ _ (fun _ => True)); try reflexivity; try easy; cbn.
    intros x Hx. eapply origin_mono; [|apply Nat.le_refl|exact (X x Hx)]. cbn. intros y Hy. now left.
  - destruct (rupdate_syntax ws) as [r ws'] eqn:Eu. injection E as <- <-. apply (took_ws _ _ _ (fun _ => True)); try reflexivity; try easy; cbn; [apply grown_refl|].
    intros x Hx. destruct (rupdate_in _ _ _ Eu x Hx) as (x0 & H0 & E0). apply (origin_entered _ _ x0 x E0), origin_self. now left.
  - assert (Et : exists r, rcurrent_tokens ws h = Ok (r, h) \/ rcurrent_tokens ws h = Panic).
    { unfold rcurrent_tokens. rewrite (rselected_sim _ _ S). destruct (rselected rs) as [b|] eqn:Eb; [|eexists; left; reflexivity].
      destruct (rselected_at rs b Eb) as (i & E1 & E2 & E3). destruct (winv_open _ _ I) as [K B].
      pose proof (rdata_keeps code (lease_of gs) b h K (proj1 (B b (nth_error_In _ _ E2)))) as X. unfold mbind.
      destruct (rdata b h) as [[t h']|]; [|exists (RErr EmptyWorkspace); now right]. destruct X as [-> _]. cbn.
      destruct (rb_syntax b); eexists; left; reflexivity. }
    destruct Et as (r & [Et|Et]); rewrite Et in E; [|discriminate]. now injection E as <- <-.
  - injection E as <- <-. apply (took_ws _ _ _ (fun _ => True)); try reflexivity; try easy; [apply grown_refl|]. intros b Hb. apply origin_self. left. exact Hb.
  - injection E as <- <-. apply (took_ws _ _ _ (fun _ => True)); try reflexivity; try easy; [apply grown_refl|]. intros b Hb. apply origin_self. left. exact Hb.
  - destruct (rw_current ws) as [b|] eqn:Ec; [|now injection E as <- <-]. pose proof Ec as Es. rewrite (rselected_sim _ _ S) in Es.
    destruct (rselected_at rs b Es) as (i & E1 & E2 & E3). destruct (winv_open _ _ I) as [K B]. destruct (B b (nth_error_In _ _ E2)) as [Bb Ob]. cbn in K, Bb, Hc.
    assert (Hc' : call_ok c /\ c <> BSetCallback true) by (destruct c; try easy; now destruct on).
    pose proof (pbuffer_moves brk code Hos Hcode (lease_of gs) al c f h b Ha (proj1 Hc') (proj2 Hc') K Bb Ob) as X.
    destruct (pbuffer brk (told brk code) al c b f h) as [[[[o' b'] f'] h']|]; [|discriminate]. injection E as <- <-. destruct X as [X _].
    split; [apply X|]. split; [|split; [|split]]; cbn [d_world d_ws d_heap wo_heap wo_buffers wo_cursors wo_guards]; [| |auto|].
    + intros x [[Hx|Hx]|Hx]; cbn in Hx; left; [apply origin_self; left; now left| |apply origin_self; now right]. injection Hx as <-.
      left. exists b. split; [left; now right|]. now apply (moved_derived (lease_of gs) _ _ h').
    + intros k Hk. left. now exists k.
    + intros r Hr Hn. apply (moved_frame (lease_of gs) h b h' b'); [assumption..|]. intros Hx. apply Hn. left. exists b. split; [left; now right|assumption].
  - destruct (rw_current ws) as [b|] eqn:Ec; [|now injection E as <- <-]. injection E as <- <-.
    split; [apply Nat.le_refl|]. split; [|split; [|split]]; cbn [d_world d_ws d_heap wo_heap wo_buffers wo_cursors wo_guards]; auto.
    + intros x [[Hx|Hx]|Hx]; cbn in Hx; [left; apply origin_self; left; now left| |left; apply origin_self; now right]. injection Hx as <-.
      right. right. exists n, b. split; [now left|]. split; [left; now right|reflexivity].
    + intros k Hk. left. now exists k.
  - destruct (rw_current ws) as [b|] eqn:Ec; [|now injection E as <- <-]. injection E as <- <-.
    split; [apply Nat.le_refl|]. split; [|split; [|split]]; cbn [d_world d_ws d_heap wo_heap wo_buffers wo_cursors wo_guards]; auto.
    + intros x Hx. left. now apply origin_self.
    + intros k Hk. apply in_app_or in Hk as [Hk|[<-|[]]]; [left; now exists k|]. right. left. exists b. split; [now intros []|]. split; [|reflexivity].
      apply in_or_app. left. unfold d_lineup. cbn [d_ws]. rewrite (lineup_sim _ _ S). rewrite (rselected_sim _ _ S) in Ec. destruct (rselected_at rs b Ec) as (i & _ & E2 & _). eapply nth_error_In; exact E2.
  - destruct (rw_current ws) as [b|] eqn:Ec; [|now injection E as <- <-]. destruct (nth_error ks k) as [x|] eqn:Ek; [|now injection E as <- <-]. injection E as <- <-.
    split; [apply Nat.le_refl|]. split; [|split; [|split]]; cbn [d_world d_ws d_heap wo_heap wo_buffers wo_cursors wo_guards]; auto.
    + intros y [[Hx|Hx]|Hx]; cbn in Hx; [left; apply origin_self; left; now left| |left; apply origin_self; now right]. injection Hx as <-.
      right. left. exists b, x. split; [now intros []|]. split; [left; now right|]. split; [eapply nth_error_In; eassumption|reflexivity].
    + intros y Hy. left. now exists y.
  - injection E as <- <-. apply (took_ws _ _ _ (fun _ => True)); try reflexivity; try easy; [apply grown_refl| |].
    + intros b Hb. apply origin_self. now left.
    + cbn. intros b Hb. now apply in_without_any in Hb.
  - injection E as <- <-. split; [apply Nat.le_refl|]. split; [|split; [|split]]; cbn [d_world d_ws d_heap wo_heap wo_buffers wo_cursors wo_guards]; auto.
    + intros x Hx. left. now apply origin_self.
    + intros y Hy. apply in_without_any in Hy. left. now exists y.
Qed.

Lemma origin_holds P h b r : origin P h b -> buffer_holds code b r -> (exists b0, P b0 /\ buffer_holds code b0 r) \/ length h <= r.
Proof.
  intros [(b0 & H0 & D1 & D2)|(B1 & B2 & B3)] H.
  - destruct H as [H|[H|(n & H & Hu)]].
    + destruct D2 as [[D2 D3]|[D2 D3]]; [left|right; lia]. exists b0. split; [assumption|]. left. congruence.
    + destruct D2 as [[D2 D3]|[D2 D3]]; [left|right; lia]. exists b0. split; [assumption|]. right. left. congruence.
    + left. exists b0. split; [assumption|]. right. right. exists n. split; [|assumption]. destruct D1; congruence.
  - right. destruct H as [H|[H|(n & H & _)]]; [lia|lia|congruence].
Qed.

Lemma took_holds s c s' r : took s c s' -> hands_over code s c -> holds code s' r -> holds code s r \/ length (d_heap s) <= r.
Proof.
  intros (X1 & X2 & X3 & X4 & X5) Hh [(b & Hm & Hb)|[(k & Hk & Hd)|Hg]].
  - destruct (X2 b Hm) as [X|[(b0 & x & _ & H1 & H2 & ->)|(n & b0 & Hn & H1 & ->)]].
    + destruct (origin_holds _ _ _ _ X Hb) as [H|H]; [left; now left|now right].
    + left. destruct Hb as [Hb|[Hb|Hb]]; cbn in Hb.
      * left. exists b0. split; [assumption|now left].
      * right. left. now exists x.
      * left. exists b0. split; [assumption|now right; right].
    + left. destruct Hb as [Hb|[Hb|(n' & Hb & Hu)]]; cbn in Hb.
      * left. exists b0. split; [assumption|now left].
      * left. exists b0. split; [assumption|right; now left].
      * injection Hb as <-. destruct Hn as [-> |(i & ->)]; cbn in Hh; now apply Hh.
  - destruct (X3 k Hk) as [(k0 & H1 & H2)|[(b & _ & H1 & ->)|[_ H1]]].
    + left. right. left. exists k0. split; [assumption|congruence].
    + left. left. exists b. split; [now apply shown_member|]. right. now left.
    + right. lia.
  - destruct (X4 r Hg) as [H|(x & _ & H1 & H2)]; left; right; [now right|]. left. now exists x.
Qed.

Lemma reached_holds s al c o s' r : desk_reached brk code s -> alloc_ok al -> dcall_ok code s c -> hands_over code s c ->
  dexec brk code al c s = Ok (o, s') -> holds code s' r -> holds code s r \/ length (d_heap s) <= r.
Proof.
  intros R Ha Hc Hh E. apply (took_holds s c s' r); [|assumption]. apply (dexec_took al c s o s' Ha Hc); [|assumption]. now apply (reached_inv brk code).
Qed.
Lemma reached_untouched s al c o s' r : desk_reached brk code s -> alloc_ok al -> dcall_ok code s c ->
  dexec brk code al c s = Ok (o, s') -> r < length (d_heap s) -> ~ holds code s r -> nth_error (d_heap s') r = nth_error (d_heap s) r.
Proof. intros R Ha Hc E. eapply dexec_took; [exact Ha|exact Hc|now apply (reached_inv brk code)|eassumption]. Qed.

Lemma gone_for_good s s' r : desk_reached brk code s -> later brk code s s' -> r < length (d_heap s) -> ~ holds code s r ->
  ~ holds code s' r /\ nth_error (d_heap s') r = nth_error (d_heap s) r.
Proof.
  intros R H Hr Hn. pose proof (reached_inv brk code Hos Hcode s R) as D.
  assert (X : dinv code s' /\ r < length (d_heap s') /\ ~ holds code s' r /\ nth_error (d_heap s') r = nth_error (d_heap s) r); [|apply X].
  induction H as [|s1 al c o s2 H (I1 & I2 & I3 & I4) Ha Hc Hh E]; [now repeat (split; [assumption|])|].
  pose proof (dexec_took al c s1 o s2 Ha Hc I1 E) as T. pose proof (dexec_steps brk code Hos Hcode al c s1 Ha Hc I1) as X. rewrite E in X.
  split; [apply X|]. pose proof T as (T1 & _ & _ & _ & T5). split; [lia|]. split.
  - intros Hx. destruct (took_holds s1 c s2 r T Hh Hx); [contradiction|lia].
  - rewrite <- I4. now apply T5.
Qed.

Lemma lineup_in w rs b : rsim w rs -> (in_workspace w b <-> In b (lineup w) \/ exists i, rw_index w = Some i /\ nth_error (rw_buffers w) i = Some b).
Proof.
  intros S. rewrite (lineup_sim _ _ S). destruct S as [p n ss|p pre x post n y ss Hp]; unfold in_workspace; cbn.
  - split; [intros [[]|[=]]|intros [[]|(i & [=] & _)]].
  - split.
    + intros [H|[= <-]]; [|left; apply in_or_app; right; now left]. apply in_app_or in H as [H|[<-|H]].
      * left. apply in_or_app. now left.
      * right. exists (length pre). split; [reflexivity|]. now rewrite nth_error_app2, Nat.sub_diag by lia.
      * left. apply in_or_app. right. now right.
    + intros [H|(i & [= <-] & H)]; [|left; eapply nth_error_In; eassumption]. apply in_app_or in H as [H|[<-|H]].
      * left. apply in_or_app. now left.
      * now right.
      * left. apply in_or_app. right. now right.
Qed.

Lemma closing s al o s' i r : desk_reached brk code s -> alloc_ok al -> d_index s = Some i -> dexec brk code al DClose s = Ok (o, s') ->
  r < length (d_heap s) ->
  (holds code s' r <->
   (exists b, (In b (without (d_lineup s) i) \/ In b (wo_buffers (d_world s))) /\ buffer_holds code b r) \/
   (exists k, In k (wo_cursors (d_world s)) /\ rc_data k = r) \/ guarded (d_world s) r).
Proof.
  intros R Ha Hi E Hr. pose proof (reached_inv brk code Hos Hcode s R) as D.
  pose proof (dexec_steps brk code Hos Hcode al DClose s Ha Logic.I D) as X. rewrite E in X. destruct X as ((rs' & S' & _) & X & _ & _).
  unfold arranged in X. rewrite Hi in X. destruct X as [X _]. destruct D as (rs & S & _). destruct s as [[bs ks gs h f] ws]. cbn [d_world d_ws d_heap wo_heap] in *.
  unfold dexec in E. destruct (rclose_current al ws h) as [[ws' h']|] eqn:Ec; [|discriminate]. injection E as <- <-.
  destruct (rclose_in _ _ _ _ _ Ec) as [_ Y]. unfold d_index in Hi. cbn [d_ws] in Hi. rewrite Hi in Y. unfold holds, guarded. cbn [d_world d_ws wo_buffers wo_cursors wo_guards].
  unfold d_lineup in *. cbn [d_ws] in *.
  assert (W : without (rw_buffers ws) i = without (lineup ws) i).
  { rewrite (lineup_sim _ _ S). destruct S as [p n ss|p pre x post n y ss Hp]; [discriminate|]. cbn in *. injection Hi as <-. unfold without.
    now rewrite !firstn_pre, !skipn_S_pre. }
  split.
  - intros [(b & [Hm|Hm] & Hb)|H]; [|left; exists b; split; [now right|assumption]|now right]. destruct (Y b Hm) as [H|(B1 & B2 & B3)].
    + left. exists b. split; [left; now rewrite <- W|assumption].
    + exfalso. destruct Hb as [Hb|[Hb|(n & Hb & _)]]; [lia|lia|congruence].
  - intros [(b & [Hm|Hm] & Hb)|H]; [|left; exists b; split; [now right|assumption]|now right].
    left. exists b. split; [left|assumption]. apply (lineup_in _ _ _ S'). left. now rewrite X.
Qed.

(** ** Programs that make no handles of their own *)

Definition mild (s : desk) : Prop :=
  (forall b, member s b -> tied b /\ rb_callback b = None) /\ wo_cursors (d_world s) = [] /\ wo_guards (d_world s) = [].
Lemma mild_took s c s' : took s c s' -> modest c -> mild s -> mild s'.
Proof.
  intros (T1 & T2 & T3 & T4 & _) Hc (M1 & M2 & M3). split; [|split].
  - intros b Hb. destruct (T2 b Hb) as [[(b0 & H0 & D1 & D2)|(B1 & B2 & B3)]|[(b0 & x & Hm & _)|(n & b0 & [-> |(i & ->)] & _)]]; [| |contradiction|now destruct Hc..].
    + destruct (M1 b0 H0) as [N1 N2]. unfold tied in *. split; [destruct D2 as [[D2 D3]|[D2 D3]]; congruence|destruct D1; congruence].
    + now split.
  - destruct (wo_cursors (d_world s')) as [|k l] eqn:E; [reflexivity|]. destruct (T3 k (or_introl eq_refl)) as [(k0 & H & _)|[(b & Hm & _)|[Hm _]]]; [|contradiction..].
    rewrite M2 in H. destruct H.
  - destruct (wo_guards (d_world s')) as [|[r m] l] eqn:E; [reflexivity|]. destruct (T4 r) as [(m0 & H)|(x & Hm & _)]; [exists m; rewrite E; now left| |contradiction].
    rewrite M3 in H. destruct H.
Qed.
Lemma session_mild f p ss ws cs os s : rws_new f p (Some ss) = ROk ws -> desk_session brk code modest f ws cs os s -> mild s /\ dinv code s.
Proof.
  intros E0 H. pose proof (fun cs os s => desk_inv brk code Hos Hcode modest f p ss ws cs os s E0) as D. split; [|now apply (D cs os)]. induction H as [|cs os s al c o s' H IH Ha Hc HQ E].
  - destruct (new_sim _ _ _ _ E0) as (cp & -> & _). split; [|now split]. intros b [[[]|Hb]|[]]. discriminate.
  - apply (mild_took s c s'); [|assumption|assumption]. apply (dexec_took al c s o s' Ha Hc); [now apply (D cs os)|assumption].
Qed.

Lemma session_holds f p ss ws cs os s r : rws_new f p (Some ss) = ROk ws -> desk_session brk code modest f ws cs os s ->
  (holds code s r <-> exists b, (In b (d_lineup s) \/ placeholder s b \/ In b (wo_buffers (d_world s))) /\ rb_data b = r).
Proof.
  intros E0 H. destruct (session_mild _ _ _ _ _ _ _ E0 H) as [(M1 & M2 & M3) (rs & S & _)]. split.
  - intros [(b & Hm & Hb)|[(k & Hk & _)|(m & Hg)]]; [|rewrite M2 in Hk; destruct Hk|rewrite M3 in Hg; destruct Hg].
    exists b. destruct (M1 b Hm) as [N1 N2]. split.
    + destruct Hm as [Hm|Hm]; [|now right; right]. apply (lineup_in _ _ _ S) in Hm as [Hm|Hm]; [now left|right; now left].
    + destruct Hb as [Hb|[Hb|(n & Hb & _)]]; [assumption|unfold tied in N1; congruence|congruence].
  - intros (b & Hm & <-). left. exists b. split; [|now left]. destruct Hm as [Hm|[Hm|Hm]]; [left|left|now right]; apply (lineup_in _ _ _ S); [now left|now right].
Qed.

Definition apart (s : desk) : Prop := sound (map rb_data (wo_buffers (d_world s))) (d_heap s) (d_ws s).
Lemma nodup_parts {A} (l m : list A) : NoDup (l ++ m) <-> NoDup l /\ NoDup m /\ forall x, In x l -> ~ In x m.
Proof.
  induction l as [|a l IH]; cbn.
  - split; [|now intros (_ & H & _)]. intros H. split; [constructor|]. split; [assumption|now intros x []].
  - split.
    + intros H. inversion_clear H as [|? ? H1 H2]. apply IH in H2 as (H2 & H3 & H4). split; [constructor; [|assumption]|split; [assumption|]].
      * intros Hx. apply H1. apply in_or_app. now left.
      * intros x [<-|Hx] Hm; [apply H1; apply in_or_app; now right|now apply (H4 x)].
    + intros (H1 & H2 & H3). inversion_clear H1 as [|? ? H4 H5]. constructor.
      * intros Hx. apply in_app_or in Hx as [Hx|Hx]; [contradiction|]. apply (H3 a); [now left|assumption].
      * apply IH. split; [assumption|]. split; [assumption|]. intros x Hx. apply H3. now right.
Qed.
Lemma swapped (l1 l2 : list nat) x y n n' : NoDup (l1 ++ x :: l2) -> Forall (fun r => r < n) (l1 ++ x :: l2) ->
  y = x \/ n <= y -> y < n' -> n <= n' -> NoDup (l1 ++ y :: l2) /\ Forall (fun r => r < n') (l1 ++ y :: l2).
Proof.
  intros N F H L L'. pose proof (Permutation_middle l1 l2) as P. apply (Permutation_NoDup (Permutation_sym (P x))) in N.
  apply (Permutation_Forall (Permutation_sym (P x))) in F. inversion_clear N as [|? ? N1 N2]. inversion_clear F as [|? ? F1 F2]. split.
  - apply (Permutation_NoDup (P y)). constructor; [|assumption]. destruct H as [->|H]; [assumption|]. intros Hx. rewrite Forall_forall in F2. apply F2 in Hx. lia.
  - apply (Permutation_Forall (P y)). constructor; [assumption|]. eapply Forall_impl; [|exact F2]. cbn. intros. lia.
Qed.
Lemma dexec_apart al c s o s' : alloc_ok al -> dcall_ok code s c -> dinv code s -> dexec brk code al c s = Ok (o, s') -> apart s -> apart s'.
Proof.
  intros Ha Hc (rs & S & I) E A. destruct s as [[bs ks gs h f] ws]. unfold apart, d_heap in *. cbn [d_world d_ws wo_buffers wo_heap] in *.
  unfold dexec in E. destruct c.
  - destruct (nexec brk code al c (World bs ks gs h f)) as [[o' w']|] eqn:En; [|discriminate]. injection E as <- <-. cbn [d_world d_ws].
    pose proof (winv_own _ _ I) as W. destruct (nexec_holds al c _ _ _ Ha Hc W En) as (X1 & X2 & _). cbn in X1, X2.
    pose proof (nexec_steps brk code Hos Hcode al c (World bs ks gs h f) Ha Hc W) as Y. rewrite En in Y. destruct Y as [[_ _ Y3 _ Y5] _].
    destruct A as [N F]. apply nodup_parts in N as (N1 & N2 & N3). apply Forall_app in F as [F1 F2]. split.
    + apply nodup_parts. split; [assumption|]. split; [assumption|]. intros r Hr Hx. apply in_map_iff in Hx as (b' & <- & Hb).
      destruct (X2 b' Hb) as [[(b & H1 & _ & D)|(B & _)]|[(i & k & b & x & _ & H1 & _ & ->)|(i & n & b & _ & H1 & ->)]].
      * destruct D as [[D _]|[D _]]; [rewrite D in Hr; apply (N3 _ Hr); now apply in_map|]. rewrite Forall_forall in F1. apply F1 in Hr. lia.
      * rewrite Forall_forall in F1. apply F1 in Hr. lia.
      * apply (N3 _ Hr). exact (in_map rb_data _ _ H1).
      * apply (N3 _ Hr). exact (in_map rb_data _ _ H1).
    + apply Forall_app. split; [eapply Forall_impl; [|exact F1]; cbn; intros; lia|]. apply Forall_forall. intros r Hr. apply in_map_iff in Hr as (b' & <- & Hb).
      rewrite Forall_forall in Y3. apply (Y3 b' Hb).
  - destruct (nth_error bs i) as [b|] eqn:Ei; [|now injection E as <- <-].
    destruct (radd_buffer al ws b h) as [[ws' h']|] eqn:E'; [|discriminate]. injection E as <- <-. cbn. eapply radd_sound; [|exact E'].
    eapply (sound_perm _ _ _ _ _ _ [] A); [|lia]. cbn [app]. apply Permutation_app_head.
    change (rb_data b :: map rb_data (without bs i)) with (map rb_data (b :: without bs i)). apply Permutation_map. now apply without_perm.
  - destruct (ropen_buffer al f ws p h) as [[[r ws'] h']|] eqn:Eo; [|discriminate]. injection E as <- <-. eapply ropen_sound; eassumption.
  - destruct (rclose_current al ws h) as [[ws' h']|] eqn:E'; [|discriminate]. injection E as <- <-. eapply rclose_sound; eassumption.
  - destruct (rnext_buffer al ws h) as [[ws' h']|] eqn:E'; [|discriminate]. injection E as <- <-. eapply rnext_sound; eassumption.
  - destruct (rprevious_buffer al ws h) as [[ws' h']|] eqn:E'; [|discriminate]. injection E as <- <-. eapply rprevious_sound; eassumption.
  - pose proof (rupdate_datas ws) as U. destruct (rupdate_syntax ws) as [r ws'] eqn:Eu. injection E as <- <-. cbn in *. unfold sound. now rewrite U.
  - destruct (rcurrent_tokens ws h) as [[r h']|] eqn:Et; [|discriminate]. injection E as <- <-. cbn.
    assert (Hh : h' = h).
    { unfold rcurrent_tokens in Et. rewrite (rselected_sim _ _ S) in Et. destruct (rselected rs) as [b|] eqn:Eb; [|now injection Et as _ <-].
      destruct (rselected_at rs b Eb) as (i & E1 & E2 & E3). destruct (winv_open _ _ I) as [K B].
      pose proof (rdata_keeps code (lease_of gs) b h K (proj1 (B b (nth_error_In _ _ E2)))) as X. unfold mbind in Et.
      destruct (rdata b h) as [[t h1]|]; [|discriminate]. destruct X as [-> _]. cbn in Et. destruct (rb_syntax b); now injection Et as _ <-. }
    now rewrite Hh.
  - injection E as <- <-. exact A.
  - injection E as <- <-. exact A.
  - destruct (rw_current ws) as [b|] eqn:Ec; [|now injection E as <- <-]. pose proof Ec as Es. rewrite (rselected_sim _ _ S) in Es.
    destruct (rselected_at rs b Es) as (i & E1 & E2 & E3). destruct (winv_open _ _ I) as [K B]. destruct (B b (nth_error_In _ _ E2)) as [Bb Ob]. cbn in K, Bb, Hc.
    assert (Hc' : call_ok c /\ c <> BSetCallback true) by (destruct c; try easy; now destruct on).
    pose proof (pbuffer_moves brk code Hos Hcode (lease_of gs) al c f h b Ha (proj1 Hc') (proj2 Hc') K Bb Ob) as X.
    destruct (pbuffer brk (told brk code) al c b f h) as [[[[o' b'] f'] h']|]; [|discriminate]. injection E as <- <-. destruct X as [[_ X2 X3 _ _ _ X7] _].
    cbn. unfold sound, datas in *. rewrite Ec in A. cbn [rw_buffers rw_current] in *. rewrite <- !app_assoc in *. cbn [app] in *. destruct A as [N F].
    apply (swapped _ _ (rb_data b) (rb_data b') (length h)); [assumption|assumption| |apply X3|assumption]. destruct X7 as [[X7 _]|[X7 _]]; [now left|now right].
  - destruct (rw_current ws) as [b|] eqn:Ec; [|now injection E as <- <-]. injection E as <- <-. cbn. unfold sound, datas in *. rewrite Ec in A. exact A.
  - destruct (rw_current ws) as [b|] eqn:Ec; [|now injection E as <- <-]. injection E as <- <-. exact A.
  - destruct (rw_current ws) as [b|] eqn:Ec; [|now injection E as <- <-]. destruct (nth_error ks k) as [x|] eqn:Ek; [|now injection E as <- <-]. injection E as <- <-.
    cbn. unfold sound, datas in *. rewrite Ec in A. exact A.
  - injection E as <- <-. cbn. destruct (nth_error bs i) as [b|] eqn:Ei.
    + eapply (sound_perm _ _ _ _ _ _ [rb_data b] A); [|lia]. cbn [app]. etransitivity; [|symmetry; apply Permutation_middle]. apply Permutation_app_head.
      change (rb_data b :: map rb_data (without bs i)) with (map rb_data (b :: without bs i)). apply Permutation_map. now apply without_perm.
    + apply nth_error_None in Ei. unfold without. now rewrite firstn_all2, skipn_all2, app_nil_r by lia.
  - injection E as <- <-. exact A.
Qed.
Lemma session_apart Q f p ss ws cs os s : rws_new f p (Some ss) = ROk ws -> desk_session brk code Q f ws cs os s -> apart s.
Proof.
  intros E0 H. pose proof (fun cs os s => desk_inv brk code Hos Hcode Q f p ss ws cs os s E0) as D. induction H as [|cs os s al c o s' H IH Ha Hc HQ E].
  - destruct (new_sim _ _ _ _ E0) as (cp & -> & _). split; constructor.
  - apply (dexec_apart al c s o s' Ha Hc); [now apply (D cs os)|assumption..].
Qed.

(** The buffer in the slot shares its storage with no other. *)
Lemma placeholder_apart s b x : dinv code s -> apart s -> placeholder s b -> In x (d_lineup s ++ wo_buffers (d_world s)) -> rb_data b <> rb_data x.
Proof.
  intros (rs & S & _) [N _] (i & Hi & Hb) Hx. unfold d_index, d_lineup in *. rewrite (lineup_sim _ _ S) in Hx.
  destruct (d_ws s) as [wp wb wn wc wi wss]. inversion S as [|p pre q post n y ss0 Hq]; subst; cbn in *; [discriminate|].
  injection Hi as <-. rewrite nth_error_app2, Nat.sub_diag in Hb by lia. injection Hb as ->. unfold datas in N. cbn in N.
  rewrite map_app in N. cbn in N. rewrite <- !app_assoc in N. apply NoDup_remove_2 in N. intros He. apply N. rewrite He.
  apply in_app_or in Hx as [Hx|Hx].
  - apply in_app_or in Hx as [Hx|[<-|Hx]].
    + apply in_or_app. left. now apply in_map.
    + apply in_or_app. right. apply in_or_app. right. now left.
    + apply in_or_app. right. apply in_or_app. left. now apply in_map.
  - apply in_or_app. right. apply in_or_app. right. right. now apply in_map.
Qed.

(** A call of a program takes the slot from no buffer. *)
Lemma slot_kept al c s o s' b x : alloc_ok al -> dcall_ok code s c -> dinv code s -> apart s -> dexec brk code al c s = Ok (o, s') ->
  In b (d_lineup s ++ wo_buffers (d_world s)) -> placeholder s' x -> rb_data x = rb_data b ->
  In (rb_data b) (map rb_data (d_lineup s' ++ wo_buffers (d_world s'))).
Proof.
  intros Ha Hc D A E Hb P Ex. pose proof (dexec_steps brk code Hos Hcode al c s Ha Hc D) as X. rewrite E in X. destruct X as (_ & X & _ & _).
  assert (Old : placeholder s x -> In (rb_data b) (map rb_data (d_lineup s' ++ wo_buffers (d_world s')))).
  { intros Px. exfalso. apply (placeholder_apart s x b D A Px Hb). assumption. }
  assert (Same : d_lineup s' = d_lineup s -> wo_buffers (d_world s') = wo_buffers (d_world s) -> In (rb_data b) (map rb_data (d_lineup s' ++ wo_buffers (d_world s')))).
  { intros -> ->. now apply in_map. }
  assert (Ins : forall k y, d_lineup s' = insert_at (d_lineup s) k y -> wo_buffers (d_world s') = wo_buffers (d_world s) -> In (rb_data b) (map rb_data (d_lineup s' ++ wo_buffers (d_world s')))).
  { intros k y -> ->. apply in_map. apply in_app_or in Hb as [Hb|Hb]; apply in_or_app; [left; now apply in_insert_at|now right]. }
  destruct s as [[bs ks gs h f] ws]. unfold dexec in E. destruct c; unfold arranged in X; cbn [d_world wo_buffers] in *.
  - destruct (nexec brk code al c (World bs ks gs h f)) as [[o' w']|]; [|discriminate]. injection E as <- <-. now apply Old.
  - destruct (nth_error bs i) as [y|] eqn:Ei.
    + destruct X as (X1 & y' & (yi & yy & ->) & X2 & _). rewrite X1, X2. apply in_app_or in Hb as [Hb|Hb].
      * apply in_map, in_or_app. left. now apply in_insert_at.
      * apply (Permutation_in _ (without_perm _ _ _ Ei)) in Hb as [<-|Hb]; [|apply in_map, in_or_app; now right].
        rewrite map_app. apply in_or_app. left. unfold insert_at. rewrite map_app. apply in_or_app. right. now left.
    + destruct X as [[X1 _] X2]. now apply Same.
  - destruct (ropen_buffer al f ws p h) as [[[r ws'] h']|]; [|discriminate]. injection E as <- <-. destruct r as [u|e].
    + destruct X as (cp & _ & [(i & y & _ & _ & X & _)|(_ & y & _ & _ & _ & _ & X & _)]); [now apply Same|now apply (Ins _ _ X)].
    + destruct X as [X _]. now apply Same.
  - destruct (rclose_current al ws h) as [[ws' h']|] eqn:Ec; [|discriminate]. injection E as <- <-.
    destruct (rclose_in _ _ _ _ _ Ec) as [_ Y]. assert (Lb : rb_data b < length h).
    { destruct D as (rs & S & I). unfold d_lineup in Hb. rewrite (lineup_sim _ _ S) in Hb. destruct I as [_ _ I3 _ _]. rewrite Forall_forall in I3. now apply (I3 b). }
    destruct D as (rs & S & _). cbn [d_ws] in S.
    destruct (Y x) as [H|(B & _)]; [destruct P as (j & _ & P); left; eapply nth_error_In; exact P| |lia].
    unfold d_index, d_lineup in *. cbn [d_ws d_world wo_buffers] in *. destruct (rw_index ws) as [i|] eqn:Hi.
    + destruct X as [X _]. rewrite X. assert (W : without (rw_buffers ws) i = without (lineup ws) i).
      { rewrite (lineup_sim _ _ S). destruct S as [p n ss|p pre q post n y ss Hp]; [discriminate|]. cbn in *. injection Hi as <-. unfold without.
        now rewrite !firstn_pre, !skipn_S_pre. }
      rewrite W in H. rewrite <- Ex. apply in_map, in_or_app. now left.
    + apply Same; [apply X|reflexivity].
  - destruct (rnext_buffer al ws h) as [[ws' h']|]; [|discriminate]. injection E as <- <-. apply Same; [apply X|reflexivity].
  - destruct (rprevious_buffer al ws h) as [[ws' h']|]; [|discriminate]. injection E as <- <-. apply Same; [apply X|reflexivity].
  - unfold rupdate_syntax in E. destruct (rw_current ws) as [y|] eqn:Ec; injection E as <- <-; [|now apply Old]. apply Old. exact P.
  - destruct (rcurrent_tokens ws h) as [[r h']|]; [|discriminate]. injection E as <- <-. now apply Old.
  - injection E as <- <-. apply Old. exact P.
  - injection E as <- <-. apply Old. exact P.
  - destruct (rw_current ws) as [y|] eqn:Ec; [|injection E as <- <-; now apply Old].
    destruct (pbuffer brk (told brk code) al c y f h) as [[[[o' b'] f'] h']|]; [|discriminate]. injection E as <- <-. apply Old. exact P.
  - destruct (rw_current ws) as [y|] eqn:Ec; injection E as <- <-; apply Old; exact P.
  - destruct (rw_current ws) as [y|] eqn:Ec; injection E as <- <-; apply Old; exact P.
  - destruct (rw_current ws) as [y|] eqn:Ec; [destruct (nth_error ks k)|]; injection E as <- <-; apply Old; exact P.
  - injection E as <- <-. apply Old. exact P.
  - injection E as <- <-. apply Old. exact P.
Qed.

Lemma session_freed f p ss ws cs os s al c o s' b : rws_new f p (Some ss) = ROk ws -> desk_session brk code modest f ws cs os s ->
  alloc_ok al -> dcall_ok code s c -> modest c -> dexec brk code al c s = Ok (o, s') ->
  In b (d_lineup s ++ wo_buffers (d_world s)) -> ~ In (rb_data b) (map rb_data (d_lineup s' ++ wo_buffers (d_world s'))) ->
  ~ holds code s' (rb_data b).
Proof.
  intros E0 H Ha Hc HQ E Hb Hn Hx. pose proof (desk_call _ _ _ _ _ _ _ _ _ _ _ _ H Ha Hc HQ E) as H'.
  pose proof (session_apart _ _ _ _ _ _ _ _ E0 H) as A. pose proof (session_mild _ _ _ _ _ _ _ E0 H) as [_ D].
  apply (session_holds _ _ _ _ _ _ _ _ E0 H') in Hx as (x & [Hx|[Hx|Hx]] & Ex).
  - apply Hn. rewrite <- Ex. apply in_map, in_or_app. now left.
  - apply Hn. now apply (slot_kept al c s o s' b x).
  - apply Hn. rewrite <- Ex. apply in_map, in_or_app. now right.
Qed.

Lemma own_slot s b x : desk_reached brk code s -> placeholder s b -> In x (d_lineup s ++ wo_buffers (d_world s)) -> rb_data b <> rb_data x.
Proof.
  intros R. apply placeholder_apart; [now apply (reached_inv brk code)|]. destruct R as (f & p & ss & ws & cs & os & E0 & H). eapply session_apart; eassumption.
Qed.

Lemma session_count f p ss ws cs os s : rws_new f p (Some ss) = ROk ws -> desk_session brk code modest f ws cs os s ->
  exists rs, NoDup rs /\ (forall r, In r rs <-> holds code s r) /\
    length rs = length (d_lineup s) + length (wo_buffers (d_world s)) + match d_index s with Some _ => 1 | None => 0 end.
Proof.
  intros E0 H. pose proof (session_apart _ _ _ _ _ _ _ _ E0 H) as A. pose proof (session_mild _ _ _ _ _ _ _ E0 H) as [_ D].
  assert (R : desk_reached brk code s).
  { exists f, p, ss, ws, cs, os. split; [assumption|]. clear - H. induction H; [constructor|]. econstructor; eauto. }
  pose proof (desk_own_storage brk code Hos Hcode s R) as N.
  assert (P : exists l, length l = match d_index s with Some _ => 1 | None => 0 end /\ NoDup l /\ forall b, placeholder s b <-> In b l).
  { destruct D as (rs & S & _). unfold placeholder, d_index. destruct S as [q n ss0|q pre x post n y ss0 Hp]; cbn.
    - exists []. split; [reflexivity|]. split; [constructor|]. intros b. split; [intros (i & [=] & _)|intros []].
    - exists [x]. split; [reflexivity|]. split; [repeat constructor; intros []|]. intros b. split.
      + intros (i & [= <-] & Hb). rewrite nth_error_app2, Nat.sub_diag in Hb by lia. left. now injection Hb as <-.
      + intros [<-|[]]. exists (length pre). split; [reflexivity|]. now rewrite nth_error_app2, Nat.sub_diag by lia. }
  destruct P as (l & Hl & Nl & P). exists (map rb_data (d_lineup s ++ wo_buffers (d_world s)) ++ map rb_data l). split; [|split].
  - apply nodup_parts. split; [assumption|]. split.
    + destruct l as [|x [|]]; [constructor|repeat constructor; intros []|]. destruct (d_index s); discriminate.
    + intros r Hr Hx. apply in_map_iff in Hr as (y & <- & Hy). apply in_map_iff in Hx as (x & Ex & Hx). apply P in Hx. now apply (placeholder_apart s x y D A Hx Hy).
  - intros r. rewrite (session_holds _ _ _ _ _ _ _ r E0 H), in_app_iff, !in_map_iff. split.
    + intros [(b & <- & Hb)|(b & <- & Hb)]; exists b; (split; [|reflexivity]); [apply in_app_or in Hb as [Hb|Hb]; auto|right; left; now apply P].
    + intros (b & [Hb|[Hb|Hb]] & <-); [left|right|left]; exists b; (split; [reflexivity|]); [apply in_or_app; now left|now apply P|apply in_or_app; now right].
  - rewrite app_length, !map_length, app_length, Hl. reflexivity.
Qed.
Definition slotted (s s' : desk) : Prop := same_slot (d_ws s) (d_ws s') \/
  (fresh_slot (d_heap s) (d_ws s') /\ wo_cursors (d_world s') = wo_cursors (d_world s) /\ wo_guards (d_world s') = wo_guards (d_world s)).
Lemma dexec_slotted al c s o s' : dexec brk code al c s = Ok (o, s') -> plain (d_ws s) -> slotted s s'.
Proof.
  intros E P. destruct s as [[bs ks gs h f] ws]. cbn [d_ws] in P. unfold dexec in E.
  assert (W : forall ws' bs' h', same_slot ws ws' \/ fresh_slot h ws' -> slotted (Desk (World bs ks gs h f) ws) (Desk (World bs' ks gs h' f) ws')).
  { intros ws' bs' h' [H|H]; [now left|right]. now split. }
  destruct c.
  - destruct (nexec brk code al c (World bs ks gs h f)) as [[o' w']|]; [|discriminate]. injection E as <- <-. left. apply same_same.
  - destruct (nth_error bs i) as [b|]; [|injection E as <- <-; left; apply same_same].
    destruct (radd_buffer al ws b h) as [[ws' h']|] eqn:Ea; [|discriminate]. injection E as <- <-. apply W. right. now apply radd_plain in Ea.
  - destruct (ropen_buffer al f ws p h) as [[[r ws'] h']|] eqn:Eo; [|discriminate]. injection E as <- <-. apply W. now apply (ropen_plain _ _ _ _ _ _ _ _ Eo).
  - destruct (rclose_current al ws h) as [[ws' h']|] eqn:Ec; [|discriminate]. injection E as <- <-. apply W. now apply (rclose_plain _ _ _ _ _ Ec).
  - destruct (rnext_buffer al ws h) as [[ws' h']|] eqn:Ec; [|discriminate]. injection E as <- <-. apply W. now apply (rnext_plain _ _ _ _ _ Ec).
  - destruct (rprevious_buffer al ws h) as [[ws' h']|] eqn:Ec; [|discriminate]. injection E as <- <-. apply W. now apply (rprevious_plain _ _ _ _ _ Ec).
  - unfold rupdate_syntax in E. destruct (rw_current ws); injection E as <- <-; left; now split.
  - destruct (rcurrent_tokens ws h) as [[r h']|]; [|discriminate]. injection E as <- <-. left. apply same_same.
  - injection E as <- <-. left. now split.
  - injection E as <- <-. left. now split.
  - destruct (rw_current ws) as [y|]; [|injection E as <- <-; left; apply same_same].
    destruct (pbuffer brk (told brk code) al c y f h) as [[[[o' b'] f'] h']|]; [|discriminate]. injection E as <- <-. left. now split.
  - destruct (rw_current ws) as [y|]; injection E as <- <-; left; now split.
  - destruct (rw_current ws) as [y|]; injection E as <- <-; left; now split.
  - destruct (rw_current ws) as [y|]; [destruct (nth_error ks k)|]; injection E as <- <-; left; now split.
  - injection E as <- <-. left. now split.
  - injection E as <- <-. left. now split.
Qed.
Lemma dexec_plain al c s o s' : dexec brk code al c s = Ok (o, s') -> plain (d_ws s) -> plain (d_ws s').
Proof.
  intros E P. destruct (dexec_slotted al c s o s' E P) as [H|[H _]]; [now apply (same_plain (d_ws s))|now apply (fresh_plain (d_heap s))].
Qed.
Lemma slot_holds s b r : desk_reached brk code s -> placeholder s b -> buffer_holds code b r -> rb_data b = r.
Proof.
  intros (f & p & ss & ws & cs & os & E0 & H) (i & Hi & Hb) Hr. assert (P : plain (d_ws s)).
  { clear - E0 H. induction H as [|cs os s al c o s' H IH Ha Hc HQ E]; [|now apply (dexec_plain al c s o s')].
    destruct (new_sim _ _ _ _ E0) as (cp & -> & _). intros i. discriminate. }
  destruct (P i Hi) as [_ Q]. destruct (Q b Hb) as [Q1 Q2]. destruct Hr as [Hr|[Hr|(n & Hr & _)]]; congruence.
Qed.
Lemma slot_whole s b : desk_reached brk code s -> placeholder s b ->
  (forall r, buffer_holds code b r <-> rb_data b = r) /\ (forall x, In x (d_lineup s ++ wo_buffers (d_world s)) -> rb_data b <> rb_data x).
Proof.
  intros R P. split; [intros r; split; [now apply (slot_holds s)|now left]|]. intros x Hx. now apply (own_slot s).
Qed.

(** ** Nothing the program can get at has a handle on the storage in the slot *)
Lemma placeholder_below s b : dinv code s -> apart s -> placeholder s b -> rb_data b < length (d_heap s).
Proof.
  intros _ [_ F] (i & Hi & Hb). rewrite Forall_forall in F. apply F. apply in_or_app. left. unfold datas. apply in_or_app. left.
  apply in_map. eapply nth_error_In; exact Hb.
Qed.
Lemma member_split s b : dinv code s -> member s b -> shown s b \/ placeholder s b.
Proof.
  intros (rs & S & _) [H|H]; [|left; apply in_or_app; now right]. apply (lineup_in _ _ _ S) in H as [H|H]; [left; apply in_or_app; now left|now right].
Qed.
Lemma shown_below s b r : dinv code s -> shown s b -> buffer_holds code b r -> r < length (d_heap s).
Proof.
  intros (rs & S & I) H Hr. unfold shown, d_lineup in H. rewrite (lineup_sim _ _ S) in H. destruct I as [_ _ I3 _ _].
  rewrite Forall_forall in I3. destruct (I3 b H) as [(B1 & B2 & B3) _]. cbn in B1, B2, B3. unfold d_heap.
  destruct Hr as [<-|[<-|(n & Hn & Hu)]]; [assumption..|]. now apply (B3 n).
Qed.
Definition unreached (s : desk) : Prop := plain (d_ws s) /\ apart s /\ dinv code s /\
  (forall r, guarded (d_world s) r -> r < length (d_heap s)) /\ forall b, placeholder s b -> ~ in_reach code s (rb_data b).
Lemma dexec_unreached al c s o s' : alloc_ok al -> dcall_ok code s c -> gives code s c -> dexec brk code al c s = Ok (o, s') ->
  unreached s -> unreached s'.
Proof.
  intros Ha Hc Hg E (P & A & D & G & U). pose proof (dexec_steps brk code Hos Hcode al c s Ha Hc D) as D'. rewrite E in D'. destruct D' as [D' _].
  pose proof (dexec_took al c s o s' Ha Hc D E) as (X1 & X2 & X3 & X4 & _). pose proof (dexec_apart al c s o s' Ha Hc D E A) as A'.
  assert (K : forall k, In k (wo_cursors (d_world s)) -> rc_data k < length (d_heap s)).
  { destruct D as (rs & _ & [_ _ _ I4 _]). rewrite Forall_forall in I4. exact I4. }
  split; [now apply (dexec_plain al c s o s')|]. split; [assumption|]. split; [assumption|]. split.
  { intros r Hr. destruct (X4 r Hr) as [H|(x & _ & H & <-)]; [apply G in H; lia|]. apply K in H. lia. }
  intros y Hy R.
  assert (Old : (placeholder s y \/ blank (d_heap s) y) /\ (blank (d_heap s) y -> wo_cursors (d_world s') = wo_cursors (d_world s) /\ wo_guards (d_world s') = wo_guards (d_world s))).
  { destruct (dexec_slotted al c s o s' E P) as [[H1 H2]|(H & H1 & H2)]; destruct Hy as (i & Hi & Hb); unfold d_index in Hi.
    - assert (Py : placeholder s y) by (exists i; unfold d_index; now rewrite <- H1, <- H2). split; [now left|]. intros (B & _).
      pose proof (placeholder_below s y D A Py). lia.
    - split; [right; now apply (H i Hi)|now split]. }
  destruct Old as [Old New].
  (* what held it before the call *)
  assert (No : in_reach code s (rb_data y) -> False).
  { destruct Old as [Py|(B & _)]; [now apply U|]. intros [(b & Hb & Hr)|[(k & Hk & Hr)|Hr]].
    - apply (shown_below s b _ D Hb) in Hr. lia.
    - apply K in Hk. lia.
    - apply G in Hr. lia. }
  assert (Mem : forall b, member s b -> buffer_holds code b (rb_data y) -> placeholder s b /\ rb_data b = rb_data y).
  { intros b Hb Hr. destruct (member_split s b D Hb) as [H|H]; [exfalso; apply No; left; now exists b|]. split; [assumption|].
    destruct H as (i & Hi & Hn). destruct (P i Hi) as [_ Q]. destruct (Q b Hn) as [Q1 Q2]. destruct Hr as [Hr|[Hr|(n & Hr & _)]]; congruence. }
  destruct R as [(b & Hb & Hr)|[(k & Hk & Hr)|Hr]].
  - pose proof (placeholder_apart s' y b D' A' Hy Hb) as Ne. destruct (X2 b (shown_member _ _ Hb)) as [[(b0 & H0 & D1 & D2)|(B1 & B2 & B3)]|[(b0 & x & _ & H1 & H2 & ->)|(n & b0 & Hn & H1 & ->)]].
    + destruct Hr as [Hr|[Hr|(n & Hr & Hu)]]; [now apply Ne| |].
      * destruct D2 as [[D2 D3]|[D2 D3]]; [|now apply Ne; congruence]. destruct (Mem b0 H0) as [_ Em]; [right; left; congruence|]. apply Ne. congruence.
      * destruct (Mem b0 H0) as [Pz _]; [right; right; exists n; split; [destruct D1; congruence|assumption]|].
        destruct Pz as (i & Hi & Hnn). destruct (P i Hi) as [_ Q]. destruct (Q b0 Hnn) as [_ Q2]. destruct D1; congruence.
    + destruct Hr as [Hr|[Hr|(n & Hr & _)]]; [now apply Ne|now apply Ne; congruence|congruence].
    + cbn in Ne. destruct Hr as [Hr|[Hr|Hr]]; cbn in Hr; [now apply Ne| |].
      * apply No. right. left. now exists x.
      * destruct (Mem b0 H1) as [_ Em]; [now right; right|]. now apply Ne.
    + cbn in Ne. destruct Hr as [Hr|[Hr|(n' & Hr & Hu)]]; cbn in Hr; [now apply Ne| |].
      * destruct (Mem b0 H1) as [_ Em]; [right; now left|]. now apply Ne.
      * injection Hr as <-. apply No. destruct Hn as [-> |(i & ->)]; cbn in Hg; now apply Hg.
  - destruct Old as [Py|B].
    + destruct (X3 k Hk) as [(k0 & H1 & H2)|[(b & _ & H1 & ->)|[_ H1]]].
      * apply No. right. left. exists k0. split; [assumption|congruence].
      * apply No. left. exists b. split; [assumption|]. right. now left.
      * pose proof (placeholder_below s y D A Py). lia.
    + destruct (New B) as [N1 _]. rewrite N1 in Hk. apply No. right. left. now exists k.
  - destruct (X4 _ Hr) as [H|(x & _ & H1 & H2)]; apply No; right; [now right|]. left. now exists x.
Qed.
Lemma honest_unreached s : honest brk code s -> unreached s.
Proof.
  induction 1 as [f p ss ws E0|s al c o s' H IH Ha Hc Hg E]; [|now apply (dexec_unreached al c s o s')].
  pose proof (desk_start brk code (fun _ => True) f ws) as S. destruct (new_sim _ _ _ _ E0) as (cp & Ew & _).
  split; [rewrite Ew; intros i; discriminate|]. split; [exact (session_apart _ _ _ _ _ _ _ _ E0 S)|]. split; [exact (desk_inv brk code Hos Hcode _ _ _ _ _ _ _ _ E0 S)|].
  split; [intros r (m & [])|]. rewrite Ew. intros b (i & Hi & _). discriminate.
Qed.
Lemma out_of_reach s r : honest brk code s -> (holds code s r <-> in_reach code s r \/ exists b, placeholder s b /\ rb_data b = r) /\
  (forall b, placeholder s b -> ~ in_reach code s (rb_data b)).
Proof.
  intros H. destruct (honest_unreached s H) as (P & A & D & G & U). split; [|exact U]. split.
  - intros [(b & Hb & Hr)|[Hr|Hr]]; [|left; right; now left|left; right; now right].
    destruct (member_split s b D Hb) as [X|X]; [left; left; now exists b|right; exists b; split; [assumption|]].
    destruct X as (i & Hi & Hn). destruct (P i Hi) as [_ Q]. destruct (Q b Hn) as [Q1 Q2]. destruct Hr as [Hr|[Hr|(n & Hr & _)]]; congruence.
  - intros [[(b & Hb & Hr)|[Hr|Hr]]|(b & Hb & Hr)]; [left; exists b; split; [now apply shown_member|assumption]|right; now left|right; now right|].
    left. exists b. split; [|now left]. left. left. destruct Hb as (i & _ & Hb). eapply nth_error_In; exact Hb.
Qed.
Lemma modest_honest f p ss ws cs os s : rws_new f p (Some ss) = ROk ws -> desk_session brk code modest f ws cs os s -> honest brk code s.
Proof.
  intros E0 H. induction H as [|cs os s al c o s' H IH Ha Hc HQ E]; [now apply (honest_new brk code f p ss)|].
  apply (honest_call brk code s al c o s' IH Ha Hc); [|assumption]. destruct c as [[]| | | | | | | | | | | | | | |]; try exact I; contradiction HQ.
Qed.
Lemma reach_whole s : honest brk code s -> (forall r, holds code s r <-> in_reach code s r \/ exists b, placeholder s b /\ rb_data b = r) /\
  (forall b, placeholder s b -> ~ in_reach code s (rb_data b)).
Proof. intros H. split; [intros r; now apply out_of_reach|now apply (out_of_reach s 0)]. Qed.
End Steps.
