(** Several programs on one disk: Programs.v. *)
From Verif Require Import Base Utf8 Utf8Proofs Grapheme GraphemeProofs Position GapBuffer
  GapBufferProofs Cursor PathModel Buffer Spec CursorSpec Calls CursorCalls TextProofs UaxProofs HalvesProofs TextFacts
  GapProps CursorProofs OpProofs BufferCalls Timeline TimelineProofs AnyTextProofs BufferProps
  BufferIoProps BufferFacts Token Workspace WorkspaceSpec WorkspaceProofs WorkspaceProps FileProofs Racing RacingProofs
  Witness Programs ProgramsSpec.

(** ** Each program by itself *)

Lemma put_same {A} (x : A) : forall k l y, nth_error l k = Some y -> nth_error (put_at k x l) k = Some x.
Proof. unfold put_at. induction k as [|k IH]; intros [|z l] y H; try discriminate; [reflexivity|]. cbn. eapply IH, H. Qed.
Lemma put_other {A} (x : A) : forall k l j y, nth_error l k = Some y -> j <> k -> nth_error (put_at k x l) j = nth_error l j.
Proof.
  unfold put_at. induction k as [|k IH]; intros [|z l] j y H N; try discriminate; destruct j as [|j]; try (now destruct N); try reflexivity.
  cbn. apply (IH l j y); [exact H|congruence].
Qed.

Lemma programs_apart brk k : forall cs ws f os ws' f' w, prun brk cs ws f = Ok (os, ws', f') -> nth_error ws k = Some w ->
  exists w' l, nth_error ws' k = Some w' /\ with_disks (own k cs os) l /\
    wrun brk (map fst l) w f = Ok (map snd l, w', f').
Proof.
  induction cs as [|[j [al c]] cs IH]; intros ws f os ws' f' w E H; cbn [prun] in E.
  - injection E as <- <- <-. exists w, []. split; [assumption|]. split; [constructor|reflexivity].
  - destruct (pexec brk (j, (al, c)) ws f) as [[[o ws1] f1]|] eqn:X; [|discriminate]. cbn [bind] in E.
    destruct (prun brk cs ws1 f1) as [[[os2 ws2] f2]|] eqn:Y; [|discriminate]. cbn [bind] in E. injection E as <- <- <-.
    cbn [own]. cbn [pexec] in X. destruct (Nat.eqb_spec j k) as [->|N].
    + rewrite H in X. destruct (wexec brk al c w f) as [[[o1 w1] g1]|] eqn:Z; [|discriminate]. cbn [bind] in X. injection X as <- <- <-.
      destruct (IH _ _ _ _ _ w1 Y) as (w' & l & H1 & H2 & H3); [eapply put_same, H|].
      exists w', (((al, c), o1) :: l). split; [assumption|]. split; [now constructor|]. cbn [map fst snd wrun]. rewrite Z. cbn [bind]. now rewrite H3.
    + assert (H' : nth_error ws1 k = Some w).
      { destruct (nth_error ws j) as [wj|] eqn:Hj; [|now injection X as _ <- _].
        destruct (wexec brk al c wj f) as [[[o1 w1] g1]|]; [|discriminate]. cbn [bind] in X. injection X as _ <- _.
        rewrite (put_other w1 j ws k wj Hj); [assumption|congruence]. }
      destruct (IH _ _ _ _ _ w Y H') as (w' & l & H1 & H2 & H3).
      exists w', (((tight, WDisk f1), WUnit) :: l). split; [assumption|]. split; [constructor; [apply tight_ok|assumption]|]. cbn [map fst snd wrun wexec bind]. now rewrite H3.
Qed.

(** ** Reachable states *)

Definition all_sim (ws : list workspace) : Prop := Forall (fun w => exists s, sim w s /\ Forall wfb (s_buffers s)) ws.
Lemma started_sim ws : Forall started ws -> all_sim ws.
Proof.
  apply Forall_impl. intros w (f & p & ss & E). destruct (new_sim _ _ _ _ E) as (cp & _ & S). exists (Shelf cp [] None 0 ss). split; [assumption|constructor].
Qed.
Lemma put_all {A} (P : A -> Prop) x : forall k l, Forall P l -> P x -> Forall P (put_at k x l).
Proof.
  unfold put_at. intros k l F H. apply Forall_app. split; [|constructor; [assumption|]]; apply Forall_forall; rewrite Forall_forall in F;
    intros y Hy; apply F; [rewrite <- (firstn_skipn k l)|rewrite <- (firstn_skipn (S k) l)]; apply in_or_app; auto.
Qed.
Lemma wexec_all brk al c w f o w' f' : alloc_ok al -> wcall_ok brk c -> (exists s, sim w s /\ Forall wfb (s_buffers s)) ->
  wexec brk al c w f = Ok (o, w', f') -> exists s, sim w' s /\ Forall wfb (s_buffers s).
Proof.
  intros Ha Hc (s & S & W) E. pose proof (wexec_sim brk al c w s f S) as X.
  destruct (spec_wcall brk al c s f) as [[[o1 s1] f1]|] eqn:Es; [|congruence].
  destruct X as (w1 & E1 & S1). rewrite E in E1. injection E1 as <- <- <-. exists s1. split; [assumption|].
  eapply wfb_changed; try eassumption. eapply spec_changed; [|eassumption]. now apply (sim_sel_ok w).
Qed.
Lemma pexec_all brk c ws f o ws' f' : pcall_ok brk c -> all_sim ws -> pexec brk c ws f = Ok (o, ws', f') -> all_sim ws'.
Proof.
  destruct c as [k [al c]]. intros [Ha Hc] A E. cbn [pexec fst snd] in *. destruct (nth_error ws k) as [w|] eqn:H; [|now injection E as _ <- _].
  destruct (wexec brk al c w f) as [[[o1 w1] g1]|] eqn:Z; [|discriminate]. cbn [bind] in E. injection E as _ <- _.
  apply put_all; [assumption|]. unfold all_sim in A. rewrite Forall_forall in A.
  exact (wexec_all brk al c w f o1 w1 g1 Ha Hc (A w (nth_error_In _ _ H)) Z).
Qed.
Lemma prun_all brk : forall cs ws f os ws' f', Forall (pcall_ok brk) cs -> all_sim ws -> prun brk cs ws f = Ok (os, ws', f') -> all_sim ws'.
Proof.
  induction cs as [|c cs IH]; intros ws f os ws' f' F A E; cbn [prun] in E; [now injection E as _ <- _|].
  inversion_clear F. destruct (pexec brk c ws f) as [[[o ws1] f1]|] eqn:X; [|discriminate]. cbn [bind] in E.
  destruct (prun brk cs ws1 f1) as [[[os2 ws2] f2]|] eqn:Y; [|discriminate]. cbn [bind] in E. injection E as _ <- _.
  eapply (IH ws1); try eassumption. eapply pexec_all; eassumption.
Qed.
Lemma programs_total cls : cls LF = GC_LF -> forall cs ws f, Forall (pcall_ok (uax29 cls)) cs -> Forall started ws ->
  exists os ws' f', prun (uax29 cls) cs ws f = Ok (os, ws', f').
Proof.
  intros HL cs ws f F S. apply started_sim in S. revert ws f F S.
  induction cs as [|c cs IH]; intros ws f F S; cbn [prun]; [eauto|]. inversion_clear F as [|? ? Hc F'].
  assert (X : exists o ws1 f1, pexec (uax29 cls) c ws f = Ok (o, ws1, f1)).
  { destruct c as [k [al c]]. destruct Hc as [Ha Hc]. cbn [fst snd pexec] in *. destruct (nth_error ws k) as [w|] eqn:H; [|eauto].
    unfold all_sim in S. rewrite Forall_forall in S. destruct (S w (nth_error_In _ _ H)) as (s & Sm & W).
    destruct (spec_wcall_total cls al c s f HL Ha Hc W) as (o & s' & f' & E).
    pose proof (wexec_sim (uax29 cls) al c w s f Sm) as X. rewrite E in X. destruct X as (w1 & -> & _). cbn [bind]. eauto. }
  destruct X as (o & ws1 & f1 & E). rewrite E. cbn [bind].
  destruct (IH ws1 f1 F') as (os & ws2 & f2 & E2); [eapply pexec_all; eassumption|]. rewrite E2. cbn [bind]. eauto.
Qed.

(** ** What is in a file *)

Lemma wexec_elsewhere brk al c w f o w' f' p : wexec brk al c w f = Ok (o, w', f') -> ~ may_write f w c p ->
  fs_target f' = fs_target f /\ forall p', same_file f p' p -> fs_read f' p' = fs_read f p'.
Proof.
  intros E N. assert (K : f' = f -> fs_target f' = fs_target f /\ forall p', same_file f p' p -> fs_read f' p' = fs_read f p') by now intros ->.
  destruct c as [b|q| | | |c| |q|ss|g]; cbn [wexec] in E.
  - apply K. destruct (add_buffer al w b); [|discriminate]. now injection E.
  - apply K. destruct (open_buffer al f w q) as [[r w1]|]; [|discriminate]. now injection E.
  - apply K. destruct (close_current_buffer al w); [|discriminate]. now injection E.
  - apply K. destruct (next_buffer al w); [|discriminate]. now injection E.
  - apply K. destruct (previous_buffer al w); [|discriminate]. now injection E.
  - destruct (w_current w) as [b|] eqn:Cw; [|apply K; now injection E].
    destruct (bexec brk al c b f) as [[[bo b1] f1]|] eqn:X; [|discriminate]. cbn [bind] in E. injection E as _ _ <-.
    destruct c as [d| |x y|s| | | | |m|x|r| |x|i|y|on|g]; try (destruct (N I)).
    11: { cbn [bexec] in X. destruct (buf_save f r b) as [[[r1 b2] f2]|] eqn:Y; [|discriminate]. cbn [bind] in X. injection X as _ _ <-.
          destruct (save_disk _ _ _ _ _ _ Y) as [T R]. split; [exact T|]. intros p' Hp. apply R. intros q Hq Sq. apply N.
          exists b, q. split; [assumption|]. split; [assumption|]. unfold same_file in *. congruence. }
    all: apply K; revert X; cbn [bexec];
      repeat match goal with |- context[bind ?m _] => destruct m as [z|]; cbn [bind]; [try destruct z|discriminate] end;
      intros X; now injection X.
  - apply K. destruct (update_current_syntax w) as [r w1]. now injection E.
  - apply K. now injection E.
  - apply K. now injection E.
  - destruct (N I).
Qed.
Lemma pexec_elsewhere brk k al c ws f o ws' f' p : pexec brk (k, (al, c)) ws f = Ok (o, ws', f') ->
  (forall w, nth_error ws k = Some w -> ~ may_write f w c p) ->
  fs_target f' = fs_target f /\ forall p', same_file f p' p -> fs_read f' p' = fs_read f p'.
Proof.
  cbn [pexec]. destruct (nth_error ws k) as [w|] eqn:H; [|intros [= _ _ <-]; auto]. intros E N.
  destruct (wexec brk al c w f) as [[[o1 w1] g1]|] eqn:Z; [|discriminate]. cbn [bind] in E. injection E as _ _ <-.
  eapply wexec_elsewhere; [exact Z|auto].
Qed.
Lemma stays brk p : forall cs ws f os ws' f', prun brk cs ws f = Ok (os, ws', f') -> nobody_writes brk p cs ws f ->
  fs_target f' = fs_target f /\ forall p', same_file f p' p -> fs_read f' p' = fs_read f p'.
Proof.
  induction cs as [|[k [al c]] cs IH]; intros ws f os ws' f' E N; cbn [prun] in E; [injection E as _ _ <-; auto|].
  destruct (pexec brk (k, (al, c)) ws f) as [[[o ws1] f1]|] eqn:X; [|discriminate]. cbn [bind] in E.
  destruct (prun brk cs ws1 f1) as [[[os2 ws2] f2]|] eqn:Y; [|discriminate]. cbn [bind] in E. injection E as _ _ <-.
  destruct N as [N1 N2]. destruct (pexec_elsewhere _ _ _ _ _ _ _ _ _ p X N1) as [T1 R1].
  destruct (IH _ _ _ _ _ Y (N2 _ _ _ X)) as [T2 R2]. split; [congruence|]. intros p' H. rewrite R2; [auto|].
  unfold same_file in *. now rewrite T1.
Qed.

Lemma current_wfb w b : (exists s, sim w s /\ Forall wfb (s_buffers s)) -> w_current w = Some b -> wfb b.
Proof.
  intros (s & S & W) H. destruct (sim_shows _ _ S) as [(_ & _ & Cw & _) _]. rewrite Cw in H.
  destruct (selected_split _ _ H) as (pre & post & E1 & _). rewrite E1 in W. apply Forall_app in W as [_ W]. now inversion_clear W.
Qed.
Lemma selected_valid ws k b p t : all_sim ws -> has_selected ws k b p t -> valid_text t.
Proof.
  intros A (w & H & C & _ & D). unfold all_sim in A. rewrite Forall_forall in A.
  pose proof (current_wfb w b (A w (nth_error_In _ _ H)) C) as W. destruct (wfb_data_total b W) as (t' & E & V). congruence.
Qed.

(** A save that succeeds. *)
Lemma psave_reads brk k al r ws f ws' f' b p t : has_selected ws k b p t ->
  pexec brk (k, (al, WEdit (BSave r))) ws f = Ok (WEdited (Some (BResult (ROk tt))), ws', f') ->
  fs_target f' = fs_target f /\ forall p', same_file f p' p -> fs_read f' p' = Some (enc t).
Proof.
  intros (w & H & C & P & D). cbn [pexec]. rewrite H. cbn [wexec]. rewrite C. cbn [bexec]. unfold buf_save. rewrite P, D.
  pose proof (outcome_creatable f p r) as Hc. destruct (outcome f p r); cbn [bind]; try discriminate. intros [= _ <-].
  split; [apply write_targets|]. apply write_reads, Hc. discriminate.
Qed.
Lemma save_stays brk k al r ws f ws1 f1 cs os ws2 f2 b p t : has_selected ws k b p t ->
  pexec brk (k, (al, WEdit (BSave r))) ws f = Ok (WEdited (Some (BResult (ROk tt))), ws1, f1) ->
  prun brk cs ws1 f1 = Ok (os, ws2, f2) -> nobody_writes brk p cs ws1 f1 ->
  forall p', same_file f p' p -> fs_read f2 p' = Some (enc t).
Proof.
  intros Hs E E2 N p' Hp. destruct (psave_reads _ _ _ _ _ _ _ _ _ _ _ Hs E) as [T R].
  destruct (stays brk p cs ws1 f1 os ws2 f2 E2 N) as [_ R2]. rewrite R2; [now apply R|]. unfold same_file in *. now rewrite T.
Qed.

(** ** Loading what another program saved *)

Lemma prun_app brk : forall cs1 cs2 ws f, prun brk (cs1 ++ cs2) ws f =
  let* (os1, ws1, f1) := prun brk cs1 ws f in let* (os2, ws2, f2) := prun brk cs2 ws1 f1 in Ok (os1 ++ os2, ws2, f2).
Proof.
  induction cs1 as [|c cs1 IH]; intros cs2 ws f; cbn [app prun bind].
  { now destruct (prun brk cs2 ws f) as [[[? ?] ?]|]. }
  destruct (pexec brk c ws f) as [[[o ws1] f1]|]; [|reflexivity]. cbn [bind]. rewrite IH.
  destruct (prun brk cs1 ws1 f1) as [[[os2 ws2] f2]|]; [|reflexivity]. cbn [bind].
  now destruct (prun brk cs2 ws2 f2) as [[[? ?] ?]|].
Qed.
Lemma reached_run brk cs ws f os ws' f' : reached brk ws f -> Forall (pcall_ok brk) cs -> prun brk cs ws f = Ok (os, ws', f') -> reached brk ws' f'.
Proof.
  intros (ws0 & f0 & cs0 & os0 & H1 & H2 & H3) F E. exists ws0, f0, (cs0 ++ cs), (os0 ++ os). split; [assumption|].
  split; [apply Forall_app; now split|]. rewrite prun_app, H3. cbn [bind]. now rewrite E.
Qed.
Lemma reached_step brk c ws f o ws' f' : reached brk ws f -> pcall_ok brk c -> pexec brk c ws f = Ok (o, ws', f') -> reached brk ws' f'.
Proof.
  intros R Hc E. apply (reached_run brk [c] ws f [o]); [assumption|now constructor|]. cbn [prun]. now rewrite E.
Qed.
Lemma reached_sim brk ws f : reached brk ws f -> all_sim ws.
Proof. intros (ws0 & f0 & cs & os & H1 & H2 & H3). exact (prun_all brk cs ws0 f0 os ws f H2 (started_sim ws0 H1) H3). Qed.
Lemma own_ok brk k : forall cs os, Forall (pcall_ok brk) cs -> Forall (fun x => alloc_ok (fst (fst x)) /\ wcall_ok brk (snd (fst x))) (own k cs os).
Proof.
  induction cs as [|[j c] cs IH]; intros [|o os] F; cbn [own]; try constructor. inversion_clear F as [|? ? Hc F'].
  destruct (Nat.eqb j k); [constructor; [exact Hc|]|]; now apply IH.
Qed.
Lemma with_ok brk l l' : with_disks l l' -> Forall (fun x => alloc_ok (fst (fst x)) /\ wcall_ok brk (snd (fst x))) l ->
  Forall (fun ac => alloc_ok (fst ac) /\ wcall_ok brk (snd ac) /\ any (snd ac)) (map fst l').
Proof.
  induction 1 as [|x l l' _ IH|al f l l' Ha _ IH]; intros F; cbn [map]; [constructor|..].
  - inversion_clear F as [|? ? [H1 H2] F']. constructor; [repeat split; assumption|auto].
  - constructor; [repeat split; assumption|auto].
Qed.
Lemma prun_length brk k : forall cs ws f os ws' f', prun brk cs ws f = Ok (os, ws', f') -> nth_error ws k = None -> nth_error ws' k = None.
Proof.
  induction cs as [|[j [al c]] cs IH]; intros ws f os ws' f' E H; cbn [prun] in E; [now injection E as _ <- _|].
  destruct (pexec brk (j, (al, c)) ws f) as [[[o ws1] f1]|] eqn:X; [|discriminate]. cbn [bind] in E.
  destruct (prun brk cs ws1 f1) as [[[os2 ws2] f2]|] eqn:Y; [|discriminate]. cbn [bind] in E. injection E as _ <- _.
  apply (IH _ _ _ _ _ Y). cbn [pexec] in X. destruct (nth_error ws j) as [wj|] eqn:Hj; [|now injection X as _ <- _].
  destruct (wexec brk al c wj f) as [[[o1 w1] g1]|]; [|discriminate]. cbn [bind] in X. injection X as _ <- _.
  rewrite (put_other w1 j ws k wj Hj); [assumption|]. intros ->. congruence.
Qed.
Lemma program_reachable brk ws f k w : reached brk ws f -> nth_error ws k = Some w -> reachable_workspace brk any w f.
Proof.
  intros (ws0 & f0 & cs & os & H1 & H2 & H3) H. destruct (nth_error ws0 k) as [w0|] eqn:H0.
  - destruct (programs_apart brk k cs ws0 f0 os ws f w0 H3 H0) as (w' & l & E & D & R). rewrite H in E. injection E as <-.
    rewrite Forall_forall in H1. destruct (H1 w0 (nth_error_In _ _ H0)) as (g & p & ss & N).
    exists g, p, ss, w0, ((tight, WDisk f0) :: map fst l), (WUnit :: map snd l). split; [assumption|]. split.
    + constructor; [repeat split; apply tight_ok|]. eapply with_ok; [exact D|]. now apply own_ok.
    + cbn [wrun wexec bind]. now rewrite R.
  - rewrite (prun_length brk k cs ws0 f0 os ws f H3 H0) in H. discriminate.
Qed.

(** What was saved is what another program then loads. *)
Lemma handover_reads brk k al r ws f ws1 f1 cs os ws2 f2 b p t q : reached brk ws f -> has_selected ws k b p t ->
  pexec brk (k, (al, WEdit (BSave r))) ws f = Ok (WEdited (Some (BResult (ROk tt))), ws1, f1) ->
  prun brk cs ws1 f1 = Ok (os, ws2, f2) -> nobody_writes brk p cs ws1 f1 -> same_file f q p -> read_to_string f2 q = Some t.
Proof.
  intros R Hs E E2 N Sf. apply readable. split; [eapply selected_valid; [eapply reached_sim, R|exact Hs]|]. eapply save_stays; eassumption.
Qed.
Lemma handover_reload brk k al r ws f ws1 f1 cs os ws2 f2 b p t j al' b' q u : reached brk ws f -> has_selected ws k b p t ->
  pexec brk (k, (al, WEdit (BSave r))) ws f = Ok (WEdited (Some (BResult (ROk tt))), ws1, f1) -> alloc_ok al ->
  prun brk cs ws1 f1 = Ok (os, ws2, f2) -> Forall (pcall_ok brk) cs -> nobody_writes brk p cs ws1 f1 ->
  has_selected ws2 j b' q u -> same_file f q p -> alloc_ok al' ->
  exists ws3 b'', pexec brk (j, (al', WEdit BReload)) ws2 f2 = Ok (WEdited (Some (BResult (ROk tt))), ws3, f2) /\
    has_selected ws3 j b'' q t /\ buf_modified b'' = false.
Proof.
  intros R Hs E Ha E2 F N (w & Hw & Cw & Pw & Dw) Sf Ha'.
  pose proof (handover_reads _ _ _ _ _ _ _ _ _ _ _ _ _ _ _ q R Hs E E2 N Sf) as Rd.
  assert (V : valid_text t) by (eapply selected_valid; [eapply reached_sim, R|exact Hs]).
  assert (R2 : reached brk ws2 f2) by (eapply reached_run; [eapply reached_step; [exact R| |exact E]|exact F|exact E2]; repeat split; assumption).
  apply reached_sim in R2. unfold all_sim in R2. rewrite Forall_forall in R2.
  pose proof (current_wfb w b' (R2 w (nth_error_In _ _ Hw)) Cw) as W.
  destruct (replace_text brk al' b' t u Ha' W V Dw) as (b2 & Er & D2 & _ & _ & P2 & _).
  cbn [pexec]. rewrite Hw. cbn [wexec]. rewrite Cw. cbn [bexec]. unfold buf_reload. rewrite Pw, Rd, Er. cbn [bind].
  eexists _, (set_history b2 (hist_mark (b_history b2))). split; [reflexivity|]. split.
  - eexists. split; [eapply put_same, Hw|]. split; [reflexivity|]. split; [cbn; congruence|exact D2].
  - unfold buf_modified, hist_at_mark. cbn. now rewrite Nat.eqb_refl.
Qed.
Lemma handover_open brk k al r ws f ws1 f1 cs os ws2 f2 b p t j al' w q : reached brk ws f -> has_selected ws k b p t ->
  pexec brk (k, (al, WEdit (BSave r))) ws f = Ok (WEdited (Some (BResult (ROk tt))), ws1, f1) -> alloc_ok al ->
  prun brk cs ws1 f1 = Ok (os, ws2, f2) -> Forall (pcall_ok brk) cs -> nobody_writes brk p cs ws1 f1 ->
  nth_error ws2 j = Some w -> same_file f q p -> alloc_ok al' ->
  (forall b', In b' (open_buffers w) -> b_path b' <> fs_target f q) ->
  exists ws3 b'' cp, pexec brk (j, (al', WOpen q)) ws2 f2 = Ok (WResult (ROk tt), ws3, f2) /\
    fs_target f q = Some cp /\ has_selected ws3 j b'' cp t /\ buf_modified b'' = false.
Proof.
  intros R Hs E Ha E2 F N Hw Sf Ha' Hn.
  pose proof (handover_reads _ _ _ _ _ _ _ _ _ _ _ _ _ _ _ q R Hs E E2 N Sf) as Rd.
  assert (R2 : reached brk ws2 f2) by (eapply reached_run; [eapply reached_step; [exact R| |exact E]|exact F|exact E2]; repeat split; assumption).
  destruct (psave_reads _ _ _ _ _ _ _ _ _ _ _ Hs E) as [T1 _]. destruct (stays brk p cs ws1 f1 os ws2 f2 E2 N) as [T2 _].
  destruct (proj1 (readable f2 q t) Rd) as [_ Rf]. destruct (read_canon f2 q (enc t) Rf) as (cp & Et & Ec).
  assert (Tq : fs_target f q = Some cp) by congruence.
  destruct (open_new brk w f2 q cp al' t (program_reachable brk ws2 f2 j w R2 Hw) Ec Rd) as (w' & pre & b2 & post & Eo & _ & _ & C2 & P2 & D2 & M2).
  { intros b' Hb. rewrite <- Tq. now apply Hn. }
  cbn [pexec]. rewrite Hw. cbn [wexec]. rewrite Eo. cbn [bind]. eexists _, b2, cp. split; [reflexivity|]. split; [assumption|]. split; [|assumption].
  exists w'. split; [eapply put_same, Hw|]. repeat split; assumption.
Qed.

(** ... and stays what it would overwrite. *)
Lemma loaded_stays brk k al ws f ws1 f1 cs os ws2 f2 b p t : reached brk ws f -> alloc_ok al ->
  pexec brk (k, (al, WEdit BReload)) ws f = Ok (WEdited (Some (BResult (ROk tt))), ws1, f1) -> has_selected ws1 k b p t ->
  prun brk cs ws1 f1 = Ok (os, ws2, f2) -> nobody_writes brk p cs ws1 f1 ->
  forall p', same_file f p' p -> fs_read f2 p' = Some (enc t).
Proof.
  intros R Ha E (w1 & Hw & Cw & Pw & Dw) E2 N p' Sf. apply reached_sim in R. unfold all_sim in R. rewrite Forall_forall in R.
  cbn [pexec] in E. destruct (nth_error ws k) as [w|] eqn:H; [|discriminate]. cbn [wexec] in E.
  destruct (w_current w) as [b0|] eqn:C0; [|discriminate]. cbn [bexec] in E. unfold buf_reload in E.
  pose proof (current_wfb w b0 (R w (nth_error_In _ _ H)) C0) as W. destruct (wfb_data_total b0 W) as (u & Du & _).
  destruct (b_path b0) as [q|] eqn:P0; [|discriminate]. destruct (read_to_string f q) as [s|] eqn:Rd; [|discriminate].
  apply readable in Rd as [V Rd]. destruct (replace_text brk al b0 s u Ha W V Du) as (b2 & Er & D2 & _ & _ & P2 & _).
  rewrite Er in E. cbn [bind] in E. injection E as <- <-. rewrite (put_same _ k ws w H) in Hw. injection Hw as <-. cbn in Cw. injection Cw as <-.
  assert (q = p) by (cbn in Pw; congruence). subst q. assert (s = t) by (unfold buf_data in *; cbn in Dw; congruence). subst s.
  destruct (stays brk p cs _ f os ws2 f2 E2 N) as [_ R2]. rewrite R2 by assumption.
  unfold fs_read in *. unfold same_file in Sf. now rewrite Sf.
Qed.

(** ** The same as histories *)

Lemma prun_cons brk c cs ws f o os ws2 f2 : prun brk (c :: cs) ws f = Ok (o :: os, ws2, f2) ->
  exists ws1 f1, pexec brk c ws f = Ok (o, ws1, f1) /\ prun brk cs ws1 f1 = Ok (os, ws2, f2).
Proof.
  cbn [prun]. destruct (pexec brk c ws f) as [[[o1 ws1] f1]|]; [|discriminate]. cbn [bind].
  destruct (prun brk cs ws1 f1) as [[[os2 w2] g2]|] eqn:Y; [|discriminate]. cbn [bind]. intros [= <- <- <- <-]. eauto.
Qed.
Lemma saved_stays brk k al r cs ws f os ws2 f2 b p t : has_selected ws k b p t ->
  prun brk ((k, (al, WEdit (BSave r))) :: cs) ws f = Ok (done :: os, ws2, f2) ->
  nobody_writes_after brk p (k, (al, WEdit (BSave r))) cs ws f ->
  forall p', same_file f p' p -> fs_read f2 p' = Some (enc t).
Proof. intros H E N. apply prun_cons in E as (ws1 & f1 & E1 & E2). eapply save_stays; eauto. Qed.
Lemma saved_reload brk k al r cs ws f os ws2 f2 b p t j al' b' q u : reached brk ws f -> has_selected ws k b p t ->
  prun brk ((k, (al, WEdit (BSave r))) :: cs) ws f = Ok (done :: os, ws2, f2) -> alloc_ok al -> Forall (pcall_ok brk) cs ->
  nobody_writes_after brk p (k, (al, WEdit (BSave r))) cs ws f ->
  has_selected ws2 j b' q u -> same_file f q p -> alloc_ok al' ->
  exists ws3 b'', pexec brk (j, (al', WEdit BReload)) ws2 f2 = Ok (done, ws3, f2) /\
    has_selected ws3 j b'' q t /\ buf_modified b'' = false.
Proof. intros R H E Ha F N. apply prun_cons in E as (ws1 & f1 & E1 & E2). eapply handover_reload; eauto. Qed.
Lemma saved_open brk k al r cs ws f os ws2 f2 b p t j al' w q : reached brk ws f -> has_selected ws k b p t ->
  prun brk ((k, (al, WEdit (BSave r))) :: cs) ws f = Ok (done :: os, ws2, f2) -> alloc_ok al -> Forall (pcall_ok brk) cs ->
  nobody_writes_after brk p (k, (al, WEdit (BSave r))) cs ws f ->
  nth_error ws2 j = Some w -> same_file f q p -> alloc_ok al' ->
  (forall b', In b' (open_buffers w) -> b_path b' <> fs_target f q) ->
  exists ws3 b'' cp, pexec brk (j, (al', WOpen q)) ws2 f2 = Ok (WResult (ROk tt), ws3, f2) /\
    fs_target f q = Some cp /\ has_selected ws3 j b'' cp t /\ buf_modified b'' = false.
Proof. intros R H E Ha F N. apply prun_cons in E as (ws1 & f1 & E1 & E2). eapply handover_open; eauto. Qed.
Lemma reloaded_stays brk k al cs ws f ws1 f1 os ws2 f2 b p t : reached brk ws f -> alloc_ok al ->
  pexec brk (k, (al, WEdit BReload)) ws f = Ok (done, ws1, f1) -> has_selected ws1 k b p t ->
  prun brk ((k, (al, WEdit BReload)) :: cs) ws f = Ok (done :: os, ws2, f2) -> nobody_writes brk p cs ws1 f1 ->
  forall p', same_file f p' p -> fs_read f2 p' = Some (enc t).
Proof.
  intros R Ha E H E2 N. apply prun_cons in E2 as (ws1' & f1' & E1 & E2). rewrite E in E1. injection E1 as <- <-.
  eapply loaded_stays; eauto.
Qed.
