(** Buffers, workspaces and the files they lead to. *)
From Verif Require Import Base Utf8 Utf8Proofs Grapheme GraphemeProofs Position GapBuffer
  GapBufferProofs Cursor PathModel Buffer Spec CursorSpec Calls CursorCalls TextProofs UaxProofs HalvesProofs TextFacts
  GapProps CursorProofs OpProofs BufferCalls Timeline TimelineProofs AnyTextProofs BufferProps
  BufferIoProps BufferFacts Token Workspace WorkspaceSpec WorkspaceProofs WorkspaceProps.

(** The calls of a buffer write nowhere but to the file at its path. *)
Lemma save_disk f w b r b' f' : buf_save f w b = Ok (r, b', f') ->
  fs_target f' = fs_target f /\
  forall p', (forall p, b_path b = Some p -> ~ same_file f p' p) -> fs_read f' p' = fs_read f p'.
Proof.
  unfold buf_save. destruct (b_path b) as [p|]; [|intros E; now injection E as _ _ <-].
  destruct (outcome f p w); [intros E; now injection E as _ _ <-|..];
    (destruct (buf_data b) as [t|]; [|discriminate]); cbn [bind]; intros E; injection E as _ _ <-;
    (split; [apply write_targets|]); intros p' H; now apply write_others, H.
Qed.

Lemma call_disk brk al c b f o b' f' : stays_put c -> bexec brk al c b f = Ok (o, b', f') ->
  fs_target f' = fs_target f /\
  forall p', (forall p, b_path b = Some p -> ~ same_file f p' p) -> fs_read f' p' = fs_read f p'.
Proof.
  intros Hc E. assert (K : forall g : fsys, f = g -> fs_target g = fs_target f /\
    forall p', (forall p, b_path b = Some p -> ~ same_file f p' p) -> fs_read g p' = fs_read f p') by now intros g <-.
  destruct c as [d| |p q|s| | | | |m|p|w| |p|i|y|on|g]; cbn [bexec] in E; try (destruct Hc; fail).
  11: { destruct (buf_save f w b) as [[[r b1] f1]|] eqn:X; [|discriminate]. cbn [bind] in E. injection E as _ _ <-.
        now apply (save_disk _ _ _ _ _ _ X). }
  all: apply K; revert E;
    repeat match goal with |- context[bind ?m _] => destruct m as [x|]; cbn [bind]; [try destruct x|discriminate] end;
    intros E; now injection E.
Qed.

Lemma run_disk brk : forall cs b f os b' f', wfb b ->
  Forall (fun ac => alloc_ok (fst ac) /\ call_ok (snd ac) /\ stays_put (snd ac)) cs ->
  brun brk cs b f = Ok (os, b', f') ->
  wfb b' /\ b_path b' = b_path b /\ fs_target f' = fs_target f /\
  forall p', (forall p, b_path b = Some p -> ~ same_file f p' p) -> fs_read f' p' = fs_read f p'.
Proof.
  induction cs as [|[al c] cs IH]; intros b f os b' f' W F E; cbn [brun] in E.
  - injection E as <- <- <-. auto.
  - inversion_clear F as [|? ? (Ha & Hc & Hp) F']. cbn [fst snd] in *.
    destruct (bexec brk al c b f) as [[[o b1] f1]|] eqn:X; [|discriminate]. cbn [bind] in E.
    destruct (brun brk cs b1 f1) as [[[os2 b2] f2]|] eqn:Y; [|discriminate]. cbn [bind] in E. injection E as <- <- <-.
    pose proof (bexec_any brk al c b f Ha Hc W) as Z. rewrite X in Z. destruct Z as (W1 & _).
    destruct (bexec_fields _ _ _ _ _ _ _ _ Ha Hc W X) as (_ & P1 & _).
    assert (P : b_path b1 = b_path b) by (destruct c; try assumption; destruct Hp).
    destruct (call_disk _ _ _ _ _ _ _ _ Hp X) as [T1 R1].
    destruct (IH _ _ _ _ _ W1 F' Y) as (W2 & P2 & T2 & R2).
    split; [assumption|]. split; [congruence|]. split; [congruence|]. intros p' H.
    rewrite R2, R1; [reflexivity|assumption|]. unfold same_file. rewrite P, T1. exact H.
Qed.

Lemma saved_where_loaded brk al f p b0 cs os b f1 w b' f2 :
  links_settle f -> from_file al f p = Ok (ROk b0) ->
  Forall (fun ac => alloc_ok (fst ac) /\ call_ok (snd ac) /\ stays_put (snd ac)) cs ->
  brun brk cs b0 f = Ok (os, b, f1) -> buf_save f1 w b = Ok (ROk tt, b', f2) ->
  exists t, buf_data b = Ok t /\ (forall p', same_file f p' p -> fs_read f2 p' = Some (enc t)) /\
    (forall p', ~ same_file f p' p -> fs_read f2 p' = fs_read f p').
Proof.
  intros L E0 F E1 E2. assert (W0 : wfb b0) by (apply (fresh_wfb f); right; eauto).
  assert (R : reachable_buffer brk b f1).
  { exists b0, f, cs, os. split; [right; eauto|]. split; [|assumption].
    eapply Forall_impl; [|exact F]. now intros ac (H1 & H2 & _). }
  destruct (run_disk _ _ _ _ _ _ _ W0 F E1) as (W & P & T & Rd).
  destruct (from_file_canon _ _ _ _ E0) as (cp & Hc & Hp & _).
  assert (Tp : fs_target f p = Some cp).
  { unfold fs_canon in Hc. destruct (fs_target f p) as [q|]; [|discriminate]. destruct (fs_node f q); [|discriminate]. exact Hc. }
  destruct (save_ok _ _ _ _ _ _ R E2) as (p1 & t & P1 & D & _ & S1 & S2 & _).
  assert (p1 = cp) by congruence. subst p1. exists t. split; [assumption|].
  assert (Sm : forall p', same_file f1 p' cp <-> same_file f p' p).
  { intros p'. unfold same_file. rewrite T, (L _ _ Tp), Tp. reflexivity. }
  split.
  - intros p' H. now apply S1, Sm.
  - intros p' H. destruct (S2 p') as [-> _]; [now rewrite Sm|]. apply Rd. intros q Hq. rewrite Hp in Hq. injection Hq as <-.
    unfold same_file in *. now rewrite (L _ _ Tp), <- Tp.
Qed.

(** ** Workspaces *)

(** Every buffer's path is a target, and no two are the same. *)
Definition apart (T : path -> option path) (s : shelf) : Prop :=
  Forall (fun b => exists q, b_path b = Some q /\ T q = Some q) (s_buffers s) /\ NoDup (map b_path (s_buffers s)).

Lemma apart_changed brk T al f s s' c : alloc_ok al -> wcall_ok brk c -> only_opens c -> Forall wfb (s_buffers s) ->
  (forall p q, T p = Some q -> T q = Some q) -> fs_target f = T ->
  changed brk al f s s' c -> apart T s -> apart T s'.
Proof.
  intros Ha Hc Hk W LT HT Ch [A N]. split; [|eapply paths_changed; eassumption]. clear N.
  revert Hc Hk. destruct Ch as [c' _ E E3|c' pre b post b' o f' X E1 E2 E3|pre b post E1 E2 E3|b pre post E1 E2 E3
    |p cp b pre post X Hcp Hn E1 E2 E3|pre b post E1 E2 E3]; intros Hc Hk.
  - now rewrite E.
  - rewrite E1 in A, W. rewrite E2. apply Forall_app in A as [A1 A2]. inversion_clear A2 as [|? ? A3 A4].
    apply Forall_app in W as [_ W]. inversion_clear W.
    destruct (bexec_fields _ _ _ _ _ _ _ _ Ha Hc H X) as (_ & P & _).
    apply Forall_app. split; [assumption|]. constructor; [|assumption]. destruct c'; now rewrite P.
  - rewrite E1 in A. rewrite E2. apply Forall_app in A as [A1 A2]. inversion_clear A2 as [|? ? A3 A4].
    apply Forall_app. split; [assumption|]. now constructor.
  - destruct Hk.
  - rewrite E1 in A. rewrite E2. apply Forall_app in A as [A1 A2]. apply Forall_app. split; [assumption|].
    constructor; [|assumption]. destruct (from_file_canon _ _ _ _ X) as (cp' & Hc' & Hp & _).
    exists cp'. rewrite stamp_path. split; [assumption|]. apply (LT p). rewrite <- HT.
    unfold fs_canon in Hc'. destruct (fs_target f p) as [q|]; [|discriminate]. destruct (fs_node f q); [|discriminate]. exact Hc'.
  - rewrite E1 in A. rewrite E2. apply Forall_app in A as [A1 A2]. inversion_clear A2.
    apply Forall_app. now split.
Qed.

Lemma wcall_targets brk al c w f o w' f' : keeps_links (fs_target f) c -> wexec brk al c w f = Ok (o, w', f') ->
  fs_target f' = fs_target f.
Proof.
  intros Hk E. destruct c as [b|p| | | |c| |p|ss|g]; cbn [wexec] in E.
  6: { destruct (w_current w) as [b|]; [|now injection E as _ _ <-].
       destruct (bexec brk al c b f) as [[[o1 b1] f1]|] eqn:X; [|discriminate]. cbn [bind] in E. injection E as _ _ <-.
       destruct c; cbn [keeps_links] in Hk;
         first [refine (proj1 (call_disk _ _ _ _ _ _ _ _ _ X)); exact I|cbn [bexec] in X; injection X as _ _ <-; first [reflexivity|exact Hk]]. }
  9: { injection E as _ _ <-. exact Hk. }
  all: revert E; repeat match goal with
    | |- context[bind ?m _] => destruct m as [x|]; cbn [bind]; [try destruct x|discriminate]
    | |- context[let '(_, _) := ?m in _] => destruct m
    end; intros E; now injection E as _ _ <-.
Qed.

Lemma run_apart brk T : (forall p q, T p = Some q -> T q = Some q) ->
  forall cs w s f os w' f', sim w s -> Forall wfb (s_buffers s) -> apart T s -> fs_target f = T ->
    Forall (fun ac => alloc_ok (fst ac) /\ wcall_ok brk (snd ac) /\ only_opens (snd ac) /\ keeps_links T (snd ac)) cs ->
    wrun brk cs w f = Ok (os, w', f') ->
    exists s', sim w' s' /\ Forall wfb (s_buffers s') /\ apart T s' /\ fs_target f' = T.
Proof.
  intros LT cs. induction cs as [|[al c] cs IH]; intros w s f os w' f' S W HQ HT F E; cbn [wrun] in E.
  - injection E as <- <- <-. eauto.
  - apply Forall_cons_iff in F as [(Ha & Hc & HP & HL) F']. cbn [fst snd] in *.
    pose proof (wexec_sim brk al c w s f S) as X. pose proof (sim_sel_ok _ _ S) as So.
    destruct (spec_wcall brk al c s f) as [[[o s1] f1]|] eqn:Es; [|rewrite X in E; discriminate].
    destruct X as (w1 & E1 & S1). rewrite E1 in E. cbn [bind] in E.
    destruct (wrun brk cs w1 f1) as [[[os2 w2] f2]|] eqn:E2; [|discriminate]. cbn [bind] in E. injection E as <- <- <-.
    pose proof (spec_changed _ _ _ _ _ _ _ _ So Es) as Ch. subst T.
    eapply IH; try eassumption; [eapply wfb_changed; eassumption|eapply apart_changed; try eassumption; reflexivity|].
    eapply wcall_targets; eassumption.
Qed.

(** The files of two open buffers are different. *)
Lemma files_apart brk f0 p ss w0 cs os w f : links_settle f0 -> ws_new f0 p (Some ss) = ROk w0 ->
  Forall (fun ac => alloc_ok (fst ac) /\ wcall_ok brk (snd ac) /\ only_opens (snd ac) /\
                    keeps_links (fs_target f0) (snd ac)) cs ->
  wrun brk cs w0 f0 = Ok (os, w, f) ->
  forall i j bi bj pi pj, nth_error (open_buffers w) i = Some bi -> nth_error (open_buffers w) j = Some bj ->
    b_path bi = Some pi -> b_path bj = Some pj -> same_file f pi pj -> i = j.
Proof.
  intros L En F E. destruct (new_sim _ _ _ _ En) as (cp & _ & S0).
  destruct (run_apart brk (fs_target f0) L cs w0 _ f0 os w f S0) as (s & S & W & [A N] & T); try assumption; try reflexivity; try constructor; try constructor.
  destruct (sim_shows _ _ S) as [_ O]. rewrite O. intros i j bi bj pi pj Hi Hj Pi Pj Sf.
  rewrite Forall_forall in A. destruct (A _ (nth_error_In _ _ Hi)) as (qi & Qi & Ti).
  destruct (A _ (nth_error_In _ _ Hj)) as (qj & Qj & Tj).
  assert (pi = pj). { unfold same_file in Sf. rewrite T in Sf. congruence. } subst pj.
  apply (proj1 (NoDup_nth_error _) N).
  - apply nth_error_Some. erewrite map_nth_error by eassumption. discriminate.
  - rewrite (map_nth_error b_path _ _ Hi), (map_nth_error b_path _ _ Hj). congruence.
Qed.

(** So a save never touches the file of another open buffer. *)
Lemma saves_apart brk f0 p ss w0 cs os w f wr al o w' f' : links_settle f0 -> ws_new f0 p (Some ss) = ROk w0 ->
  Forall (fun ac => alloc_ok (fst ac) /\ wcall_ok brk (snd ac) /\ only_opens (snd ac) /\
                    keeps_links (fs_target f0) (snd ac)) cs ->
  wrun brk cs w0 f0 = Ok (os, w, f) -> wexec brk al (WEdit (BSave wr)) w f = Ok (o, w', f') ->
  forall i b q, nth_error (open_buffers w) i = Some b -> current_buffer_index w <> Some i ->
    b_path b = Some q -> fs_read f' q = fs_read f q.
Proof.
  intros L En F E E1 i b q Hi Hn Hq. pose proof (files_apart _ _ _ _ _ _ _ _ _ L En F E) as A.
  destruct (new_sim _ _ _ _ En) as (cp & _ & S0).
  destruct (run_apart brk (fs_target f0) L cs w0 _ f0 os w f S0) as (s & S & _); try assumption; try reflexivity; try constructor; try constructor.
  destruct (sim_shows _ _ S) as [(_ & _ & Cu & Ci & _) O].
  cbn [wexec] in E1. destruct (w_current w) as [c|] eqn:Ec; [|now injection E1 as _ _ <-].
  destruct (bexec brk al (BSave wr) c f) as [[[o1 b1] f1]|] eqn:X; [|discriminate]. cbn [bind] in E1. injection E1 as _ _ <-.
  apply (call_disk _ _ (BSave wr) _ _ _ _ _ I X). intros p1 P1 Sf. symmetry in Cu.
  destruct (selected_split _ _ Cu) as (pre & post & B & I1). apply Hn. rewrite Ci, I1. f_equal.
  apply (A _ _ c b p1 q); try assumption.
  - rewrite O, B. rewrite nth_error_app2 by lia. now rewrite Nat.sub_diag.
  - now symmetry.
Qed.
