(** Proofs about failing calls. *)
From Verif Require Import Base Utf8 Grapheme Position GapBuffer Cursor PathModel Buffer Spec
  BufferCalls Workspace WorkspaceSpec WorkspaceProofs WorkspaceProps BufferIoProps FailSpec.

Lemma edit_fails brk al c b f e b' f' : bexec brk al c b f = Ok (BResult (RErr e), b', f') ->
  b' = b /\
  match c with
  | BSave answer => e = IoError /\ (forall p, b_path b = Some p -> fs_creatable f p = false \/ answer <> WriteSucceeds)
  | BReload => f' = f /\ match b_path b with None => e = MissingPath | Some p => e = IoError /\ read_to_string f p = None end
  | _ => False
  end.
Proof.
  destruct c; cbn [bexec]; intros E.
  all: try (match type of E with context [bind ?m _] => destruct m as [x|]; [|discriminate]; try destruct x; discriminate end).
  all: try discriminate.
  - unfold buf_save, outcome in E. destruct (b_path b) as [p|].
    2:{ cbn in E. injection E as <- <- <-. split; [reflexivity|]. split; [reflexivity|]. intros p' [=]. }
    destruct (fs_creatable f p) eqn:Ec.
    2:{ cbn in E. injection E as <- <- <-. split; [reflexivity|]. split; [reflexivity|]. intros p' [= <-]. now left. }
    destruct w; [| |].
    + cbn in E. injection E as <- <- <-. split; [reflexivity|]. split; [reflexivity|]. intros p' _. right. discriminate.
    + destruct (buf_data b); [|discriminate]. cbn in E. injection E as <- <- <-. split; [reflexivity|]. split; [reflexivity|]. intros p' _. right. discriminate.
    + destruct (buf_data b); discriminate.
  - unfold buf_reload in E. destruct (b_path b) as [p|].
    2:{ cbn in E. injection E as <- <- <-. auto. }
    destruct (read_to_string f p) as [t|]; [|cbn in E; injection E as <- <- <-; auto].
    destruct (buf_replace brk al b t); discriminate.
Qed.

Lemma open_error al f w p e w' : open_buffer al f w p = Ok (RErr e, w') -> e = IoError.
Proof.
  intros Eo. unfold open_buffer in Eo. destruct (select_buffer_by_path al f w p) as [[[|] w1]|]; [discriminate| |discriminate]. cbn [bind] in Eo.
  unfold from_file in Eo. destruct (read_to_string f p) as [t|]; [|cbn in Eo; congruence]. destruct (gb_new al t); [|discriminate]. cbn [bind] in Eo.
  destruct (fs_canon f p); [|cbn in Eo; congruence]. cbn [bind] in Eo. destruct (add_buffer al w1 _); discriminate.
Qed.
Lemma read_canon f p t : read_to_string f p = Some t -> exists cp, fs_canon f p = Some cp.
Proof.
  unfold read_to_string, fs_read, fs_canon. destruct (fs_target f p) as [q|]; [|discriminate].
  destruct (fs_node f q) as [[bs|]|]; try discriminate. intros _. now exists q.
Qed.
Lemma syntax_error w e w' : update_current_syntax w = (RErr e, w') -> w_current w = None /\ e = EmptyWorkspace /\ w' = w.
Proof. unfold update_current_syntax. destruct (w_current w); [discriminate|]. intros [= <- <-]. auto. Qed.
Lemma nothing_open brk w f : reachable_workspace brk any w f -> (w_current w = None <-> open_buffers w = []).
Proof.
  intros R. destruct (selection brk w f R) as [_ S]. destruct (current_buffer_index w) as [i|].
  - destruct S as (b & -> & N). split; [discriminate|]. intros X. rewrite X in N. now destruct i.
  - destruct S as [-> ->]. tauto.
Qed.
Lemma same_current w b : w_current w = Some b ->
  WS (w_path w) (w_buffers w) (w_next_id w) (Some b) (w_index w) (w_syntaxes w) = w.
Proof. intros E. destruct w; cbn in *. now rewrite E. Qed.
Lemma save_elsewhere f wo b e b' f' p : b_path b = Some p ->
  buf_save f wo b = Ok (RErr e, b', f') -> forall p', ~ same_file f p' p -> fs_read f' p' = fs_read f p'.
Proof.
  intros Ep E p' N. unfold buf_save in E. rewrite Ep in E. destruct (outcome f p wo); [congruence| |].
  - destruct (buf_data b); [|discriminate]. cbn in E. injection E as _ _ <-. now apply write_others.
  - destruct (buf_data b); discriminate.
Qed.

(** A call that fails leaves the workspace as it was, and the disk, but for the
    file that a save writes to. *)
Theorem failed_call : forall brk al c w f o e w' f', 
  wexec brk al c w f = Ok (o, w', f') -> error_of o = Some e ->
  w' = w /\ (is_save c = false -> f' = f) /\
  (forall p, writes_to w c p -> forall p', ~ same_file f p' p -> fs_read f' p' = fs_read f p').
Proof.
  intros brk al c w f o e w' f' E He. destruct c; cbn [wexec] in E.
  - destruct (add_buffer al w b); [|discriminate]. injection E as <- <- <-. discriminate.
  - destruct (open_buffer al f w p) as [[r w1]|] eqn:Eo; [|discriminate]. cbn [bind] in E. injection E as <- <- <-.
    cbn in He. destruct r as [|e']; [discriminate|]. injection He as ->. pose proof (failing_open _ _ _ _ _ _ Eo) as ->.
    split; [reflexivity|]. split; [reflexivity|]. intros q [].
  - destruct (close_current_buffer al w); [|discriminate]. injection E as <- <- <-. discriminate.
  - destruct (next_buffer al w); [|discriminate]. injection E as <- <- <-. discriminate.
  - destruct (previous_buffer al w); [|discriminate]. injection E as <- <- <-. discriminate.
  - destruct (w_current w) as [b|] eqn:Ew; [|injection E as <- <- <-; discriminate].
    destruct (bexec brk al c b f) as [[[bo b1] f1]|] eqn:Eb; [|discriminate]. cbn [bind] in E. injection E as <- <- <-.
    cbn in He. destruct bo as [|[|e']]; try discriminate. injection He as ->. destruct (edit_fails _ _ _ _ _ _ _ _ Eb) as [-> H].
    split; [now apply same_current|]. destruct c; try (exfalso; exact H).
    + split; [discriminate|]. intros p (b' & Eb' & Ep) p' N. rewrite Ew in Eb'. injection Eb' as <-. cbn [bexec] in Eb.
      destruct (buf_save f w0 b) as [[[r b2] f2]|] eqn:Es; [|discriminate]. cbn [bind] in Eb. injection Eb as -> -> ->.
      now apply (save_elsewhere f w0 b e b f1 p Ep Es).
    + destruct H as [-> _]. split; [reflexivity|]. intros p [].
  - destruct (update_current_syntax w) as [r w1] eqn:Eu. injection E as <- <- <-. cbn in He. destruct r as [|e']; [discriminate|]. injection He as ->.
    destruct (syntax_error _ _ _ Eu) as (_ & _ & ->). split; [reflexivity|]. split; [reflexivity|]. intros p [].
  - injection E as <- <- <-. discriminate.
  - injection E as <- <- <-. discriminate.
  - injection E as <- <- <-. discriminate.
Qed.

(** Calls fail exactly for their reasons. *)
Theorem fails_exactly : forall brk al c w f o w' f', reachable_workspace brk any w f ->
  wexec brk al c w f = Ok (o, w', f') -> forall e, error_of o = Some e <-> reason w f c e.
Proof.
  intros brk al c w f o w' f' R E e. destruct c; cbn [wexec] in E; cbn [reason].
  - destruct (add_buffer al w b); [|discriminate]. injection E as <- <- <-. now split.
  - destruct (open_buffer al f w p) as [[r w1]|] eqn:Eo; [|discriminate]. cbn [bind] in E. injection E as <- <- <-.
    destruct (open_fails_when brk al f w p R) as [H1 H2]. split.
    + intros He. cbn in He. destruct r as [|e']; [discriminate|]. injection He as ->.
      assert (N : ~ (exists cp, fs_canon f p = Some cp /\ ((exists b, In b (open_buffers w) /\ b_path b = Some cp) \/ read_to_string f p <> None))).
      { intros X. destruct (H1 X) as (w' & Ew). rewrite Ew in Eo. discriminate. }
      split; [exact (open_error _ _ _ _ _ _ Eo)|]. split.
      * destruct (read_to_string f p) as [t|] eqn:Et; [|reflexivity]. exfalso. apply N.
        destruct (read_canon f p t Et) as (cp & Ec). exists cp. split; [exact Ec|]. right. discriminate.
      * intros b cp Hb Hp Hc. apply N. exists cp. eauto.
    + intros (-> & Er & Hn). destruct H2 as (w2 & E2).
      { intros cp Hc. split; [|exact Er]. intros b Hb Hp. now apply (Hn b cp). }
      rewrite E2 in Eo. injection Eo as <- _. reflexivity.
  - destruct (close_current_buffer al w); [|discriminate]. injection E as <- <- <-. now split.
  - destruct (next_buffer al w); [|discriminate]. injection E as <- <- <-. now split.
  - destruct (previous_buffer al w); [|discriminate]. injection E as <- <- <-. now split.
  - destruct (w_current w) as [b|] eqn:Ew.
    2:{ injection E as <- <- <-. split; [discriminate|]. destruct c; try easy.
        - intros (_ & b & X & _). discriminate.
        - intros (b & X & _). discriminate. }
    destruct (bexec brk al c b f) as [[[bo b1] f1]|] eqn:Eb; [|discriminate]. cbn [bind] in E. injection E as <- <- <-. split.
    + intros He. cbn in He. destruct bo as [|[|e']]; try discriminate. injection He as ->. destruct (edit_fails _ _ _ _ _ _ _ _ Eb) as [-> H].
      destruct c; try (exfalso; exact H).
      * destruct H as [He H]. split; [exact He|]. eauto.
      * destruct H as [_ H]. eauto.
    + destruct c; try easy; cbn [bexec] in Eb.
      * intros (-> & b' & [= <-] & H). unfold buf_save, outcome in Eb. destruct (b_path b) as [p|]; [|cbn in Eb; injection Eb as <- _ _; reflexivity].
        destruct (fs_creatable f p) eqn:Ec; [|cbn in Eb; injection Eb as <- _ _; reflexivity].
        destruct (H p eq_refl) as [X|X]; [rewrite X in Ec; discriminate|]. destruct w0; [cbn in Eb; injection Eb as <- _ _; reflexivity| |now destruct X].
        destruct (buf_data b); [|discriminate]. cbn in Eb. injection Eb as <- _ _. reflexivity.
      * intros (b' & [= <-] & H). unfold buf_reload in Eb. destruct (b_path b) as [p|]; [|subst e; cbn in Eb; injection Eb as <- _ _; reflexivity].
        destruct H as [-> H]. rewrite H in Eb. cbn in Eb. injection Eb as <- _ _. reflexivity.
  - destruct (update_current_syntax w) as [r w1] eqn:Eu. injection E as <- <- <-. rewrite <- (nothing_open brk w f R). split.
    + intros He. cbn in He. destruct r as [|e']; [discriminate|]. injection He as ->. destruct (syntax_error _ _ _ Eu) as (H1 & H2 & _). auto.
    + intros [-> H]. unfold update_current_syntax in Eu. rewrite H in Eu. injection Eu as <- _. reflexivity.
  - injection E as <- <- <-. now split.
  - injection E as <- <- <-. now split.
  - injection E as <- <- <-. now split.
Qed.

(** A session goes on as if calls that failed had not been made. *)
Lemma wrun_app brk cs1 cs2 : forall w f, wrun brk (cs1 ++ cs2) w f =
  let* (os1, w1, f1) := wrun brk cs1 w f in let* (os2, w2, f2) := wrun brk cs2 w1 f1 in Ok (os1 ++ os2, w2, f2).
Proof.
  induction cs1 as [|[al c] cs1 IH]; intros w f; cbn [app wrun].
  - cbn [bind]. destruct (wrun brk cs2 w f) as [[[os2 w2] f2]|]; reflexivity.
  - destruct (wexec brk al c w f) as [[[o w1] f1]|]; [|reflexivity]. cbn [bind]. rewrite IH.
    destruct (wrun brk cs1 w1 f1) as [[[os1 w2] f2]|]; [|reflexivity]. cbn [bind].
    destruct (wrun brk cs2 w2 f2) as [[[os2 w3] f3]|]; reflexivity.
Qed.
Theorem goes_on : forall brk cs1 al c cs2 w f os1 w1 f1 o w2 f2 e, is_save c = false ->
  wrun brk cs1 w f = Ok (os1, w1, f1) -> wexec brk al c w1 f1 = Ok (o, w2, f2) -> error_of o = Some e ->
  forall os2 w' f', wrun brk cs2 w1 f1 = Ok (os2, w', f') ->
  wrun brk (cs1 ++ cs2) w f = Ok (os1 ++ os2, w', f') /\
  wrun brk (cs1 ++ (al, c) :: cs2) w f = Ok (os1 ++ o :: os2, w', f').
Proof.
  intros brk cs1 al c cs2 w f os1 w1 f1 o w2 f2 e Hs E1 E2 He os2 w' f' E3.
  destruct (failed_call brk al c w1 f1 o e w2 f2 E2 He) as (-> & Hf & _). rewrite (Hf Hs) in E2.
  rewrite !wrun_app, E1. cbn [bind wrun]. rewrite E2. cbn [bind]. rewrite E3. now split.
Qed.
