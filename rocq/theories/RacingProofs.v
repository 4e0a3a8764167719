(** Opening files while the disk changes: Racing.v. *)
From Verif Require Import Base Utf8 Utf8Proofs Grapheme GraphemeProofs Position GapBuffer
  GapBufferProofs Cursor PathModel Buffer Spec CursorSpec Calls CursorCalls TextProofs UaxProofs HalvesProofs TextFacts
  GapProps CursorProofs OpProofs BufferCalls Timeline TimelineProofs AnyTextProofs BufferProps
  BufferIoProps BufferFacts Token Workspace WorkspaceSpec WorkspaceProofs WorkspaceProps FileProofs Racing.

(** With one disk the calls are those of Buffer.v and Workspace.v. *)
Lemma from_file_still al f p : from_file_racing al f f p = from_file al f p.
Proof. reflexivity. Qed.
Lemma open_still al f w p : open_buffer_racing al f f f w p = open_buffer al f w p.
Proof. reflexivity. Qed.

(** What was read, under the name it had afterwards. *)
Definition patched (f1 f2 : fsys) (p : path) : fsys :=
  FS (fun x => fs_target f2 x) (fun q => if path_is (fs_target f2 p) q then match fs_read f1 p with Some bs => Some (Regular bs) | None => None end else fs_node f2 q).
Lemma path_is_refl p : path_is (Some p) p = true.
Proof. unfold path_is, path_eqb. now destruct (path_eq_dec p p). Qed.
Lemma patched_read f1 f2 p b al : from_file_racing al f1 f2 p = Ok (ROk b) -> from_file al (patched f1 f2 p) p = Ok (ROk b).
Proof.
  unfold from_file_racing, from_file, read_to_string. destruct (fs_read f1 p) as [bs|] eqn:Er; [|discriminate].
  unfold fs_canon. destruct (fs_target f2 p) as [q|] eqn:Et.
  - intros H. assert (X : fs_read (patched f1 f2 p) p = Some bs).
    { unfold fs_read, patched. cbn [fs_target fs_node]. now rewrite Et, path_is_refl, Er. }
    rewrite X. destruct (decode_strict bs) as [t|]; [|discriminate].
    destruct (gb_new al t); [|discriminate]. cbn [bind] in *. cbn [patched fs_target fs_node]. rewrite Et, path_is_refl, Er.
    destruct (fs_node f2 q); [assumption|discriminate].
  - destruct (decode_strict bs) as [t|]; [|discriminate]. now destruct (gb_new al t).
Qed.
Lemma racing_total al f1 f2 p : exists r, from_file_racing al f1 f2 p = Ok r.
Proof.
  unfold from_file_racing. destruct (read_to_string f1 p) as [s|] eqn:Ef; [|eauto].
  assert (V : valid_text s).
  { unfold read_to_string in Ef. destruct (fs_read f1 p); [|discriminate]. now apply decode_strict_valid in Ef as [? _]. }
  destruct (new_ok al s V) as (g & Eg & _). rewrite Eg. cbn [bind]. destruct (fs_canon f2 p); eauto.
Qed.

(** What is loaded. *)
Lemma racing_loads al f1 f2 p : match from_file_racing al f1 f2 p with
  | Ok (ROk b) => exists t cp, read_to_string f1 p = Some t /\ fs_canon f2 p = Some cp /\
      buf_data b = Ok t /\ b_path b = Some cp /\ buf_modified b = false /\ c_pos (b_cursor b) = Pos 0 0
  | Ok (RErr e) => e = IoError /\ (read_to_string f1 p = None \/ fs_canon f2 p = None)
  | Panic => False
  end.
Proof.
  unfold from_file_racing. destruct (read_to_string f1 p) as [s|] eqn:Ef; [|auto].
  assert (V : valid_text s).
  { unfold read_to_string in Ef. destruct (fs_read f1 p); [|discriminate]. now apply decode_strict_valid in Ef as [? _]. }
  destruct (new_ok al s V) as (g & Eg & R). rewrite Eg. cbn [bind]. destruct (fs_canon f2 p) as [cp|]; [|auto].
  exists s, cp. apply to_string_ok in R. rewrite app_nil_r in R. repeat split; try reflexivity. exact R.
Qed.

(** If the links stay, the file is loaded as it was at one of the two moments. *)
Lemma racing_load_atomic al f1 f2 p : fs_target f1 p = fs_target f2 p ->
  from_file_racing al f1 f2 p = from_file al f1 p \/ from_file_racing al f1 f2 p = from_file al f2 p.
Proof.
  intros T. unfold from_file_racing, from_file. destruct (read_to_string f1 p) as [s|] eqn:E1; [|auto].
  assert (C1 : fs_canon f1 p = fs_target f1 p).
  { unfold read_to_string, fs_read in E1. unfold fs_canon. destruct (fs_target f1 p) as [q|]; [|discriminate].
    now destruct (fs_node f1 q). }
  assert (N : fs_target f1 p <> None).
  { unfold read_to_string, fs_read in E1. now destruct (fs_target f1 p). }
  destruct (fs_canon f2 p) as [cp|] eqn:E2.
  - left. rewrite C1, T. unfold fs_canon in E2. destruct (fs_target f2 p) as [q|]; [|discriminate].
    destruct (fs_node f2 q); [|discriminate]. now injection E2 as ->.
  - right. assert (read_to_string f2 p = None) as ->.
    { unfold read_to_string, fs_read. unfold fs_canon in E2. destruct (fs_target f2 p) as [q|]; [|reflexivity].
      now destruct (fs_node f2 q). }
    assert (V : valid_text s).
    { unfold read_to_string in E1. destruct (fs_read f1 p); [|discriminate]. now apply decode_strict_valid in E1 as [? _]. }
    destruct (new_ok al s V) as (g & Eg & _). now rewrite Eg.
Qed.

(** Nothing is found. *)
Lemma select_none al f w s p : sim w s ->
  match fs_canon f p with
  | Some cp => Forall (fun b => has_path cp b = false) (s_buffers s)
  | None => True
  end -> select_buffer_by_path al f w p = Ok (false, w).
Proof.
  intros S H. unfold select_buffer_by_path. destruct (fs_canon f p) as [cp|]; [|reflexivity].
  destruct S as [p0 n ss|p0 pre blank post n b ss Hb]; [reflexivity|].
  cbn [w_current w_buffers s_buffers] in *. rewrite path_is_has.
  apply Forall_app in H as [H1 H2]. inversion_clear H2 as [|? ? H3 H4]. rewrite H3, find_first.
  assert (X : first_with cp (pre ++ blank :: post) = None).
  { clear - Hb H1 H4. assert (Y : has_path cp blank = false) by (unfold has_path; destruct Hb as [-> _]; reflexivity).
    assert (Z : Forall (fun b => has_path cp b = false) (pre ++ blank :: post)).
    { apply Forall_app. split; [assumption|]. now constructor. }
    induction Z as [|x l Hx Z IH]; [reflexivity|]. cbn [first_with]. now rewrite Hx, IH. }
  now rewrite X.
Qed.
Lemma not_found al f w s p w1 : sim w s -> select_buffer_by_path al f w p = Ok (false, w1) ->
  w1 = w /\ forall cp, fs_canon f p = Some cp -> Forall (fun b => has_path cp b = false) (s_buffers s).
Proof.
  intros S. unfold select_buffer_by_path. destruct (fs_canon f p) as [cp|]; [|intros [= <-]; split; [reflexivity|discriminate]].
  destruct S as [p0 n ss|p0 pre blank post n b ss Hb].
  - intros [= <-]. split; [reflexivity|]. constructor.
  - cbn [w_current w_buffers s_buffers]. rewrite path_is_has. destruct (has_path cp b) eqn:Hp; [discriminate|].
    rewrite find_first. assert (Y : has_path cp blank = false) by (unfold has_path; destruct Hb as [-> _]; reflexivity).
    destruct (first_with cp (pre ++ blank :: post)) as [i|] eqn:Ei.
    + destruct (first_bound _ _ _ Ei) as (x & Hx & _).
      destruct (check_in al p0 pre blank post n b ss i) as (w' & E & _).
      { rewrite app_length. assert (i < length (pre ++ blank :: post)) by (apply nth_error_Some; congruence).
        rewrite app_length in H. exact H. }
      rewrite E. discriminate.
    + intros [= <-]. split; [reflexivity|]. intros cp' [= <-]. apply first_none in Ei.
      apply Forall_app in Ei as [E1 E2]. inversion_clear E2. apply Forall_app. split; [assumption|]. now constructor.
Qed.
Lemma found_total al f w s p : sim w s -> exists r, select_buffer_by_path al f w p = Ok r.
Proof.
  intros S. unfold select_buffer_by_path. destruct (fs_canon f p) as [cp|]; [|eauto].
  destruct S as [p0 n ss|p0 pre blank post n b ss Hb]; [cbn; eauto|].
  cbn [w_current w_buffers s_buffers]. rewrite path_is_has. destruct (has_path cp b) eqn:Hp; [eauto|].
  rewrite find_first. destruct (first_with cp (pre ++ blank :: post)) as [i|] eqn:Ei; [|eauto].
  destruct (first_bound _ _ _ Ei) as (x & Hx & _).
  destruct (check_in al p0 pre blank post n b ss i) as (w' & E & _); [|eauto].
  rewrite app_length. assert (i < length (pre ++ blank :: post)) by (apply nth_error_Some; congruence).
  rewrite app_length in H. exact H.
Qed.

Lemma has_path_iff cp b : has_path cp b = true <-> b_path b = Some cp.
Proof.
  unfold has_path. destruct (b_path b) as [q|]; [|split; discriminate].
  destruct (path_eq_dec q cp) as [->|N]; split; congruence.
Qed.

(** A steady open is an open at one of the three moments. *)
Lemma racing_open_atomic al f0 f1 f2 w s p : sim w s -> steady w (ROpen f0 f1 f2 p) ->
  open_buffer_racing al f0 f1 f2 w p = open_buffer al f0 w p \/
  open_buffer_racing al f0 f1 f2 w p = open_buffer al f1 w p \/
  open_buffer_racing al f0 f1 f2 w p = open_buffer al f2 w p.
Proof.
  intros S (T1 & T2 & N). destruct (sim_shows _ _ S) as [_ O].
  unfold open_buffer_racing, open_buffer.
  destruct (found_total al f0 w s p S) as ([found w1] & E0). rewrite E0. cbn [bind].
  destruct found; [auto|]. destruct (not_found _ _ _ _ _ _ S E0) as [-> F0].
  assert (F : forall f, fs_target f p = fs_target f0 p -> select_buffer_by_path al f w p = Ok (false, w)).
  { intros f T. apply (select_none al f w s p S). destruct (fs_canon f p) as [cp|] eqn:Ec; [|exact I].
    assert (T' : fs_target f0 p = Some cp).
    { rewrite <- T. unfold fs_canon in Ec. destruct (fs_target f p) as [q|]; [|discriminate]. now destruct (fs_node f q). }
    destruct (fs_canon f0 p) as [c0|] eqn:E.
    - assert (c0 = cp) as <-; [|now apply F0].
      unfold fs_canon in E. rewrite T' in E. destruct (fs_node f0 cp); [|discriminate]. now injection E.
    - apply Forall_forall. intros b Hb. destruct (has_path cp b) eqn:Hp; [|reflexivity]. exfalso.
      apply has_path_iff in Hp. rewrite <- O in Hb. apply (N eq_refl b cp Hb Hp). congruence. }
  destruct (racing_load_atomic al f1 f2 p T2) as [->| ->]; right.
  - left. rewrite (F f1) by congruence. reflexivity.
  - right. rewrite (F f2) by congruence. reflexivity.
Qed.

(** Any racing open is an open, or adds a loaded buffer. *)
Lemma racing_open_any al f0 f1 f2 w s p r w' : sim w s -> open_buffer_racing al f0 f1 f2 w p = Ok (r, w') ->
  open_buffer al f0 w p = Ok (r, w') \/ (exists e, r = RErr e /\ w' = w) \/
  exists b, fresh_buffer (patched f1 f2 p) b /\ r = ROk tt /\ add_buffer al w b = Ok w'.
Proof.
  intros S. unfold open_buffer_racing, open_buffer.
  destruct (found_total al f0 w s p S) as ([found w1] & E0). rewrite E0. cbn [bind].
  destruct found; [auto|]. destruct (not_found _ _ _ _ _ _ S E0) as [-> _].
  destruct (racing_total al f1 f2 p) as ([b|e] & E); rewrite E; cbn [bind].
  - destruct (add_sim al w s b S) as (w2 & Ea & _). rewrite Ea. cbn [bind]. intros [= <- <-]. right. right.
    exists b. split; [|now split]. right. exists al, p. now apply patched_read.
  - intros [= <- <-]. right. left. eauto.
Qed.

Lemma wrun_app brk cs1 : forall cs2 w f, wrun brk (cs1 ++ cs2) w f =
  let* (os1, w1, f1) := wrun brk cs1 w f in
  let* (os2, w2, f2) := wrun brk cs2 w1 f1 in Ok (os1 ++ os2, w2, f2).
Proof.
  induction cs1 as [|[al c] cs1 IH]; intros cs2 w f; cbn [app wrun].
  - cbn [bind]. now destruct (wrun brk cs2 w f) as [[[os w1] f1]|].
  - destruct (wexec brk al c w f) as [[[o w1] f1]|]; cbn [bind]; [|reflexivity]. rewrite IH.
    destruct (wrun brk cs1 w1 f1) as [[[os1 w2] f2]|]; cbn [bind]; [|reflexivity].
    now destruct (wrun brk cs2 w2 f2) as [[[os2 w3] f3]|].
Qed.
Lemma reachable_more brk P w f cs os w' f' : reachable_workspace brk P w f ->
  Forall (fun ac => alloc_ok (fst ac) /\ wcall_ok brk (snd ac) /\ P (snd ac)) cs ->
  wrun brk cs w f = Ok (os, w', f') -> reachable_workspace brk P w' f'.
Proof.
  intros (f0 & p & ss & w0 & cs0 & os0 & En & F & E) F' E'.
  exists f0, p, ss, w0, (cs0 ++ cs), (os0 ++ os). split; [assumption|]. split; [now apply Forall_app|].
  rewrite wrun_app, E. cbn [bind]. now rewrite E'.
Qed.
Lemma ok_alloc : alloc_ok (fun _ n => repeat 0%N n).
Proof. intros l n. now rewrite repeat_length. Qed.

(** Racing sessions are ordinary sessions, with buffers loaded elsewhere. *)
Lemma racing_ordinary brk w f : racing_workspace brk (fun _ _ => True) w f -> reachable_workspace brk any w f.
Proof.
  induction 1 as [f p ss w En|w f al c o w' f' _ R Ha Hc _ E].
  - exists f, p, ss, w, [], []. split; [assumption|]. split; [constructor|reflexivity].
  - destruct c as [c|f0 f1 f2 p]; cbn [rexec rcall_ok] in *.
    + apply (reachable_more brk any w f [(al, c)] [o] w' f' R).
      * constructor; [|constructor]. cbn [fst snd]. now repeat split.
      * cbn [wrun]. rewrite E. reflexivity.
    + destruct (reach_sim _ _ _ _ R) as (s & S & _).
      destruct (open_buffer_racing al f0 f1 f2 w p) as [[r w2]|] eqn:Eo; [|discriminate]. cbn [bind] in E. injection E as <- <- <-.
      destruct (racing_open_any _ _ _ _ _ _ _ _ _ S Eo) as [X|[(e & -> & ->)|(b & Fb & -> & X)]].
      * eapply (reachable_more brk any w f [(al, WDisk f0); (al, WOpen p); (al, WDisk f2)]); [exact R| |].
        -- repeat constructor; assumption.
        -- cbn [wrun wexec bind]. rewrite X. reflexivity.
      * eapply (reachable_more brk any w f [(al, WDisk f2)]); [exact R| |reflexivity]. repeat constructor; assumption.
      * eapply (reachable_more brk any w f [(al, WAdd b); (al, WDisk f2)]); [exact R| |].
        -- constructor; [|repeat constructor; assumption]. cbn [fst snd]. split; [assumption|]. split; [|exact I].
           exists (patched f1 f2 p). exists b, (patched f1 f2 p), [], []. split; [assumption|]. split; [constructor|reflexivity].
        -- cbn [wrun wexec]. rewrite X. reflexivity.
Qed.

(** Steady racing sessions are ordinary sessions of the same kind. *)
Lemma racing_steady brk (P : wcall -> Prop) w f :
  racing_workspace brk (fun w c => steady w c /\ moments P c) w f -> reachable_workspace brk P w f.
Proof.
  induction 1 as [f p ss w En|w f al c o w' f' _ R Ha Hc [Hs HP] E].
  - exists f, p, ss, w, [], []. split; [assumption|]. split; [constructor|reflexivity].
  - destruct c as [c|f0 f1 f2 p]; cbn [rexec rcall_ok] in *.
    + apply (reachable_more brk P w f [(al, c)] [o] w' f' R).
      * constructor; [|constructor]. cbn [fst snd]. now repeat split.
      * cbn [wrun]. rewrite E. reflexivity.
    + destruct (reach_sim _ _ _ _ R) as (s & S & _).
      destruct (open_buffer_racing al f0 f1 f2 w p) as [[r w2]|] eqn:Eo; [|discriminate]. cbn [bind] in E. injection E as <- <- <-.
      destruct HP as (P0 & P1 & P2 & PO).
      assert (X : exists g, P (WDisk g) /\ open_buffer al g w p = Ok (r, w2)).
      { destruct (racing_open_atomic al f0 f1 f2 w s p S Hs) as [X|[X|X]]; rewrite Eo in X; eauto. }
      destruct X as (g & Pg & X).
      eapply (reachable_more brk P w f [(al, WDisk g); (al, WOpen p); (al, WDisk f2)]); [exact R| |].
      * repeat (constructor; [cbn [fst snd]; split; [assumption|split; [exact I|auto]]|]). constructor.
      * cbn [wrun wexec bind]. rewrite X. reflexivity.
Qed.
Lemma racing_no_panic brk w f al f0 f1 f2 p : racing_workspace brk (fun _ _ => True) w f ->
  exists r w', open_buffer_racing al f0 f1 f2 w p = Ok (r, w').
Proof.
  intros R. destruct (reach_sim _ _ _ _ (racing_ordinary _ _ _ R)) as (s & S & _).
  unfold open_buffer_racing. destruct (found_total al f0 w s p S) as ([found w1] & E0). rewrite E0. cbn [bind].
  destruct found; [eauto|]. destruct (not_found _ _ _ _ _ _ S E0) as [-> _].
  destruct (racing_total al f1 f2 p) as ([b|e] & E); rewrite E; cbn [bind]; [|eauto].
  destruct (add_sim al w s b S) as (w2 & Ea & _). rewrite Ea. cbn [bind]. eauto.
Qed.

(** What a racing open does, whatever happens to the disk. *)
Lemma racing_opens brk w f al f0 f1 f2 p : racing_workspace brk (fun _ _ => True) w f ->
  match fs_canon f0 p with
  | Some cp => exists b, In b (open_buffers w) /\ b_path b = Some cp
  | None => False
  end /\ (exists w' b, open_buffer_racing al f0 f1 f2 w p = Ok (ROk tt, w') /\
      open_buffers w' = open_buffers w /\ w_current w' = Some b /\ b_path b = fs_canon f0 p)
  \/ (forall b cp, In b (open_buffers w) -> fs_canon f0 p = Some cp -> b_path b <> Some cp) /\
     match read_to_string f1 p, fs_canon f2 p with
     | Some t, Some cp => exists w' pre b post, open_buffer_racing al f0 f1 f2 w p = Ok (ROk tt, w') /\
         open_buffers w = pre ++ post /\ open_buffers w' = pre ++ b :: post /\
         w_current w' = Some b /\ b_path b = Some cp /\ buf_data b = Ok t /\ buf_modified b = false
     | _, _ => open_buffer_racing al f0 f1 f2 w p = Ok (RErr IoError, w)
     end.
Proof.
  intros R. pose proof (racing_ordinary _ _ _ R) as R'. destruct (reach_sim _ _ _ _ R') as (s & S & _).
  destruct (sim_shows _ _ S) as [V O].
  destruct (found_total al f0 w s p S) as ([found w1] & E0). destruct found.
  - left. assert (X : match fs_canon f0 p with Some cp => exists b, In b (open_buffers w) /\ b_path b = Some cp | None => False end).
    { destruct (fs_canon f0 p) as [cp|] eqn:Ec.
      - destruct (Forall_Exists_dec (fun b => has_path cp b = false) (fun b => bool_dec (has_path cp b) false) (s_buffers s)) as [F|F].
        + pose proof (select_none al f0 w s p S) as X. rewrite Ec in X. rewrite (X F) in E0. discriminate.
        + apply Exists_exists in F as (b & Hb & Hp). exists b. rewrite O. split; [assumption|]. apply has_path_iff.
          now destruct (has_path cp b).
      - unfold select_buffer_by_path in E0. now rewrite Ec in E0. }
    split; [exact X|]. destruct (fs_canon f0 p) as [cp|] eqn:Ec; [|easy]. destruct X as (b & Hb & Hp).
    assert (R0 : reachable_workspace brk any w f0).
    { eapply (reachable_more brk any w f [(fun _ n => repeat 0%N n, WDisk f0)]); [exact R'| |reflexivity].
      repeat constructor. apply ok_alloc. }
    destruct (reopen brk w f0 p cp b al R0 Ec Hb Hp) as (w' & b' & E & X1 & X2 & X3). exists w', b'.
    split; [|auto]. unfold open_buffer_racing. unfold open_buffer in E. rewrite E0 in *. exact E.
  - right. destruct (not_found _ _ _ _ _ _ S E0) as [-> F]. split.
    { intros b cp Hb Ec Hp. specialize (F cp Ec). rewrite Forall_forall in F. rewrite O in Hb. specialize (F b Hb).
      apply has_path_iff in Hp. congruence. }
    unfold open_buffer_racing. rewrite E0. cbn [bind]. pose proof (racing_loads al f1 f2 p) as L.
    destruct (racing_total al f1 f2 p) as ([b|e] & E); rewrite E in *; cbn [bind].
    + destruct L as (t & cp & L1 & L2 & L3 & L4 & L5 & _). rewrite L1, L2.
      destruct (add_sim al w s b S) as (w' & Ea & S'). rewrite Ea. cbn [bind].
      destruct (put_split s b) as (pre & post & E1 & E2 & _). destruct (sim_shows _ _ S') as [V' O'].
      exists w', pre, (stamp s b), post. rewrite O, O', E1, E2. destruct V' as (_ & _ & Vc' & _).
      rewrite Vc', put_selected by now apply (sim_sel_ok w). rewrite stamp_path. unfold buf_data in *. rewrite stamp_data.
      repeat (split; [first [reflexivity|assumption]|]). unfold stamp. now destruct (b_syntax b).
    + destruct L as [-> [L|L]]; rewrite L; [reflexivity|]. now destruct (read_to_string f1 p).
Qed.

Lemma racing_selects brk w f al f0 f1 f2 p cp b : racing_workspace brk (fun _ _ => True) w f ->
  fs_canon f0 p = Some cp -> In b (open_buffers w) -> b_path b = Some cp ->
  exists w' b', open_buffer_racing al f0 f1 f2 w p = Ok (ROk tt, w') /\
    open_buffers w' = open_buffers w /\ w_current w' = Some b' /\ b_path b' = Some cp.
Proof.
  intros R Ec Hb Hp. destruct (racing_opens brk w f al f0 f1 f2 p R) as [[_ (w' & b' & X)]|[X _]].
  - exists w', b'. now rewrite Ec in X.
  - now destruct (X b cp Hb Ec).
Qed.
Lemma racing_opens_new brk w f al f0 f1 f2 p : racing_workspace brk (fun _ _ => True) w f ->
  (forall b cp, In b (open_buffers w) -> fs_canon f0 p = Some cp -> b_path b <> Some cp) ->
  match read_to_string f1 p, fs_canon f2 p with
  | Some t, Some cp => exists w' pre b post, open_buffer_racing al f0 f1 f2 w p = Ok (ROk tt, w') /\
      open_buffers w = pre ++ post /\ open_buffers w' = pre ++ b :: post /\
      w_current w' = Some b /\ b_path b = Some cp /\ buf_data b = Ok t /\ buf_modified b = false
  | _, _ => open_buffer_racing al f0 f1 f2 w p = Ok (RErr IoError, w)
  end.
Proof.
  intros R N. destruct (racing_opens brk w f al f0 f1 f2 p R) as [[X _]|[_ X]]; [|exact X].
  destruct (fs_canon f0 p) as [cp|]; [|easy]. destruct X as (b & Hb & Hp). now destruct (N b cp Hb eq_refl).
Qed.

Lemma open_atomic brk w f al f0 f1 f2 p : racing_workspace brk (fun _ _ => True) w f ->
  steady w (ROpen f0 f1 f2 p) ->
  exists g, (g = f0 \/ g = f1 \/ g = f2) /\ open_buffer_racing al f0 f1 f2 w p = open_buffer al g w p.
Proof.
  intros R H. destruct (reach_sim _ _ _ _ (racing_ordinary _ _ _ R)) as (s & S & _).
  destruct (racing_open_atomic al f0 f1 f2 w s p S H) as [X|[X|X]]; eauto 6.
Qed.
Lemma racing_no_duplicates brk w f :
  racing_workspace brk (fun w c => steady w c /\ moments only_opens c) w f -> NoDup (map b_path (open_buffers w)).
Proof. intros R. eapply no_duplicates, racing_steady. exact R. Qed.

(** A session as a list of calls, for the examples. *)
Fixpoint rrun (brk : brk_rule) (al : allocator) (cs : list rcall) (w : workspace) (f : fsys)
  : res (workspace * fsys) :=
  match cs with
  | [] => Ok (w, f)
  | c :: r => let* (x, f') := rexec brk al c w f in rrun brk al r (snd x) f'
  end.
Fixpoint rall (brk : brk_rule) (al : allocator) (Q : workspace -> rcall -> Prop) (cs : list rcall)
  (w : workspace) (f : fsys) : Prop :=
  match cs with
  | [] => True
  | c :: r => rcall_ok brk c /\ Q w c /\
    match rexec brk al c w f with Ok (x, f') => rall brk al Q r (snd x) f' | Panic => False end
  end.
Lemma rrun_racing brk al (Q : workspace -> rcall -> Prop) : alloc_ok al ->
  forall cs w f w' f', racing_workspace brk Q w f ->
  rall brk al Q cs w f -> rrun brk al cs w f = Ok (w', f') -> racing_workspace brk Q w' f'.
Proof.
  intros A cs. induction cs as [|c r IH]; intros w f w' f' R H E; cbn in *.
  - now injection E as <- <-.
  - destruct H as (H1 & H2 & H3).
    destruct (rexec brk al c w f) as [[[o w1] f1]|] eqn:E1; [|easy]. cbn in *.
    eapply IH; [|exact H3|exact E]. eapply racing_step; eauto.
Qed.
