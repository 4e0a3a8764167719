(** Proofs about hard links. *)
From Verif Require Import Base Utf8 Grapheme Position GapBuffer Cursor PathModel Buffer Spec BufferCalls BufferIoProps
  Token Workspace WorkspaceSpec WorkspaceProps FileProofs SavingProofs HardLinks.

Lemma hard_save_seen h w new b : match hard_save h w new b with
  | Panic => buf_save (seen h) w b = Panic
  | Ok (r, b', _) => exists f', buf_save (seen h) w b = Ok (r, b', f')
  end.
Proof.
  unfold hard_save, buf_save. destruct (b_path b) as [p|]; [|eauto].
  destruct (outcome (seen h) p w); [eauto| |]; destruct (buf_data b); cbn [bind]; eauto.
Qed.

Lemma writes_nothing_disk brk al c w f o w' f' : writes_nothing c -> wexec brk al c w f = Ok (o, w', f') -> f' = f.
Proof.
  intros H E. destruct c as [b|p| | | |c| |p|ss|g]; cbn [wexec] in E; try (exfalso; exact H).
  - destruct (add_buffer al w b); cbn [bind] in E; [injection E as _ _ <-; reflexivity|discriminate].
  - destruct (open_buffer al f w p) as [[r w1]|]; cbn [bind] in E; [injection E as _ _ <-; reflexivity|discriminate].
  - destruct (close_current_buffer al w); cbn [bind] in E; [injection E as _ _ <-; reflexivity|discriminate].
  - destruct (next_buffer al w); cbn [bind] in E; [injection E as _ _ <-; reflexivity|discriminate].
  - destruct (previous_buffer al w); cbn [bind] in E; [injection E as _ _ <-; reflexivity|discriminate].
  - destruct (w_current w) as [b|]; [|injection E as _ _ <-; reflexivity].
    destruct (bexec brk al c b f) as [[[o1 b1] f1]|] eqn:X; cbn [bind] in E; [|discriminate]. injection E as _ _ <-.
    destruct c; cbn [bexec] in X; try (exfalso; exact H);
      try (injection X as _ _ <-; reflexivity);
      match type of X with context [let* _ := ?m in _] => destruct m as [y|]; cbn [bind] in X; [|discriminate] end;
      try destruct y as [y1 y2]; injection X as _ _ <-; reflexivity.
  - destruct (update_current_syntax w) as [r w1]. injection E as _ _ <-. reflexivity.
  - injection E as _ _ <-. reflexivity.
  - injection E as _ _ <-. reflexivity.
Qed.

Lemma wrun_app brk cs1 : forall cs2 w f, wrun brk (cs1 ++ cs2) w f =
  let* (os1, w1, f1) := wrun brk cs1 w f in let* (os2, w2, f2) := wrun brk cs2 w1 f1 in Ok (os1 ++ os2, w2, f2).
Proof.
  induction cs1 as [|[al c] cs1 IH]; intros cs2 w f; cbn [app wrun bind].
  - destruct (wrun brk cs2 w f) as [[[? ?] ?]|]; reflexivity.
  - destruct (wexec brk al c w f) as [[[o w1] f1]|]; cbn [bind]; [|reflexivity]. rewrite IH.
    destruct (wrun brk cs1 w1 f1) as [[[os1 w2] f2]|]; cbn [bind]; [|reflexivity].
    destruct (wrun brk cs2 w2 f2) as [[[os2 w3] f3]|]; reflexivity.
Qed.

Lemma hexec_calls brk al c w h o w' h' : hcall_ok brk c -> hexec brk al c w h = Ok (o, w', h') ->
  exists os, wrun brk (map (pair al) (same_call h' c)) w (seen h) = Ok (os, w', seen h') /\
    answers own_call (same_call h' c) os = answers own_hcall [c] [o] /\ length os = length (same_call h' c).
Proof.
  intros K E. destruct c as [c|wr new|g]; cbn [hexec same_call map wrun answers own_hcall] in *.
  - destruct (wexec brk al c w (seen h)) as [[[o1 w1] f1]|] eqn:X; cbn [bind] in E; [|discriminate].
    injection E as <- <- <-. rewrite (writes_nothing_disk _ _ _ _ _ _ _ _ (proj1 K) X). cbn [bind].
    exists [o1]. split; [reflexivity|]. split; [|reflexivity]. destruct K as [K _].
    destruct c; try (exfalso; exact K); reflexivity.
  - cbn [wexec]. destruct (w_current w) as [b|] eqn:Ec.
    + pose proof (hard_save_seen h wr new b) as S. destruct (hard_save h wr new b) as [[[r b'] h1]|]; cbn [bind] in E; [|discriminate].
      destruct S as (f' & S). injection E as <- <- <-. cbn [bexec]. rewrite S. cbn [bind].
      eexists. split; [reflexivity|]. split; reflexivity.
    + injection E as <- <- <-. cbn [bind]. eexists. split; [reflexivity|]. split; reflexivity.
  - injection E as <- <- <-. cbn [wexec bind]. eexists. split; [reflexivity|]. split; reflexivity.
Qed.

Lemma answers_app {A} (own : A -> bool) cs1 : forall cs2 os1 os2, length os1 = length cs1 ->
  answers own (cs1 ++ cs2) (os1 ++ os2) = answers own cs1 os1 ++ answers own cs2 os2.
Proof.
  induction cs1 as [|c cs1 IH]; intros cs2 [|o os1] os2 L; try discriminate; cbn in *; [reflexivity|].
  injection L as L. rewrite (IH _ _ _ L). now destruct (own c).
Qed.

Lemma write_targets h p bs new : hd_target (hd_write h p bs new) = hd_target h.
Proof. unfold hd_write. destruct (hd_target h p) as [q|]; [|reflexivity]. now destruct (hd_file h q). Qed.
Lemma save_targets h w new b r b' h' : hard_save h w new b = Ok (r, b', h') -> hd_target h' = hd_target h.
Proof.
  unfold hard_save. destruct (b_path b) as [p|]; [|intros E; now injection E as _ _ <-].
  destruct (outcome (seen h) p w); [intros E; now injection E as _ _ <-| |];
    (destruct (buf_data b); cbn [bind]; [|discriminate]; intros E; injection E as _ _ <-; apply write_targets).
Qed.
Lemma hexec_targets brk al c w h o w' h' : hexec brk al c w h = Ok (o, w', h') ->
  match c with HDisk g => h' = g | _ => hd_target h' = hd_target h end.
Proof.
  destruct c as [c|wr new|g]; cbn [hexec]; intros E.
  - destruct (wexec brk al c w (seen h)) as [[[? ?] ?]|]; cbn [bind] in E; [|discriminate]. now injection E as _ _ <-.
  - destruct (w_current w) as [b|]; [|now injection E as _ _ <-].
    destruct (hard_save h wr new b) as [[[r b'] h1]|] eqn:S; cbn [bind] in E; [|discriminate].
    injection E as _ _ <-. exact (save_targets _ _ _ _ _ _ _ S).
  - now injection E as _ _ <-.
Qed.

(** A session on a disk with hard links is an ordinary session. *)
Lemma hard_calls : forall brk hs w h os w' h', Forall (fun ac => hcall_ok brk (snd ac)) hs ->
  hrun brk hs w h = Ok (os, w', h') ->
  exists cs os', wrun brk cs w (seen h) = Ok (os', w', seen h') /\
    answers own_call (map snd cs) os' = answers own_hcall (map snd hs) os /\
    (forall (P : wcall -> Prop) (D : (path -> option path) -> Prop), Forall (fun ac => alloc_ok (fst ac)) hs -> D (hd_target h) ->
       Forall (fun ac => match snd ac with HCall c => P c | HSave wr _ => P (WEdit (BSave wr)) | HDisk g => D (hd_target g) end) hs ->
       (forall g, D (hd_target g) -> P (WDisk (seen g))) ->
       Forall (fun ac => alloc_ok (fst ac) /\ wcall_ok brk (snd ac) /\ P (snd ac)) cs /\ D (hd_target h')).
Proof.
  intros brk hs. induction hs as [|[al c] hs IH]; intros w h os w' h' K E; cbn [hrun] in E.
  - injection E as <- <- <-. exists [], []. split; [reflexivity|]. split; [reflexivity|]. intros P D _ HD _ _. split; [constructor|exact HD].
  - inversion_clear K as [|? ? K1 K2]. cbn [snd] in K1.
    destruct (hexec brk al c w h) as [[[o w1] h1]|] eqn:E1; cbn [bind] in E; [|discriminate].
    destruct (hrun brk hs w1 h1) as [[[os1 w2] h2]|] eqn:E2; cbn [bind] in E; [|discriminate].
    injection E as <- <- <-.
    destruct (IH _ _ _ _ _ K2 E2) as (cs & os' & R & A & F).
    destruct (hexec_calls _ _ _ _ _ _ _ _ K1 E1) as (os0 & R0 & A0 & L0).
    exists (map (pair al) (same_call h1 c) ++ cs), (os0 ++ os'). split; [|split].
    + rewrite wrun_app, R0. cbn [bind]. now rewrite R.
    + rewrite map_app, map_map. cbn [snd]. rewrite map_id, (answers_app own_call) by exact L0. rewrite A0, A.
      cbn [map snd answers]. destruct (own_hcall c); reflexivity.
    + intros P D Ha HD Hp HW. inversion_clear Ha as [|? ? Ha1 Ha2]. inversion_clear Hp as [|? ? Hp1 Hp2]. cbn [fst snd] in *.
      pose proof (hexec_targets _ _ _ _ _ _ _ _ E1) as T1.
      assert (HD1 : D (hd_target h1)) by (destruct c; [now rewrite T1|now rewrite T1|now subst h1]).
      destruct (F P D Ha2 HD1 Hp2 HW) as [F1 F2]. split; [|exact F2].
      apply Forall_app. split; [|exact F1]. apply Forall_map. cbn [fst snd].
      destruct c as [c|wr new|g]; cbn [same_call hcall_ok] in *.
      * constructor; [|constructor]. split; [exact Ha1|]. split; [exact (proj2 K1)|exact Hp1].
      * constructor; [split; [exact Ha1|]; split; [exact I|]; exact Hp1|].
        constructor; [|constructor]. split; [exact Ha1|]. split; [exact I|now apply HW].
      * constructor; [|constructor]. split; [exact Ha1|]. split; [exact I|now apply HW].
Qed.


Theorem hard_sessions : forall brk f0 p ss w0 h hs os w h', f0 = seen h -> ws_new f0 p (Some ss) = ROk w0 ->
  Forall (fun ac => alloc_ok (fst ac) /\ hcall_ok brk (snd ac)) hs -> hrun brk hs w0 h = Ok (os, w, h') ->
  reachable_workspace brk any w (seen h') /\
  exists cs os', Forall (fun ac => alloc_ok (fst ac) /\ wcall_ok brk (snd ac)) cs /\
    wrun brk cs w0 (seen h) = Ok (os', w, seen h') /\
    answers own_call (map snd cs) os' = answers own_hcall (map snd hs) os.
Proof.
  intros brk f0 p ss w0 h hs os w h' -> Ew F E.
  assert (Fa : Forall (fun ac => alloc_ok (fst ac)) hs) by (eapply Forall_impl; [|exact F]; now intros ? []).
  assert (Fk : Forall (fun ac => hcall_ok brk (snd ac)) hs) by (eapply Forall_impl; [|exact F]; now intros ? []).
  destruct (hard_calls _ _ _ _ _ _ _ Fk E) as (cs & os' & R & A & G).
  destruct (G any (fun _ => True) Fa I) as [G1 _]; [|now intros|].
  { eapply Forall_impl; [|exact F]. intros [al [c|wr n|g]] _; exact I. }
  split; [now exists (seen h), p, ss, w0, cs, os'|].
  exists cs, os'. split; [|now split]. eapply Forall_impl; [|exact G1]. intros ? (? & ? & _). now split.
Qed.

(** ** One buffer per file *)

Theorem hard_apart : forall brk p ss w0 h hs os w h', links_settle (seen h) -> ws_new (seen h) p (Some ss) = ROk w0 ->
  Forall (fun ac => alloc_ok (fst ac) /\ hcall_ok brk (snd ac) /\ hard_opens (hd_target h) (snd ac)) hs ->
  hrun brk hs w0 h = Ok (os, w, h') ->
  forall i j bi bj pi pj n, nth_error (open_buffers w) i = Some bi -> nth_error (open_buffers w) j = Some bj ->
    b_path bi = Some pi -> b_path bj = Some pj -> file_of h' pi = Some n -> file_of h' pj = Some n ->
    i = j \/ exists qi qj, hd_target h' pi = Some qi /\ hd_target h' pj = Some qj /\ qi <> qj /\
      hd_file h' qi = Some n /\ hd_file h' qj = Some n.
Proof.
  intros brk p ss w0 h hs os w h' L Ew F E i j bi bj pi pj n Hi Hj Pi Pj Ni Nj.
  assert (Fa : Forall (fun ac => alloc_ok (fst ac)) hs) by (eapply Forall_impl; [|exact F]; now intros ? []).
  assert (Fk : Forall (fun ac => hcall_ok brk (snd ac)) hs) by (eapply Forall_impl; [|exact F]; now intros ? (? & ? & ?)).
  destruct (hard_calls _ _ _ _ _ _ _ Fk E) as (cs & os' & R & A & G).
  destruct (G (fun c => only_opens c /\ keeps_links (hd_target h) c) (eq (hd_target h)) Fa eq_refl) as [G1 G2].
  { eapply Forall_impl; [|exact F]. intros [al [c|wr k|g]] (_ & K & O); cbn in *; [|now split|now symmetry].
    split; [exact O|]. destruct K as [K _]. destruct c as [| | | | |[]| | | |]; try exact I; exfalso; exact K. }
  { intros g Hg. split; [exact I|]. cbn. now symmetry. }
  unfold file_of in Ni, Nj. destruct (hd_target h' pi) as [qi|] eqn:Ti; [|discriminate].
  destruct (hd_target h' pj) as [qj|] eqn:Tj; [|discriminate].
  destruct (path_eq_dec qi qj) as [<-|Hn].
  - left. apply (files_apart brk (seen h) p ss w0 cs os' w (seen h') L Ew G1 R i j bi bj pi pj Hi Hj Pi Pj).
    unfold same_file. cbn. now rewrite Ti, Tj.
  - right. exists qi, qj. auto 6.
Qed.
Corollary hard_one_name : forall brk p ss w0 h hs os w h', links_settle (seen h) -> ws_new (seen h) p (Some ss) = ROk w0 ->
  Forall (fun ac => alloc_ok (fst ac) /\ hcall_ok brk (snd ac) /\ hard_opens (hd_target h) (snd ac)) hs ->
  hrun brk hs w0 h = Ok (os, w, h') -> no_hard_links h' ->
  forall i j bi bj pi pj n, nth_error (open_buffers w) i = Some bi -> nth_error (open_buffers w) j = Some bj ->
    b_path bi = Some pi -> b_path bj = Some pj -> file_of h' pi = Some n -> file_of h' pj = Some n -> i = j.
Proof.
  intros brk p ss w0 h hs os w h' L Ew F E H i j bi bj pi pj n Hi Hj Pi Pj Ni Nj.
  destruct (hard_apart brk p ss w0 h hs os w h' L Ew F E i j bi bj pi pj n Hi Hj Pi Pj Ni Nj) as [X|(qi & qj & _ & _ & X & Fi & Fj)];
    [exact X|]. now destruct (X (H _ _ _ Fi Fj)).
Qed.

(** ** What a save writes *)

Lemma write_seen h p bs new : unused h new -> fs_creatable (seen h) p = true ->
  forall p', fs_read (seen (hd_write h p bs new)) p' =
    if match hd_target h p', hd_target h p with
       | Some q', Some q => path_eqb q' q || match hd_file h q', hd_file h q with Some i, Some j => N.eqb i j | _, _ => false end
       | _, _ => false end
    then Some bs else fs_read (seen h) p'.
Proof.
  intros U C p'. unfold fs_read, hd_write. unfold fs_creatable in C. cbn in C.
  destruct (hd_target h p) as [q|] eqn:T; [|discriminate]. clear C.
  destruct (hd_file h q) as [i|] eqn:Fq; cbn; (destruct (hd_target h p') as [q'|] eqn:T'; [|reflexivity]).
  - destruct (path_eqb q' q) eqn:Q; [apply path_eqb_eq in Q; subst q'; rewrite Fq; now rewrite N.eqb_refl|]. cbn.
    destruct (hd_file h q') as [k|]; [|reflexivity]. now destruct (N.eqb k i).
  - destruct (path_eqb q' q) eqn:Q; cbn; [now rewrite N.eqb_refl|].
    destruct (hd_file h q') as [k|] eqn:Fk; [|reflexivity]. destruct (N.eqb k new) eqn:K; [|reflexivity].
    apply N.eqb_eq in K. subst k. now destruct (U q').
Qed.
Lemma write_files h p bs new : unused h new -> fs_creatable (seen h) p = true -> exists i,
  file_of (hd_write h p bs new) p = Some i /\ (file_of h p = Some i \/ file_of h p = None /\ i = new) /\
  (forall p', file_of (hd_write h p bs new) p' = Some i -> fs_read (seen (hd_write h p bs new)) p' = Some bs) /\
  (forall p', file_of (hd_write h p bs new) p' <> Some i ->
     file_of (hd_write h p bs new) p' = file_of h p' /\ fs_read (seen (hd_write h p bs new)) p' = fs_read (seen h) p').
Proof.
  intros U C. pose proof (write_seen h p bs new U C) as S. unfold fs_creatable in C. cbn in C. revert S.
  destruct (hd_target h p) as [q|] eqn:T; [|discriminate]. intros S.
  assert (Fh : file_of h p = hd_file h q) by (unfold file_of; now rewrite T). rewrite Fh.
  assert (W : hd_write h p bs new = match hd_file h q with
    | Some i => HD (hd_target h) (hd_file h) (fun j => if N.eqb j i then Regular bs else hd_node h j)
    | None => HD (hd_target h) (fun x => if path_eqb x q then Some new else hd_file h x)
                 (fun j => if N.eqb j new then Regular bs else hd_node h j) end) by (unfold hd_write; now rewrite T).
  destruct (hd_file h q) as [i|] eqn:Fq.
  - exists i. rewrite W in *. unfold file_of. cbn [hd_target hd_file]. rewrite T, Fq. split; [reflexivity|]. split; [now left|].
    split; intros p' H; rewrite S; destruct (hd_target h p') as [q'|]; try discriminate.
    + rewrite H, N.eqb_refl, Bool.orb_true_r. reflexivity.
    + split; [reflexivity|]. destruct (path_eqb q' q) eqn:Q; [apply path_eqb_eq in Q; now subst q'|]. cbn.
      destruct (hd_file h q') as [k|]; [|reflexivity]. destruct (N.eqb k i) eqn:K; [|reflexivity].
      apply N.eqb_eq in K. now subst k.
    + split; reflexivity.
  - exists new. rewrite W in *. unfold file_of. cbn [hd_target hd_file]. rewrite T, path_eqb_refl. split; [reflexivity|]. split; [now right|].
    split; intros p' H; rewrite S; destruct (hd_target h p') as [q'|]; try discriminate.
    + destruct (path_eqb q' q); [reflexivity|]. now destruct (U q').
    + destruct (path_eqb q' q); [now destruct H|]. cbn. destruct (hd_file h q'); split; reflexivity.
    + split; reflexivity.
Qed.
Theorem hard_saved : forall h w new b p b' h', b_path b = Some p -> unused h new ->
  hard_save h w new b = Ok (ROk tt, b', h') ->
  exists t i, buf_data b = Ok t /\ file_of h' p = Some i /\ (file_of h p = Some i \/ file_of h p = None /\ i = new) /\
    (forall p', file_of h' p' = Some i -> fs_read (seen h') p' = Some (enc t)) /\
    (forall p', file_of h' p' <> Some i -> file_of h' p' = file_of h p' /\ fs_read (seen h') p' = fs_read (seen h) p').
Proof.
  intros h w new b p b' h' Ep U E. unfold hard_save in E. rewrite Ep in E. unfold outcome in E.
  destruct (fs_creatable (seen h) p) eqn:C; [|discriminate]. destruct w as [|k|]; [discriminate| |].
  - destruct (buf_data b); discriminate.
  - destruct (buf_data b) as [t|] eqn:D; cbn [bind] in E; [|discriminate]. injection E as _ <-.
    destruct (write_files h p (enc t) new U C) as (i & H). exists t, i. split; [reflexivity|exact H].
Qed.
