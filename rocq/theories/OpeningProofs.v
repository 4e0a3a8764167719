(** Opening, reloading and saving while other programs rename: Opening.v. *)
From Verif Require Import Base Utf8 Utf8Proofs Grapheme GraphemeProofs Position GapBuffer
  GapBufferProofs Cursor PathModel Buffer Spec CursorSpec Calls CursorCalls TextProofs UaxProofs HalvesProofs TextFacts
  GapProps CursorProofs OpProofs BufferCalls Timeline TimelineProofs AnyTextProofs BufferProps
  BufferIoProps BufferFacts Token Workspace WorkspaceSpec WorkspaceProofs WorkspaceProps FileProofs Racing RacingProofs
  HardLinks Saving Loading Renaming RenamingSpec RenamingProofs Opening OpeningSpec.

(** ** Nothing is removed *)

Lemma removed_refl h : nothing_removed h h.
Proof. split; auto. Qed.
Lemma removed_trans h1 h2 h3 : nothing_removed h1 h2 -> nothing_removed h2 h3 -> nothing_removed h1 h3.
Proof. intros [A B] [C D]. split; [congruence|auto]. Qed.
Lemma rename_removes h q new bs : nothing_removed h (hd_rename h q new bs).
Proof. split; [reflexivity|]. intros x H. cbn. now destruct (path_eqb x q). Qed.
Lemma write_removes h p bs new : nothing_removed h (hd_write h p bs new).
Proof.
  unfold hd_write. destruct (hd_target h p) as [q|] eqn:T; [|apply removed_refl].
  destruct (hd_file h q) eqn:F; (split; [reflexivity|]; intros x H; cbn; try assumption). now destruct (path_eqb x q).
Qed.
Lemma load_removes p : forall es s, (forall h', ~ In (IChanged h') es) -> nothing_removed (snd s) (snd (iloading p es s)).
Proof.
  induction es as [|e es IH]; intros [ph h] N; [apply removed_refl|].
  cbn [iloading fold_left]. change (fold_left _ es ?s) with (iloading p es s).
  apply removed_trans with (snd (iload_step p e (ph, h))); [|apply IH; intros h' H; apply (N h'); now right].
  cbn [snd]. destruct e as [| |n| | |q new bs|g]; try (rewrite istep_disk by exact I; apply removed_refl).
  - apply rename_removes.
  - destruct (N g). now left.
Qed.
Lemma save_removes p data : forall es s, nothing_removed (snd s) (snd (isaving p data es s)).
Proof.
  induction es as [|e es IH]; intros [ph h]; [apply removed_refl|].
  cbn [isaving fold_left]. change (fold_left _ es ?s) with (isaving p data es s).
  apply removed_trans with (snd (isave_step p data e (ph, h))); [|apply IH]. cbn [snd].
  destruct e as [new| |n| | |q new bs]; destruct ph as [|i pos|i|i]; cbn [isave_step]; try apply removed_refl; try apply rename_removes.
  - destruct (fs_creatable (seen h) p); [|apply removed_refl]. destruct (file_of _ p); apply write_removes.
  - destruct (firstn n (skipn pos data)); [apply removed_refl|]. split; auto.
Qed.
Lemma removed_canon h h' p cp : nothing_removed h h' -> fs_canon (seen h) p = Some cp -> fs_canon (seen h') p = Some cp.
Proof.
  intros [T F]. unfold fs_canon, seen. cbn. rewrite T. destruct (hd_target h p) as [q|]; [|discriminate].
  specialize (F q). destruct (hd_file h q); [|discriminate]. destruct (hd_file h' q); [auto|]. now destruct F.
Qed.
Lemma canon_file h p cp : fs_canon (seen h) p = Some cp -> hd_target h p = Some cp /\ hd_file h cp <> None.
Proof.
  unfold fs_canon, seen. cbn. destruct (hd_target h p) as [q|]; [|discriminate]. destruct (hd_file h q) eqn:F; [|discriminate].
  intros [= <-]. split; [reflexivity|]. rewrite F. discriminate.
Qed.
Lemma read_canon f p t : read_to_string f p = Some t -> fs_canon f p = fs_target f p /\ fs_target f p <> None.
Proof.
  unfold read_to_string, fs_read, fs_canon. destruct (fs_target f p) as [q|]; [|discriminate].
  destruct (fs_node f q); [|discriminate]. now split.
Qed.

(** The moments of a load. *)
Lemma moment_later p es1 es2 h : only_renames (es1 ++ es2) h ->
  nothing_removed h (disk_then p es1 h) /\ nothing_removed (disk_then p es1 h) (disk_then p (es1 ++ es2) h).
Proof.
  intros (N & _). split.
  - apply (load_removes p es1 (IAsking, h)). intros h' H. apply (N h'), in_or_app. now left.
  - unfold disk_then. rewrite iloading_app. apply load_removes. intros h' H. apply (N h'), in_or_app. now right.
Qed.

(** ** One load *)

Lemma load_moment al p es h ph h' r : iloading p es (IAsking, h) = (ph, h') -> only_renames es h -> iread_result ph = Some r ->
  (exists es1 es2, es = es1 ++ es2 /\ r = read_to_string (seen (disk_then p es1 h)) p /\
     from_file_given al r (seen h') p = from_file al (seen (disk_then p es1 h)) p) \/
  (r = None /\ (In INotOpened es \/ In IReadError es)).
Proof.
  intros E O R. destruct (one_version_of_renamed p es h ph h' r E O R) as [(es1 & es2 & -> & ->)|X]; [left|auto].
  exists es1, es2. split; [reflexivity|]. split; [reflexivity|]. unfold from_file_given, from_file.
  destruct (read_to_string (seen (disk_then p es1 h)) p) as [t|] eqn:Et; [|reflexivity].
  destruct (moment_later p es1 es2 h O) as [_ M]. unfold disk_then at 2 in M. rewrite E in M. cbn [snd] in M.
  destruct (read_canon _ _ _ Et) as [C N]. destruct (fs_canon (seen (disk_then p es1 h)) p) as [cp|] eqn:Ec; [|congruence].
  now rewrite (removed_canon _ _ _ _ M Ec).
Qed.
Lemma from_file_moment al p es h ph h' r : iloading p es (IAsking, h) = (ph, h') -> only_renames es h -> iread_result ph = Some r ->
  (exists es1 es2, es = es1 ++ es2 /\ from_file_given al r (seen h') p = from_file al (seen (disk_then p es1 h)) p) \/
  (from_file_given al r (seen h') p = Ok (RErr IoError) /\ (In INotOpened es \/ In IReadError es)).
Proof.
  intros E O R. destruct (load_moment al p es h ph h' r E O R) as [(es1 & es2 & H1 & _ & H2)|[-> X]]; [left; eauto|right].
  split; [reflexivity|exact X].
Qed.
Lemma reload_moment brk al es b p h o h' : b_path b = Some p -> only_renames es h ->
  reload_steps brk al es b h = Ok (Some o, h') ->
  (exists es1 es2, es = es1 ++ es2 /\ buf_reload brk al (seen (disk_then p es1 h)) b = Ok o) \/
  (o = (RErr IoError, b) /\ (In INotOpened es \/ In IReadError es)).
Proof.
  intros P O. unfold reload_steps. rewrite P. destruct (iloading p es (IAsking, h)) as [ph g] eqn:E.
  destruct (iread_result ph) as [r|] eqn:R; [|discriminate].
  destruct (reload_given brk al r b) as [x|] eqn:X; [|discriminate]. cbn [bind]. intros [= <- <-].
  destruct (load_moment al p es h ph g r E O R) as [(es1 & es2 & H1 & -> & _)|[-> Y]].
  - left. exists es1, es2. split; [assumption|]. unfold reload_given in X. unfold buf_reload. now rewrite P in *.
  - right. unfold reload_given in X. rewrite P in X. now injection X as <-.
Qed.

(** ** One open *)

(** No buffer is open for a file that is missing. *)
Definition files_there (w : workspace) (h : hdisk) : Prop :=
  forall b q, In b (open_buffers w) -> b_path b = Some q -> hd_file h q <> None.

Lemma open_moment al p es w s h o h' : sim w s -> files_there w h -> only_renames es h ->
  open_buffer_steps al p es w h = Ok (Some o, h') ->
  nothing_removed h h' /\
  ((exists es1 es2, es = es1 ++ es2 /\ open_buffer al (seen (disk_then p es1 h)) w p = Ok o /\
    nothing_removed (disk_then p es1 h) h') \/
   (exists w0, select_buffer_by_path al (seen h) w p = Ok (true, w0) /\ h' = h /\ open_buffer al (seen h) w p = Ok o) \/
   (o = (RErr IoError, w) /\ (In INotOpened es \/ In IReadError es))).
Proof.
  intros S F O. unfold open_buffer_steps. destruct (found_total al (seen h) w s p S) as ([found w1] & E0). rewrite E0. cbn [bind].
  destruct found.
  - intros [= <- <-]. split; [apply removed_refl|]. right. left. exists w1. unfold open_buffer. rewrite E0. now repeat split.
  - destruct (not_found _ _ _ _ _ _ S E0) as [-> F0]. destruct (iloading p es (IAsking, h)) as [ph g] eqn:E.
    destruct (iread_result ph) as [r|] eqn:R; [|discriminate]. intros X.
    assert (Hg : h' = g).
    { destruct (from_file_given al r (seen g) p) as [[b|e]|]; try discriminate; cbn [bind] in X.
      - destruct (add_buffer al w b); [|discriminate]. now injection X.
      - now injection X. }
    subst g. assert (M : nothing_removed h h').
    { destruct (moment_later p [] es h O) as [_ M]. unfold disk_then in M. cbn [app] in M. rewrite E in M. exact M. }
    split; [exact M|]. destruct (load_moment al p es h ph h' r E O R) as [(es1 & es2 & -> & _ & G)|[-> Y]].
    + left. exists es1, es2. split; [reflexivity|]. destruct (moment_later p es1 es2 h O) as [M1 M2].
      split; [|unfold disk_then in M2 at 2; rewrite E in M2; exact M2].
      unfold open_buffer. rewrite (select_none al (seen (disk_then p es1 h)) w s p S).
      * cbn [bind]. rewrite <- G. destruct (from_file_given al r (seen h') p) as [[b|e]|]; cbn [bind] in *; [|now injection X as <-|discriminate].
        destruct (add_buffer al w b); cbn [bind] in *; [now injection X as <-|discriminate].
      * destruct (fs_canon (seen (disk_then p es1 h)) p) as [cp|] eqn:Ec; [|exact I].
        destruct (fs_canon (seen h) p) as [c0|] eqn:E1.
        -- rewrite (removed_canon _ _ _ _ M1 E1) in Ec. injection Ec as <-. now apply F0.
        -- apply Forall_forall. intros b Hb. destruct (has_path cp b) eqn:Hp; [|reflexivity]. exfalso.
           apply has_path_iff in Hp. destruct (sim_shows _ _ S) as [_ Op]. rewrite <- Op in Hb. pose proof (F b cp Hb Hp) as Fc.
           destruct (canon_file _ _ _ Ec) as [T _]. destruct M1 as [Mt _]. rewrite Mt in T.
           unfold fs_canon, seen in E1. cbn in E1. rewrite T in E1. now destruct (hd_file h cp).
    + right. right. cbn [from_file_given bind] in X. now injection X as <-.
Qed.

(** ** Sessions *)

Lemma paths_from brk al c w s f o w' f' : sim w s -> Forall wfb (s_buffers s) -> alloc_ok al -> wcall_ok brk c -> only_opens c ->
  wexec brk al c w f = Ok (o, w', f') -> forall b q, In b (open_buffers w') -> b_path b = Some q ->
  (exists b0, In b0 (open_buffers w) /\ b_path b0 = Some q) \/ exists p, c = WOpen p /\ fs_canon f p = Some q.
Proof.
  intros Sm W Ha Hc Hk E. pose proof (wexec_sim brk al c w s f Sm) as X.
  destruct (spec_wcall brk al c s f) as [[[o1 s1] f1]|] eqn:Es; [|congruence].
  destruct X as (w1 & E1 & S1). rewrite E in E1. injection E1 as <- <- <-.
  destruct (sim_shows _ _ Sm) as [_ ->]. destruct (sim_shows _ _ S1) as [_ ->].
  pose proof (spec_changed _ _ _ _ _ _ _ _ (sim_sel_ok _ _ Sm) Es) as Ch. clear E Es S1. revert Hc Hk.
  destruct Ch as [c' _ E E3|c' pre b post b' o' f2 X E1 E2 E3|pre b post E1 E2 E3|b pre post E1 E2 E3
    |p cp b pre post X Hcp Hn E1 E2 E3|pre b post E1 E2 E3]; intros Hc Hk x q Hx Hq.
  - rewrite E in Hx. eauto.
  - rewrite E1 in W. rewrite E2 in Hx. apply Forall_app in W as [_ W]. inversion_clear W.
    destruct (bexec_fields _ _ _ _ _ _ _ _ Ha Hc H X) as (_ & P & _). left. rewrite E1.
    apply in_app_or in Hx as [Hx|[<-|Hx]].
    + exists x. split; [apply in_or_app; now left|assumption].
    + exists b. split; [apply in_elt|]. destruct c'; try (rewrite <- P; assumption). destruct Hk.
    + exists x. split; [apply in_or_app; right; now right|assumption].
  - left. rewrite E2 in Hx. rewrite E1. apply in_app_or in Hx as [Hx|[<-|Hx]].
    + exists x. split; [apply in_or_app; now left|assumption].
    + exists b. split; [apply in_elt|exact Hq].
    + exists x. split; [apply in_or_app; right; now right|assumption].
  - destruct Hk.
  - rewrite E2 in Hx. rewrite E1. apply in_app_or in Hx as [Hx|[<-|Hx]].
    + left. exists x. split; [apply in_or_app; now left|assumption].
    + right. exists p. split; [reflexivity|]. rewrite stamp_path in Hq.
      destruct (from_file_canon _ _ _ _ X) as (cp' & Hc' & Hp & _). congruence.
    + left. exists x. split; [apply in_or_app; now right|assumption].
  - left. rewrite E2 in Hx. rewrite E1. exists x. split; [|assumption]. apply in_app_or in Hx as [Hx|Hx]; apply in_or_app; [now left|right; now right].
Qed.

(** A call of such a session is an ordinary one on a disk with the same links. *)
Definition as_ordinary (brk : brk_rule) (al : allocator) (i : icall) (w : workspace) (h : hdisk) (o : wout) (w' : workspace) (h' : hdisk) : Prop :=
  exists g c g', same_call i c /\ fs_target g = hd_target h /\ wcall_ok brk c /\ only_opens c /\ keeps_links (hd_target h) c /\
    wexec brk al c w g = Ok (o, w', g') /\ forall p q, c = WOpen p -> fs_canon g p = Some q -> hd_file h' q <> None.

Lemma saved_target p data i : forall es h h', isaving p data es (SOpening, h) = (SSaved i, h') -> hd_target h p <> None.
Proof.
  intros es h h' E T.
  assert (G : forall es ph g, hd_target g p = None -> match ph with SOpening | SFailed _ => True | _ => False end ->
    match fst (isaving p data es (ph, g)) with SOpening | SFailed _ => True | _ => False end).
  { clear. induction es as [|e es IH]; intros ph g T H; [exact H|].
    cbn [isaving fold_left]. change (fold_left _ es ?s) with (isaving p data es s).
    assert (T' : hd_target (snd (isave_step p data e (ph, g))) p = None).
    { change (isave_step p data e (ph, g)) with (isaving p data [e] (ph, g)). now rewrite target_run. }
    destruct (isave_step p data e (ph, g)) as [ph' g'] eqn:E. apply IH; [exact T'|]. clear IH T'.
    assert (C : fs_creatable (seen g) p = false) by (unfold fs_creatable, seen; cbn; now rewrite T).
    destruct ph; try contradiction; destruct e; cbn [isave_step] in E; try rewrite C in E; injection E as <- <-; exact I. }
  specialize (G es SOpening h T I). now rewrite E in G.
Qed.

Lemma step_ordinary brk al c w s h o w' h' : sim w s -> files_there w h -> icall_ok brk c -> others_rename h c ->
  iexec brk al c w h = Ok (Some (o, w'), h') -> nothing_removed h h' /\ as_ordinary brk al c w h o w' h'.
Proof.
  intros S F Hc Hr E. pose (nowhere := FS (hd_target h) (fun _ => None)).
  destruct c as [c|p es|es|es|g]; cbn [iexec icall_ok others_rename] in *.
  - destruct (wexec brk al c w (seen h)) as [[[o1 w1] f1]|] eqn:X; [|discriminate]. cbn [bind] in E. injection E as <- <- <-.
    split; [apply removed_refl|]. exists (seen h), c, f1. split; [cbn [same_call]; first [reflexivity|eexists; reflexivity]|]. split; [reflexivity|]. split; [assumption|].
    destruct c as [b|p| | | |c| |p|ss|g]; try contradiction; [..|]; try (destruct c; try contradiction); (repeat split; try exact I; try assumption; intros; discriminate).
  - destruct (open_buffer_steps al p es w h) as [[[[r w1]|] h1]|] eqn:X; try discriminate. cbn [bind] in E. injection E as <- <- <-.
    destruct (open_moment al p es w s h (r, w1) h1 S F Hr X) as [M [(es1 & es2 & -> & G & M2)|[(w0 & E0 & -> & G)|[G _]]]].
    + split; [assumption|]. exists (seen (disk_then p es1 h)), (WOpen p), (seen (disk_then p es1 h)). split; [cbn [same_call]; first [reflexivity|eexists; reflexivity]|].
      split; [apply (moment_later p es1 es2 h Hr)|]. repeat (split; [exact I|]). split; [cbn [wexec]; now rewrite G|].
      intros p0 q [= <-] Hq. apply canon_file in Hq as [_ Hq]. now apply M2.
    + split; [assumption|]. exists (seen h), (WOpen p), (seen h). split; [cbn [same_call]; first [reflexivity|eexists; reflexivity]|]. split; [reflexivity|]. repeat (split; [exact I|]).
      split; [cbn [wexec]; now rewrite G|]. intros p0 q [= <-] Hq. now apply canon_file in Hq as [_ Hq].
    + split; [assumption|]. injection G as -> ->. exists nowhere, (WOpen p), nowhere. split; [cbn [same_call]; first [reflexivity|eexists; reflexivity]|]. split; [reflexivity|]. repeat (split; [exact I|]).
      assert (C : fs_canon nowhere p = None) by (unfold fs_canon, nowhere; cbn; now destruct (hd_target h p)).
      assert (Rd : read_to_string nowhere p = None) by (unfold read_to_string, fs_read, nowhere; cbn; now destruct (hd_target h p)).
      split.
      * cbn [wexec]. unfold open_buffer, select_buffer_by_path, from_file. rewrite C, Rd. reflexivity.
      * intros p0 q [= <-] Hq. congruence.
  - unfold on_current in E. destruct (w_current w) as [b|] eqn:Cw.
    + destruct (reload_steps brk al es b h) as [[[[r b1]|] h1]|] eqn:X; try discriminate. cbn [bind] in E. injection E as <- <- <-.
      destruct (b_path b) as [p|] eqn:P.
      * assert (M : nothing_removed h h1).
        { unfold reload_steps in X. rewrite P in X. pose proof (load_removes p es (IAsking, h) (proj1 Hr)) as M.
          destruct (iloading p es (IAsking, h)) as [ph g]. destruct (iread_result ph); [|discriminate].
          destruct (reload_given brk al o b); [|discriminate]. cbn [bind] in X. injection X as _ <-. exact M. }
        split; [exact M|]. destruct (reload_moment brk al es b p h (r, b1) h1 P Hr X) as [(es1 & es2 & -> & G)|[G _]].
        -- exists (seen (disk_then p es1 h)), (WEdit BReload), (seen (disk_then p es1 h)). split; [cbn [same_call]; first [reflexivity|eexists; reflexivity]|].
           split; [apply (moment_later p es1 es2 h Hr)|]. repeat (split; [exact I|]). split; [|intros; discriminate].
           cbn [wexec bexec]. rewrite Cw, G. reflexivity.
        -- injection G as -> ->. exists nowhere, (WEdit BReload), nowhere. split; [cbn [same_call]; first [reflexivity|eexists; reflexivity]|]. split; [reflexivity|]. repeat (split; [exact I|]).
           split; [|intros; discriminate]. cbn [wexec bexec]. rewrite Cw. unfold buf_reload. rewrite P.
           assert (read_to_string nowhere p = None) as -> by (unfold read_to_string, fs_read, nowhere; cbn; now destruct (hd_target h p)).
           reflexivity.
      * unfold reload_steps in X. rewrite P in X. injection X as <- <- <-. split; [apply removed_refl|].
        exists (seen h), (WEdit BReload), (seen h). split; [cbn [same_call]; first [reflexivity|eexists; reflexivity]|]. split; [reflexivity|]. repeat (split; [exact I|]). split; [|intros; discriminate].
        cbn [wexec bexec]. rewrite Cw. unfold buf_reload. rewrite P. reflexivity.
    + injection E as <- <- <-. split; [apply removed_refl|]. exists (seen h), (WEdit BReload), (seen h). split; [cbn [same_call]; first [reflexivity|eexists; reflexivity]|]. split; [reflexivity|].
      repeat (split; [exact I|]). split; [|intros; discriminate]. cbn [wexec]. now rewrite Cw.
  - unfold on_current in E. destruct (w_current w) as [b|] eqn:Cw.
    + destruct (save_steps es b h) as [[[[r b1]|] h1]|] eqn:X; try discriminate. cbn [bind] in E. injection E as <- <- <-.
      unfold save_steps in X. destruct (b_path b) as [p|] eqn:P.
      * destruct (buf_data b) as [t|] eqn:D; [|discriminate]. cbn [bind] in X.
        pose proof (save_removes p (enc t) es (SOpening, h)) as M.
        destruct (isaving p (enc t) es (SOpening, h)) as [ph g] eqn:Es. cbn [snd] in M.
        destruct ph as [|i pos|i|i]; cbn [ianswer] in X; try discriminate; injection X as <- <- <-; (split; [exact M|]).
        -- exists nowhere, (WEdit (BSave WriteSucceeds)), (fs_write nowhere p (enc t)). split; [cbn [same_call]; first [reflexivity|eexists; reflexivity]|]. split; [reflexivity|]. repeat (split; [exact I|]).
           split; [|intros; discriminate]. cbn [wexec bexec]. rewrite Cw. unfold buf_save. rewrite P, D. cbn [bind].
           assert (fs_creatable nowhere p = true) as C.
           { unfold fs_creatable, nowhere. cbn. pose proof (saved_target _ _ _ _ _ _ Es). now destruct (hd_target h p). }
           unfold outcome. rewrite C. reflexivity.
        -- exists nowhere, (WEdit (BSave CreateFails)), nowhere. split; [cbn [same_call]; first [reflexivity|eexists; reflexivity]|]. split; [reflexivity|]. repeat (split; [exact I|]).
           split; [|intros; discriminate]. cbn [wexec bexec]. rewrite Cw. unfold buf_save. rewrite P. unfold outcome. now destruct (fs_creatable nowhere p).
      * injection X as <- <- <-. split; [apply removed_refl|]. exists nowhere, (WEdit (BSave CreateFails)), nowhere. split; [cbn [same_call]; first [reflexivity|eexists; reflexivity]|]. split; [reflexivity|].
        repeat (split; [exact I|]). split; [|intros; discriminate]. cbn [wexec bexec]. rewrite Cw. unfold buf_save. now rewrite P.
    + injection E as <- <- <-. split; [apply removed_refl|]. exists nowhere, (WEdit (BSave CreateFails)), nowhere. split; [cbn [same_call]; first [reflexivity|eexists; reflexivity]|]. split; [reflexivity|].
      repeat (split; [exact I|]). split; [|intros; discriminate]. cbn [wexec]. now rewrite Cw.
  - injection E as <- <- <-. split; [exact Hr|]. exists (seen h), (WDisk (seen h)), (seen h). split; [cbn [same_call]; first [reflexivity|eexists; reflexivity]|]. repeat (split; [first [reflexivity|exact I]|]). intros; discriminate.
Qed.

Definition ordinary_session (brk : brk_rule) (h0 : hdisk) (w : workspace) (f : fsys) : Prop :=
  exists p ss w0 cs os, ws_new (seen h0) p (Some ss) = ROk w0 /\
    Forall (fun ac => alloc_ok (fst ac) /\ wcall_ok brk (snd ac) /\ only_opens (snd ac) /\ keeps_links (hd_target h0) (snd ac)) cs /\
    wrun brk cs w0 (seen h0) = Ok (os, w, f).

Lemma session_inv brk h0 w h : renaming_session brk h0 w h ->
  ordinary_session brk h0 w (seen h) /\ files_there w h /\ hd_target h = hd_target h0.
Proof.
  induction 1 as [p ss w En|w h al c o w' h' _ [(p & ss & w0 & cs & os & En & Fc & Er) [F T]] Ha Hc Hr E].
  - split; [exists p, ss, w, [], []; repeat split; [assumption|constructor]|]. split; [|reflexivity].
    destruct (new_sim _ _ _ _ En) as (cp & _ & S). destruct (sim_shows _ _ S) as [_ O]. intros b q Hb. rewrite O in Hb. destruct Hb.
  - assert (R : reachable_workspace brk only_opens w (seen h)).
    { exists (seen h0), p, ss, w0, cs, os. split; [assumption|]. split; [|assumption]. eapply Forall_impl; [|exact Fc]. cbn. tauto. }
    destruct (reach_sim _ _ _ _ R) as (s & S & W).
    destruct (step_ordinary brk al c w s h o w' h' S F Hc Hr E) as [M (g & c' & g' & _ & Tg & Ok' & Oo & Kl & Ex & Fo)].
    assert (T' : hd_target h' = hd_target h0) by (destruct M as [M _]; congruence).
    split; [|split; [|exact T']].
    + exists p, ss, w0, (cs ++ [(al, WDisk g); (al, c'); (al, WDisk (seen h'))]), (os ++ [WUnit; o; WUnit]).
      split; [assumption|]. split.
      * apply Forall_app. split; [assumption|]. rewrite T in Tg, Kl.
        repeat (constructor; [cbn [fst snd]; split; [assumption|]; split; [first [exact I|assumption]|]; split; first [exact I|assumption]|]). constructor.
      * rewrite wrun_app, Er. cbn [bind wrun wexec]. rewrite Ex. reflexivity.
    + intros b q Hb Hq. destruct (paths_from brk al c' w s g o w' g' S W Ha Ok' Oo Ex b q Hb Hq) as [(b0 & H0 & Q0)|(p0 & -> & C0)].
      * apply (proj2 M). now apply (F b0).
      * now apply (Fo p0 q).
Qed.
Lemma session_reachable brk h0 w h : renaming_session brk h0 w h -> reachable_workspace brk only_opens w (seen h).
Proof.
  intros R. apply session_inv in R as ((p & ss & w0 & cs & os & En & Fc & Er) & _).
  exists (seen h0), p, ss, w0, cs, os. split; [assumption|]. split; [|assumption]. eapply Forall_impl; [|exact Fc]. cbn. tauto.
Qed.
Lemma session_ordinary brk h0 w h : renaming_session brk h0 w h -> exists p ss w0 cs os, ws_new (seen h0) p (Some ss) = ROk w0 /\
    Forall (fun ac => alloc_ok (fst ac) /\ wcall_ok brk (snd ac) /\ only_opens (snd ac) /\ keeps_links (hd_target h0) (snd ac)) cs /\
    wrun brk cs w0 (seen h0) = Ok (os, w, seen h).
Proof. intros R. now apply session_inv in R as (X & _). Qed.
Lemma session_files brk h0 w h b q : renaming_session brk h0 w h -> In b (open_buffers w) -> b_path b = Some q -> hd_file h q <> None.
Proof. intros R. apply session_inv in R as (_ & F & _). exact (F b q). Qed.
Lemma session_no_duplicates brk h0 w h : renaming_session brk h0 w h -> NoDup (map b_path (open_buffers w)).
Proof. intros R. eapply no_duplicates, session_reachable, R. Qed.
Lemma session_files_apart brk h0 w h : links_settle (seen h0) -> renaming_session brk h0 w h ->
  forall i j bi bj pi pj, nth_error (open_buffers w) i = Some bi -> nth_error (open_buffers w) j = Some bj ->
    b_path bi = Some pi -> b_path bj = Some pj -> hd_target h pi = hd_target h pj -> i = j.
Proof.
  intros L R. apply session_inv in R as ((p & ss & w0 & cs & os & En & Fc & Er) & _).
  exact (files_apart brk (seen h0) p ss w0 cs os w (seen h) L En Fc Er).
Qed.
Lemma session_open brk h0 w h al p es r w' h' : renaming_session brk h0 w h -> only_renames es h ->
  open_buffer_steps al p es w h = Ok (Some (r, w'), h') ->
  (exists es1 es2, es = es1 ++ es2 /\ open_buffer al (seen (disk_then p es1 h)) w p = Ok (r, w')) \/
  (r = RErr IoError /\ w' = w /\ (In INotOpened es \/ In IReadError es)).
Proof.
  intros R O X. pose proof (session_reachable _ _ _ _ R) as Rw. destruct (reach_sim _ _ _ _ Rw) as (s & S & _).
  apply session_inv in R as (_ & F & _).
  destruct (open_moment al p es w s h (r, w') h' S F O X) as [_ [(es1 & es2 & H1 & H2 & _)|[(w0 & _ & _ & H)|[H1 H2]]]].
  - left. eauto.
  - left. exists [], es. split; [reflexivity|exact H].
  - right. injection H1 as -> ->. auto.
Qed.

(** No call panics. *)
Lemma given_total al r f p : (forall t, r = Some t -> valid_text t) -> exists x, from_file_given al r f p = Ok x.
Proof.
  intros V. unfold from_file_given. destruct r as [t|]; [|eauto]. destruct (new_ok al t (V t eq_refl)) as (g & Eg & _).
  rewrite Eg. cbn [bind]. destruct (fs_canon f p); eauto.
Qed.
Lemma iresult_valid ph t : iread_result ph = Some (Some t) -> valid_text t.
Proof. destruct ph; cbn; try discriminate. intros [= H]. now apply decode_strict_valid in H as [? _]. Qed.
Lemma open_total al p es w s h : sim w s -> exists o h', open_buffer_steps al p es w h = Ok (o, h').
Proof.
  intros S. unfold open_buffer_steps. destruct (found_total al (seen h) w s p S) as ([found w1] & E0). rewrite E0. cbn [bind].
  destruct found; [eauto|]. destruct (not_found _ _ _ _ _ _ S E0) as [-> _]. destruct (iloading p es (IAsking, h)) as [ph g].
  destruct (iread_result ph) as [r|] eqn:R; [|eauto].
  destruct (given_total al r (seen g) p) as ([b|e] & E). { intros t ->. now apply iresult_valid in R. }
  - rewrite E. cbn [bind]. destruct (add_sim al w s b S) as (w2 & Ea & _). rewrite Ea. cbn [bind]. eauto.
  - rewrite E. cbn [bind]. eauto.
Qed.
Lemma session_open_total brk h0 w h al p es : renaming_session brk h0 w h -> exists o h', open_buffer_steps al p es w h = Ok (o, h').
Proof. intros R. apply session_reachable in R. destruct (reach_sim _ _ _ _ R) as (s & S & _). eapply open_total, S. Qed.

(** An open ends. *)
Lemma session_open_ends brk h0 w h al p bs es : renaming_session brk h0 w h -> reads h p = Some bs -> only_renames es h ->
  Forall ireadable es -> length bs < length (filter is_iread es) ->
  exists o h', open_buffer_steps al p (IOpened :: es) w h = Ok (Some o, h').
Proof.
  intros R Hr O He Hl. destruct (session_open_total brk h0 w h al p (IOpened :: es) R) as (o & h' & E).
  destruct o as [o|]; [eauto|]. exfalso. unfold open_buffer_steps in E.
  destruct (select_buffer_by_path al (seen h) w p) as [[[|] w1]|]; try discriminate; cbn [bind] in E; [].
  pose proof (iload_finishes p h bs es Hr O He Hl) as F. destruct (iloading p (IOpened :: es) (IAsking, h)) as [ph g]. cbn [fst] in F. subst ph.
  cbn [iread_result] in E. destruct (from_file_given al (decode_strict bs) (seen g) p) as [[b|e]|]; try discriminate; cbn [bind] in E; try discriminate.
  destruct (add_buffer al w1 b); discriminate.
Qed.

(** ** Each call by itself *)

Lemma session_step_ordinary brk h0 w h al c o w' h' : renaming_session brk h0 w h -> icall_ok brk c -> others_rename h c ->
  iexec brk al c w h = Ok (Some (o, w'), h') ->
  exists c' g g', same_call c c' /\ fs_target g = hd_target h /\ wexec brk al c' w g = Ok (o, w', g').
Proof.
  intros R Hc Hr E. pose proof (session_reachable _ _ _ _ R) as Rw. destruct (reach_sim _ _ _ _ Rw) as (s & S & _).
  apply session_inv in R as (_ & F & _).
  destruct (step_ordinary brk al c w s h o w' h' S F Hc Hr E) as [_ (g & c' & g' & H1 & H2 & _ & _ & _ & H3 & _)]. eauto 8.
Qed.

Lemma reload_given_total cls al r b : cls LF = GC_LF -> alloc_ok al -> wfb b -> (forall t, r = Some t -> valid_text t) ->
  exists o, reload_given (uax29 cls) al r b = Ok o.
Proof.
  intros HL Ha W V. destruct (b_path b) as [p|] eqn:P; [|unfold reload_given; rewrite P; eauto].
  destruct r as [t|]; [|unfold reload_given; rewrite P; eauto].
  pose (f := FS (fun x => Some x) (fun _ => Some (Regular (enc t)))).
  assert (Rd : read_to_string f p = Some t) by (apply readable; split; [now apply V|reflexivity]).
  pose proof (bexec_any (uax29 cls) al BReload b f Ha I W) as X. cbn [bexec] in X. unfold buf_reload in X. rewrite P, Rd in X.
  unfold reload_given. rewrite P. destruct (buf_replace (uax29 cls) al b t); cbn [bind] in *; [eauto|].
  now destruct (X (uax29_order_safe cls HL)).
Qed.
Lemma session_total cls h0 w h al c : cls LF = GC_LF -> renaming_session (uax29 cls) h0 w h -> alloc_ok al ->
  icall_ok (uax29 cls) c -> exists o h', iexec (uax29 cls) al c w h = Ok (o, h').
Proof.
  intros HL R Ha Hc. pose proof (session_reachable _ _ _ _ R) as Rw. destruct (reach_sim _ _ _ _ Rw) as (s & S & W).
  destruct (sim_shows _ _ S) as [(_ & _ & Cw & _) _].
  assert (Wb : forall b, w_current w = Some b -> wfb b).
  { intros b Hb. rewrite Cw in Hb. destruct (selected_split _ _ Hb) as (pre & post & E1 & _). rewrite E1 in W.
    apply Forall_app in W as [_ W]. now inversion_clear W. }
  destruct c as [c|p es|es|es|g]; cbn [iexec icall_ok] in *.
  - destruct (spec_wcall_total cls al c s (seen h) HL Ha Hc W) as (o & s' & f' & E).
    pose proof (wexec_sim (uax29 cls) al c w s (seen h) S) as X. rewrite E in X. destruct X as (w1 & -> & _). cbn [bind]. eauto.
  - destruct (open_total al p es w s h S) as (o & h' & E). rewrite E. cbn [bind]. eauto.
  - unfold on_current. destruct (w_current w) as [b|]; [|eauto]. unfold reload_steps.
    destruct (b_path b) as [p|]; [|cbn [bind]; eauto]. destruct (iloading p es (IAsking, h)) as [ph g].
    destruct (iread_result ph) as [r|] eqn:Er; [|cbn [bind]; eauto].
    destruct (reload_given_total cls al r b HL Ha (Wb b eq_refl)) as (x & ->); [intros t ->; now apply iresult_valid in Er|].
    cbn [bind]. eauto.
  - unfold on_current. destruct (w_current w) as [b|]; [|eauto]. unfold save_steps.
    destruct (b_path b) as [p|]; [|cbn [bind]; eauto]. destruct (wfb_data_total b (Wb b eq_refl)) as (t & Et & _). rewrite Et. cbn [bind].
    destruct (isaving p (enc t) es (SOpening, h)) as [ph g]. destruct (ianswer ph) as [[u|e]|]; cbn [bind]; eauto.
  - eauto.
Qed.

Lemma disk_then_others p : forall es ph h, snd (iloading p es (ph, h)) = others_did es h.
Proof.
  induction es as [|e es IH]; intros ph h; [reflexivity|].
  cbn [iloading fold_left]. change (fold_left _ es ?s) with (iloading p es s).
  assert (Q : quiet e -> snd (iloading p es (iload_step p e (ph, h))) = others_did es h).
  { intros q. pose proof (istep_disk p e ph h q) as D. destruct (iload_step p e (ph, h)) as [ph' h']. cbn [snd] in D. subst h'. apply IH. }
  destruct e as [| |n| | |q new bs|g]; cbn [others_did]; try (apply Q; exact I); apply IH.
Qed.
Lemma reads_only brk al c w h o h' : iexec brk al c w h = Ok (o, h') ->
  match c with
  | IOpen _ es | IReload es => h' = h \/ h' = others_did es h
  | ICall _ => h' = h
  | ISave _ | IDisk _ => True
  end.
Proof.
  destruct c as [c|p es|es|es|g]; cbn [iexec]; try exact (fun _ => I).
  - destruct (wexec brk al c w (seen h)) as [[[? ?] ?]|]; [|discriminate]. cbn [bind]. intros [= _ <-]. reflexivity.
  - unfold open_buffer_steps. destruct (select_buffer_by_path al (seen h) w p) as [[[|] w1]|]; try discriminate; cbn [bind].
    { intros [= _ <-]. now left. }
    pose proof (disk_then_others p es IAsking h) as D. destruct (iloading p es (IAsking, h)) as [ph g]. cbn [snd] in D. subst g.
    destruct (iread_result ph) as [r|]; [|cbn [bind]; intros [= _ <-]; now right].
    destruct (from_file_given al r _ p) as [[b|e]|]; try discriminate; cbn [bind].
    + destruct (add_buffer al w1 b); [|discriminate]. cbn [bind]. intros [= _ <-]. now right.
    + intros [= _ <-]. now right.
  - unfold on_current. destruct (w_current w) as [b|]; [|intros [= _ <-]; now left]. unfold reload_steps.
    destruct (b_path b) as [p|]; [|cbn [bind]; intros [= _ <-]; now left].
    pose proof (disk_then_others p es IAsking h) as D. destruct (iloading p es (IAsking, h)) as [ph g]. cbn [snd] in D. subst g.
    destruct (iread_result ph) as [r|]; [|cbn [bind]; intros [= _ <-]; now right].
    destruct (reload_given brk al r b) as [x|]; [|discriminate]. cbn [bind]. intros [= _ <-]. now right.
Qed.

Lemma save_moment es b p t h r b' h' : b_path b = Some p -> buf_data b = Ok t -> new_numbers es h ->
  save_steps es b h = Ok (Some (r, b'), h') ->
  (r = ROk tt /\ buf_data b' = Ok t /\ buf_modified b' = false /\
   (reads h' p = Some (enc t) \/
    exists es1 q new bs es2, es = es1 ++ SRenamed q new bs :: es2 /\ hd_target h p = Some q /\
      has_opened (fst (isaving p (enc t) es1 (SOpening, h))) = true /\ reads h' p = Some bs)) \/
  (r = RErr IoError /\ b' = b /\
   (reads h' p = reads h p \/ (exists k, reads h' p = Some (firstn k (enc t))) \/
    exists q new bs, In (SRenamed q new bs) es /\ hd_target h p = Some q /\ reads h' p = Some bs)).
Proof.
  intros P D N. unfold save_steps. rewrite P, D. cbn [bind]. destruct (isaving p (enc t) es (SOpening, h)) as [ph g] eqn:E.
  destruct ph as [|i pos|i|i]; cbn [ianswer]; try discriminate; intros [= <- <- <-].
  - left. split; [reflexivity|]. split; [exact D|]. split; [unfold buf_modified, hist_at_mark; cbn; now rewrite Nat.eqb_refl|].
    eapply save_succeeded; eassumption.
  - right. split; [reflexivity|]. split; [reflexivity|]. eapply save_never_mixes; eassumption.
Qed.
