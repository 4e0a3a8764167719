(** Lemmas behind the file, cursor and callback properties of buffers. *)
From Verif Require Import Base Utf8 Utf8Proofs Grapheme GraphemeProofs Position GapBuffer
  GapBufferProofs Cursor PathModel Buffer Spec CursorSpec CursorCalls Calls TextProofs HalvesProofs TextFacts GapProps
  CursorProofs OpProofs BufferCalls Timeline TimelineProofs AnyTextProofs BufferProps.

(** ** No panics *)

Lemma buffer_no_panic cls f b0 cs : cls LF = GC_LF -> fresh_buffer f b0 ->
  Forall (fun ac => alloc_ok (fst ac) /\ call_ok (snd ac)) cs ->
  exists os b f', brun (uax29 cls) cs b0 f = Ok (os, b, f').
Proof.
  intros HL H0 Hc. pose proof (brun_any (uax29 cls) cs b0 f (fresh_wfb _ _ H0) Hc) as X.
  destruct (brun (uax29 cls) cs b0 f) as [[[os b] f']|]; [eauto|].
  now destruct (X (uax29_order_safe cls HL)).
Qed.

Lemma buffer_text_valid brk b f : reachable_buffer brk b f -> exists t, buf_data b = Ok t /\ valid_text t.
Proof. intros R. now apply wfb_data_total, (reachable_wfb brk b f). Qed.

(** ** Callbacks *)

Lemma call_announces brk b f al c o b' f' t t' : reachable_buffer brk b f -> alloc_ok al -> call_ok c ->
  b_callback b = true -> bexec brk al c b f = Ok (o, b', f') -> buf_data b = Ok t -> buf_data b' = Ok t' ->
  exists ps, b_log b' = b_log b ++ ps
    /\ forall n, Forall (fun p => n <= line p) ps -> same_lines n t t'.
Proof.
  intros R Hal Hc Hcb E Et Et'. pose proof (bexec_any brk al c b f Hal Hc (reachable_wfb _ _ _ R)) as X.
  rewrite E in X. destruct X as (_ & ps & L & F). rewrite Hcb in L. exists ps. split; [assumption|].
  intros n Hn. now apply F.
Qed.

Lemma concat_full t : concat (full_lines t) = t.
Proof.
  induction t as [|c t IH]; [reflexivity|]. destruct (N.eq_dec c LF) as [->|E].
  - rewrite full_lines_lf. cbn [concat app]. now rewrite IH.
  - rewrite (full_lines_char _ _ E). pose proof (full_lines_ne t). destruct (full_lines t); [contradiction|].
    cbn [concat app] in *. now rewrite IH.
Qed.
Lemma same_lines_all t t' : (forall n, same_lines n t t') -> t = t'.
Proof.
  intros H. specialize (H (length (full_lines t) + length (full_lines t'))). unfold same_lines in H.
  rewrite !firstn_all2 in H by lia. rewrite <- (concat_full t), <- (concat_full t'). congruence.
Qed.
Lemma change_is_announced brk b f al c o b' f' : reachable_buffer brk b f -> alloc_ok al -> call_ok c ->
  b_callback b = true -> bexec brk al c b f = Ok (o, b', f') -> buf_data b' <> buf_data b ->
  exists p ps, b_log b' = b_log b ++ p :: ps.
Proof.
  intros R Hal Hc Hcb E Hne.
  pose proof (bexec_any brk al c b f Hal Hc (reachable_wfb _ _ _ R)) as X. rewrite E in X. destruct X as (W' & _).
  destruct (buffer_text_valid _ _ _ R) as (t & Et & _). destruct (wfb_data_total _ W') as (t' & Et' & _).
  destruct (call_announces _ _ _ _ _ _ _ _ _ _ R Hal Hc Hcb E Et Et') as (ps & L & F).
  destruct ps as [|p ps]; [|eauto]. exfalso. apply Hne. rewrite Et, Et'. f_equal. symmetry.
  apply same_lines_all. intros n. apply F. constructor.
Qed.

(** ** Saving *)

Lemma path_eqb_refl p : path_eqb p p = true.
Proof. unfold path_eqb. now destruct (path_eq_dec p p). Qed.
Lemma path_eqb_neq p q : p <> q -> path_eqb p q = false.
Proof. unfold path_eqb. now destruct (path_eq_dec p q). Qed.

(** Writing through a path changes the file for all its names, and no other. *)
Lemma write_reads f p bs : fs_creatable f p = true -> forall p', same_file f p' p -> fs_read (fs_write f p bs) p' = Some bs.
Proof.
  unfold fs_creatable, fs_write, same_file, fs_read. destruct (fs_target f p) as [q|]; [|discriminate].
  intros _ p' E. cbn. rewrite E. now rewrite path_eqb_refl.
Qed.
Lemma write_others f p bs p' : ~ same_file f p' p -> fs_read (fs_write f p bs) p' = fs_read f p'.
Proof.
  unfold fs_write, same_file, fs_read. destruct (fs_target f p) as [q|]; [|reflexivity]. cbn.
  destruct (fs_target f p') as [q'|]; [|reflexivity]. intros H. rewrite path_eqb_neq; [reflexivity|congruence].
Qed.
Lemma write_canon f p bs p' : ~ same_file f p' p -> fs_canon (fs_write f p bs) p' = fs_canon f p'.
Proof.
  unfold fs_write, same_file, fs_canon. destruct (fs_target f p) as [q|]; [|reflexivity]. cbn.
  destruct (fs_target f p') as [q'|]; [|reflexivity]. intros H. rewrite path_eqb_neq; [reflexivity|congruence].
Qed.
Lemma write_targets f p bs : fs_target (fs_write f p bs) = fs_target f.
Proof. unfold fs_write. now destruct (fs_target f p). Qed.
Lemma outcome_creatable f p w : outcome f p w <> CreateFails -> fs_creatable f p = true.
Proof. unfold outcome. now destruct (fs_creatable f p). Qed.

Lemma save_ok brk b f w b' f' : reachable_buffer brk b f -> buf_save f w b = Ok (ROk tt, b', f') ->
  exists p t, b_path b = Some p /\ buf_data b = Ok t /\ buf_data b' = Ok t /\
    (forall p', same_file f p' p -> fs_read f' p' = Some (enc t)) /\
    (forall p', ~ same_file f p' p -> fs_read f' p' = fs_read f p' /\ fs_canon f' p' = fs_canon f p') /\
    fs_target f' = fs_target f /\ buf_modified b' = false /\ only_mark_changed b b'.
Proof.
  intros R E. destruct (buffer_text_valid _ _ _ R) as (t & Et & V). unfold buf_save in E.
  destruct (b_path b) as [p|] eqn:Ep; [|discriminate]. rewrite Et in E.
  pose proof (outcome_creatable f p w) as Hc.
  destruct (outcome f p w); cbn [bind] in E; try discriminate. injection E as <- <-.
  exists p, t. split; [reflexivity|]. split; [assumption|]. split; [assumption|].
  split; [apply write_reads, Hc; discriminate|].
  split; [intros p' Hq; split; [now apply write_others|now apply write_canon]|].
  split; [apply write_targets|]. split; [|now repeat split].
  unfold buf_modified, hist_at_mark. cbn. now rewrite Nat.eqb_refl.
Qed.

Lemma readable f p t : read_to_string f p = Some t <-> valid_text t /\ fs_read f p = Some (enc t).
Proof.
  unfold read_to_string. split.
  - destruct (fs_read f p) as [bs|]; [|discriminate]. intros E. apply decode_strict_valid in E as [V <-]. now split.
  - intros [V ->]. now apply decode_strict_enc.
Qed.

Lemma read_canon f p bs : fs_read f p = Some bs -> exists cp, fs_target f p = Some cp /\ fs_canon f p = Some cp.
Proof.
  unfold fs_read, fs_canon. destruct (fs_target f p) as [q|]; [|discriminate].
  destruct (fs_node f q); [|discriminate]. eauto.
Qed.

Lemma load_ok f p t al : read_to_string f p = Some t ->
  exists b cp, from_file al f p = Ok (ROk b) /\ buf_data b = Ok t /\ c_pos (b_cursor b) = Pos 0 0 /\
    buf_modified b = false /\ fs_target f p = Some cp /\ b_path b = Some cp.
Proof.
  intros Er. unfold from_file. rewrite Er. apply readable in Er as [V Er].
  destruct (read_canon _ _ _ Er) as (cp & Et & Ec).
  destruct (new_ok al t V) as (g & Eg & Rg). rewrite Eg. cbn [bind]. rewrite Ec.
  eexists _, cp. split; [reflexivity|]. unfold buf_data. cbn. rewrite (to_string_ok _ _ _ Rg), app_nil_r. auto 8.
Qed.

Lemma save_load brk b f w b' f' al : reachable_buffer brk b f -> buf_save f w b = Ok (ROk tt, b', f') ->
  exists p cp, b_path b = Some p /\ fs_target f p = Some cp /\ forall p', same_file f p' p ->
  exists b2, from_file al f' p' = Ok (ROk b2) /\ buf_data b2 = buf_data b /\
    c_pos (b_cursor b2) = Pos 0 0 /\ buf_modified b2 = false /\ b_path b2 = Some cp.
Proof.
  intros R E. destruct (save_ok _ _ _ _ _ _ R E) as (p & t & Ep & Et & _ & Ef & _ & Eg & _).
  destruct (buffer_text_valid _ _ _ R) as (t' & Et' & V). rewrite Et in Et'. injection Et' as <-.
  assert (L : forall p', same_file f p' p -> exists b2 cp, from_file al f' p' = Ok (ROk b2) /\ buf_data b2 = Ok t /\
    c_pos (b_cursor b2) = Pos 0 0 /\ buf_modified b2 = false /\ fs_target f p = Some cp /\ b_path b2 = Some cp).
  { intros p' Hp. destruct (load_ok f' p' t al) as (b2 & cp & E2 & D2 & C2 & M2 & T2 & P2).
    { apply readable. split; [assumption|]. now apply Ef. }
    exists b2, cp. rewrite Eg, Hp in T2. auto 8. }
  destruct (L p eq_refl) as (_ & cp & _ & _ & _ & _ & Ec & _). exists p, cp. split; [assumption|]. split; [assumption|].
  intros p' Hp. destruct (L p' Hp) as (b2 & cp2 & E2 & D2 & C2 & M2 & T2 & P2). exists b2. rewrite Et.
  rewrite Ec in T2. injection T2 as <-. auto 8.
Qed.

(** Saving succeeds exactly when there is a path, a file can be there and the
    disk accepts all of it. *)
Lemma save_outcome brk b f w : reachable_buffer brk b f ->
  exists r b' f', buf_save f w b = Ok (r, b', f') /\
    (r = ROk tt <-> exists p, b_path b = Some p /\ fs_creatable f p = true /\ w = WriteSucceeds).
Proof.
  intros R. destruct (buffer_text_valid _ _ _ R) as (t & Et & V). unfold buf_save.
  destruct (b_path b) as [p|].
  - unfold outcome. rewrite Et. destruct (fs_creatable f p) eqn:Hc.
    + destruct w; cbn [bind]; do 3 eexists; (split; [reflexivity|]); split; try discriminate;
        try (intros (p' & _ & _ & H); discriminate); try reflexivity. intros _. exists p. auto.
    + do 3 eexists. split; [reflexivity|]. split; [discriminate|]. intros (p' & [= <-] & H & _). congruence.
  - do 3 eexists. split; [reflexivity|]. split; [discriminate|]. now intros (p & H & _).
Qed.

Lemma load_outcome f p al : exists r, from_file al f p = Ok r /\
  match r with
  | ROk b => exists t, valid_text t /\ fs_read f p = Some (enc t) /\ buf_data b = Ok t
  | RErr e => e = IoError /\ forall t, valid_text t -> fs_read f p <> Some (enc t)
  end.
Proof.
  destruct (read_to_string f p) as [t|] eqn:Er.
  - destruct (load_ok f p t al Er) as (b & cp & E & D & _). exists (ROk b). split; [assumption|].
    apply readable in Er as [V Er]. eauto.
  - exists (RErr IoError). split; [unfold from_file; now rewrite Er|]. split; [reflexivity|]. intros t V E.
    rewrite (proj2 (readable f p t)) in Er by now split. discriminate.
Qed.

Lemma save_fails f w b e b' f' : buf_save f w b = Ok (RErr e, b', f') -> b' = b.
Proof.
  unfold buf_save. destruct (b_path b); [|intros E; now injection E].
  destruct (outcome f _ w); [intros E; now injection E| |]; (destruct (buf_data b); [|discriminate]); intros E; cbn in E; now injection E.
Qed.

(** ** Reloading *)

Lemma read_valid f p s : read_to_string f p = Some s -> valid_text s.
Proof.
  unfold read_to_string. destruct (fs_read f p); [|discriminate]. intros E. now apply decode_strict_valid in E as [? _].
Qed.

Lemma replace_text brk al b s t : alloc_ok al -> wfb b -> valid_text s -> buf_data b = Ok t ->
  exists b', buf_replace brk al b s = Ok b' /\ buf_data b' = Ok s /\
    b_id b' = b_id b /\ b_syntax b' = b_syntax b /\ b_path b' = b_path b /\ b_callback b' = b_callback b /\
    (s = t -> b' = b) /\
    (s <> t -> match b_group b with
               | None => b_group b' = None /\ b_history b' = hist_add (b_history b) (OpReplace t s)
               | Some ops => b_group b' = Some (ops ++ [OpReplace t s]) /\ b_history b' = b_history b
               end).
Proof.
  intros Hal W V Et. unfold buf_replace. rewrite Et. cbn [bind].
  destruct (list_N_eqb s t) eqn:El.
  - apply list_N_eqb_eq in El. subst s. exists b. do 7 (split; [solve [intros; reflexivity|assumption]|]). intros H; now destruct (H eq_refl).
  - apply list_N_eqb_neq in El. cbn [op_run].
    destruct (replace_content_step brk al s b V) as (b' & E & [S1 (R1 & R2 & R3 & R4 & R5 & R6) S3] & Ed). rewrite E. cbn [bind].
    eexists. split; [reflexivity|]. unfold store. rewrite R4.
    destruct (b_group b) as [ops|]; cbn; rewrite ?R1, ?R2, ?R3, ?R4, ?R5, ?R6;
      do 6 (split; [solve [reflexivity|assumption|congruence]|]); intros _; now split.
Qed.

Lemma reload_ok brk b f al al' b' : reachable_buffer brk b f -> alloc_ok al -> alloc_ok al' ->
  buf_reload brk al f b = Ok (ROk tt, b') ->
  exists p s t, b_path b = Some p /\ read_to_string f p = Some s /\ buf_data b = Ok t /\
    buf_data b' = Ok s /\ buf_modified b' = false /\
    b_id b' = b_id b /\ b_syntax b' = b_syntax b /\ b_path b' = b_path b /\
    (b_group b = None -> s <> t -> exists b2, buf_undo brk al' b' = Ok b2 /\ buf_data b2 = Ok t).
Proof.
  intros R Hal Hal' E. pose proof (reachable_wfb _ _ _ R) as W.
  destruct (wfb_data_total b W) as (t & Et & Vt). unfold buf_reload in E.
  destruct (b_path b) as [p|] eqn:Ep; [|discriminate].
  destruct (read_to_string f p) as [s|] eqn:Er; [|discriminate]. pose proof (read_valid _ _ _ Er) as V.
  destruct (replace_text brk al b s t Hal W V Et) as (b1 & E1 & D1 & X1 & X2 & X3 & X4 & X5 & X6).
  rewrite E1 in E. cbn [bind] in E. injection E as <-.
  exists p, s, t. repeat (split; [solve [reflexivity|assumption]|]).
  split. { unfold buf_modified, hist_at_mark. cbn. now rewrite Nat.eqb_refl. }
  split; [assumption|]. split; [assumption|]. split; [cbn; congruence|].
  intros G Hne. rewrite G in X6. destruct (X6 Hne) as [G1 H1]. unfold buf_undo.
  cbn [b_group set_history]. rewrite G1. cbn [b_history set_group set_history hist_mark]. rewrite H1.
  unfold hist_previous. cbn [hist_mark h_previous hist_add h_next h_mark].
  cbn [op_reverse].
  match goal with |- context [replace_content brk al' t ?x] =>
    destruct (replace_content_step brk al' t x Vt) as (b2 & E2 & _ & D2) end.
  eauto.
Qed.

Lemma reload_fails brk b f al : reachable_buffer brk b f -> alloc_ok al ->
  match b_path b with
  | None => buf_reload brk al f b = Ok (RErr MissingPath, b)
  | Some p => match read_to_string f p with
              | None => buf_reload brk al f b = Ok (RErr IoError, b)
              | Some _ => exists b', buf_reload brk al f b = Ok (ROk tt, b')
              end
  end.
Proof.
  intros R Hal. unfold buf_reload. destruct (b_path b) as [p|]; [|reflexivity].
  destruct (read_to_string f p) as [s|] eqn:Er; [|reflexivity].
  destruct (replace_any brk al b s Hal (reachable_wfb _ _ _ R) (read_valid _ _ _ Er)) as (b' & E & _).
  rewrite E. cbn [bind]. eauto.
Qed.

(** ** Replacing keeps the cursor where it can *)

Lemma fresh_in_bounds brk g s : rep g s [] -> forall p, in_bounds brk g p = Ok (is_some (hsplit brk s [] p)).
Proof. intros R p. now apply in_bounds_halves. Qed.

Lemma origin_in_bounds brk g : wf g -> in_bounds brk g (Pos 0 0) = Ok true.
Proof.
  intros (a & b & R). rewrite (in_bounds_halves _ _ _ _ _ R).
  replace (hsplit brk a b (Pos 0 0)) with (Some (@nil grapheme, hgs brk a b)); [reflexivity|].
  symmetry. unfold hsplit. apply gsplit_iff. now split.
Qed.

Lemma replace_cursor brk b f al s t b' : reachable_buffer brk b f -> alloc_ok al -> valid_text s ->
  buf_data b = Ok t -> s <> t -> buf_replace brk al b s = Ok b' ->
  exists ok, (forall p, in_bounds brk (b_data b') p = Ok (ok p)) /\
    c_pos (b_cursor b') = kept_cursor ok (c_pos (b_cursor b)) /\ ok (c_pos (b_cursor b')) = true.
Proof.
  intros R Hal V Et Hne E. unfold buf_replace in E. rewrite Et in E. cbn [bind] in E.
  apply list_N_eqb_neq in Hne. rewrite Hne in E. cbn [op_run] in E. unfold replace_content in E.
  destruct (new_ok al s V) as (g & Eg & Rg). rewrite Eg in E. cbn [bind] in E.
  assert (W : wf g) by (eexists _, _; eassumption).
  set (ok := fun p => is_some (hsplit brk s [] p)).
  assert (Hok : forall p, in_bounds brk g p = Ok (ok p)) by (intros p; now apply fresh_in_bounds).
  assert (H0 : ok (Pos 0 0) = true).
  { pose proof (Hok (Pos 0 0)) as X. rewrite (origin_in_bounds _ _ W) in X. congruence. }
  exists ok. revert E. unfold move_to. rewrite !Hok. cbn [bind]. unfold kept_cursor.
  destruct (ok (c_pos (b_cursor b))) eqn:E1; cbn [bind].
  - intros E. injection E as <-. unfold store.
    match goal with |- context [b_group ?x] => destruct (b_group x) end; cbn; rewrite ?E1; auto.
  - rewrite ?Hok. cbn [bind]. destruct (ok (Pos (line (c_pos (b_cursor b))) 0)) eqn:E2; cbn [bind];
    intros E; injection E as <-; unfold store;
    match goal with |- context [b_group ?x] => destruct (b_group x) end; cbn; rewrite ?E1, ?E2; auto.
Qed.

Lemma replace_same brk b f al t : reachable_buffer brk b f -> buf_data b = Ok t -> buf_replace brk al b t = Ok b.
Proof. intros _ Et. unfold buf_replace. rewrite Et. cbn [bind]. now rewrite list_N_eqb_refl. Qed.

Lemma replace_cursor_plain brk b f al s t b' : reachable_buffer brk b f -> alloc_ok al -> valid_text s ->
  plain_newlines brk s -> buf_data b = Ok t -> s <> t -> buf_replace brk al b s = Ok b' ->
  c_pos (b_cursor b') = kept_cursor (exists_at brk s) (c_pos (b_cursor b))
  /\ exists_at brk s (c_pos (b_cursor b')) = true.
Proof.
  intros R Hal V Hp Et Hne E. destruct (replace_cursor _ _ _ _ _ _ _ R Hal V Et Hne E) as (ok & Hok & Ec & Hc).
  assert (H : holds brk (b_data b') s).
  { unfold buf_replace in E. rewrite Et in E. cbn [bind] in E. apply list_N_eqb_neq in Hne. rewrite Hne in E.
    cbn [op_run] in E. destruct (replace_content_ok brk al s b V Hp) as (b1 & E1 & [H1 _] & _).
    rewrite E1 in E. cbn [bind] in E. injection E as <-. now rewrite store_data. }
  assert (X : forall p, exists_at brk s p = ok p).
  { intros p. pose proof (holds_in_bounds _ _ _ p H Hp) as Y. rewrite Hok in Y. congruence. }
  rewrite X. split; [|assumption]. rewrite Ec. unfold kept_cursor. now rewrite !X.
Qed.

(** ** Buffers without a path *)

Lemma unmarked_step brk al c b f o b' f' : alloc_ok al -> call_ok c -> no_path c -> wfb b ->
  b_path b = None -> h_mark (b_history b) = None -> bexec brk al c b f = Ok (o, b', f') ->
  b_path b' = None /\ h_mark (b_history b') = None.
Proof.
  intros Hal Hc Hn W Ep Em E. pose proof (wfb_data _ W) as Wd.
  assert (St : forall b1 op, same_rest b b1 -> b_path (store b1 op) = None /\ h_mark (b_history (store b1 op)) = None).
  { intros b1 op (_ & R2 & R3 & R4 & _). unfold store. destruct (b_group b1); cbn; rewrite R2, R3; [now split|].
    split; [assumption|]. now rewrite Em. }
  destruct c; cbn [bexec no_path call_ok] in *.
  - unfold buf_insert in E. pose proof (op_run_step brk al (OpInsert data (c_pos (b_cursor b))) Hal Hc b Wd) as X.
    destruct (op_run brk al _ b) as [[op' b1]|]; [|discriminate]. destruct X as [[_ X _] _].
    cbn [bind] in E. injection E as <- <- <-. now apply St.
  - unfold buf_delete in E. destruct (in_bounds _ _ _) as [k|]; [|discriminate]. cbn [bind] in E.
    unfold buf_delete_range in E. set (q := if k then _ else _) in *.
    pose proof (op_run_step brk al (OpDelete None (range_new (c_pos (b_cursor b)) q)) Hal
      (conj I (ex_intro _ _ (ex_intro _ _ eq_refl))) b Wd) as X.
    destruct (op_run brk al _ b) as [[op' b1]|]; [|discriminate]. destruct X as [[_ X _] _].
    cbn [bind] in E. injection E as <- <- <-. now apply St.
  - unfold buf_delete_range in E.
    pose proof (op_run_step brk al (OpDelete None (range_new p q)) Hal
      (conj I (ex_intro _ _ (ex_intro _ _ eq_refl))) b Wd) as X.
    destruct (op_run brk al _ b) as [[op' b1]|]; [|discriminate]. destruct X as [[_ X _] _].
    cbn [bind] in E. injection E as <- <- <-. now apply St.
  - unfold buf_replace in E. destruct (wfb_data_total b W) as (t & Et & Vt). rewrite Et in E. cbn [bind] in E.
    destruct (list_N_eqb content t); [injection E as <- <- <-; now split|]. cbn [op_run] in E.
    destruct (replace_content_step brk al content b Hc) as (b1 & E1 & [_ X _] & _). rewrite E1 in E. cbn [bind] in E.
    injection E as <- <- <-. now apply St.
  - destruct (buf_undo brk al b) as [b1|] eqn:E1; [|discriminate]. cbn [bind] in E. injection E as <- <- <-.
    unfold buf_undo in E1. destruct W as [_ W2 W3 W4].
    assert (Hist : (let '(op, b2) := (let '(op, h) := hist_previous (b_history (set_group b None)) in
         (op, set_history (set_group b None) h)) in
         match op with Some op => op_reverse brk al op b2 | None => Ok b2 end) = Ok b1 ->
         b_path b1 = None /\ h_mark (b_history b1) = None).
    { clear E1. cbn [b_history set_group]. unfold hist_previous. destruct (h_previous (b_history b)) as [|op ops].
      - intros E1. injection E1 as <-. now split.
      - inversion_clear W2 as [|? ? V _]. intros E1.
        match type of E1 with op_reverse _ _ _ ?x = _ => pose proof (op_reverse_step brk al op Hal V x Wd) as X end.
        rewrite E1 in X. destruct X as [_ (_ & R2 & R3 & _) _]. cbn in R2, R3. rewrite R2, R3. now split. }
    destruct (b_group b) as [[|o' ops]|]; try (now apply Hist).
    pose proof (op_reverse_step brk al (OpGroup (o' :: ops)) Hal (proj2 (op_valid_group _) W4) (set_group b None) Wd) as X.
    rewrite E1 in X. destruct X as [_ (_ & R2 & R3 & _) _]. cbn in R2, R3. rewrite R2, R3. now split.
  - destruct (buf_redo brk al b) as [b1|] eqn:E1; [|discriminate]. cbn [bind] in E. injection E as <- <- <-.
    unfold buf_redo, hist_next in E1. destruct W as [_ W2 W3 W4]. destruct (h_next (b_history b)) as [|op ops].
    + injection E1 as <-. now split.
    + inversion_clear W3 as [|? ? V _].
      match type of E1 with context [op_run _ _ _ ?x] => pose proof (op_run_step brk al op Hal V x Wd) as X end.
      destruct (op_run brk al op _) as [[op' b2]|]; [|discriminate]. cbn [bind] in E1. injection E1 as <-.
      destruct X as [[_ (_ & R2 & R3 & _) _] _]. cbn in R2, R3. rewrite R2, R3. now split.
  - injection E as <- <- <-. unfold start_group. destruct (b_group b); now split.
  - injection E as <- <- <-. unfold end_group. destruct (b_group b) as [[|o' ops]|]; cbn; rewrite ?Em; now split.
  - destruct (cexec _ _ _ _); [|discriminate]. cbn [bind] in E. injection E as <- <- <-. now split.
  - injection E as <- <- <-. now split.
  - unfold buf_save in E. rewrite Ep in E. cbn [bind] in E. injection E as <- <- <-. now split.
  - unfold buf_reload in E. rewrite Ep in E. cbn [bind] in E. injection E as <- <- <-. now split.
  - destruct p; [contradiction|]. injection E as <- <- <-. now split.
  - injection E as <- <- <-. now split.
  - injection E as <- <- <-. now split.
  - injection E as <- <- <-. now split.
  - injection E as <- <- <-. now split.
Qed.

Lemma pathless_modified brk al b0 f cs os b f' : buffer_new al = Ok b0 ->
  Forall (fun ac => alloc_ok (fst ac) /\ call_ok (snd ac)) cs ->
  Forall (fun ac => no_path (snd ac)) cs -> brun brk cs b0 f = Ok (os, b, f') -> buf_modified b = true.
Proof.
  intros E0 Hc Hn E.
  assert (X : b_path b0 = None /\ h_mark (b_history b0) = None).
  { unfold buffer_new in E0. destruct (gb_new al []); [|discriminate]. injection E0 as <-. now split. }
  assert (W : wfb b0) by (apply (fresh_wfb f); left; eauto).
  enough (H : h_mark (b_history b) = None) by (unfold buf_modified, hist_at_mark; now rewrite H).
  clear E0. revert b0 f os E W X. induction cs as [|[al' c] cs IH]; intros b0 f os E W X; cbn [brun] in E.
  - injection E as _ <- _. apply X.
  - inversion_clear Hc as [|? ? [Ha Hv] Hc']. inversion_clear Hn as [|? ? N1 N2]. cbn [fst snd] in *.
    pose proof (bexec_any brk al' c b0 f Ha Hv W) as Y.
    destruct (bexec brk al' c b0 f) as [[[o b1] f1]|] eqn:E1; [|discriminate]. cbn [bind] in E. destruct Y as [W1 _].
    destruct (brun brk cs b1 f1) as [[[os' b2] f2]|] eqn:E2; [|discriminate]. cbn [bind] in E. injection E as _ <- <-.
    destruct X as [X1 X2]. exact (IH Hc' N2 _ _ _ E2 W1 (unmarked_step _ _ _ _ _ _ _ _ Ha Hv N1 W X1 X2 E1)).
Qed.

(** ** The cursor *)

Lemma cursor_step brk al c b f tl o b' f' : session brk b f tl -> alloc_ok al ->
  legal brk c (c_pos (b_cursor b)) (file_of b f) tl -> bexec brk al c b f = Ok (o, b', f') ->
  keeps_cursor c = true -> exists_at brk (tl_text tl) (c_pos (b_cursor b)) = true ->
  exists_at brk (tl_text (tl_step brk c (c_pos (b_cursor b)) (file_of b f) o tl)) (c_pos (b_cursor b')) = true.
Proof.
  intros Hs Hal Hl E Hk Hc.
  assert (Ssame : forall b0 b1 op, c_pos (b_cursor b1) = c_pos (b_cursor b0) -> c_pos (b_cursor (store b1 op)) = c_pos (b_cursor b0)).
  { intros b0 b1 op X. unfold store. now destruct (b_group b1). }
  pose proof (session_inv _ _ _ _ Hs) as I0. pose proof (inv_data _ _ _ I0) as [Hd Hp].
  pose proof (holds_wf _ _ _ Hd) as W.
  assert (Te : forall t, tl_text (tl_edit tl t) = t).
  { intros t. unfold tl_edit. now destruct (group tl) as [[?|]|]. }
  destruct Hl as [Hl Ha].
  assert (Rep : forall s b1, valid_text s -> plain_newlines brk s -> buf_replace brk al b s = Ok b1 ->
     tl_text (tl_replace tl s) = s /\ exists_at brk s (c_pos (b_cursor b1)) = true).
  { intros s b1 V Hps Er. unfold tl_replace. destruct (list_eq_dec N.eq_dec s (tl_text tl)) as [->|Hne].
    - split; [reflexivity|]. unfold buf_replace in Er. rewrite (session_text _ _ _ _ Hs) in Er. cbn [bind] in Er.
      rewrite list_N_eqb_refl in Er. now injection Er as <-.
    - split; [apply Te|]. unfold buf_replace in Er. rewrite (session_text _ _ _ _ Hs) in Er. cbn [bind] in Er.
      apply list_N_eqb_neq in Hne. rewrite Hne in Er. cbn [op_run] in Er. unfold replace_content in Er.
      destruct (holds_new brk al s V) as (g & Eg & Hg). rewrite Eg in Er. cbn [bind] in Er.
      assert (Ho : exists_at brk s (Pos 0 0) = true).
      { pose proof (holds_in_bounds _ _ _ (Pos 0 0) Hg Hps) as X.
        rewrite (origin_in_bounds _ _ (holds_wf _ _ _ Hg)) in X. congruence. }
      revert Er. unfold move_to. rewrite !(holds_in_bounds _ _ _ _ Hg Hps). cbn [bind].
      destruct (exists_at brk s (c_pos (b_cursor b))) eqn:E1; cbn [bind].
      + intros Er. injection Er as <-. unfold store.
        match goal with |- context [b_group ?x] => destruct (b_group x) end; cbn; assumption.
      + rewrite ?(holds_in_bounds _ _ _ _ Hg Hps). cbn [bind].
        destruct (exists_at brk s (Pos (line (c_pos (b_cursor b))) 0)) eqn:E2; cbn [bind];
        intros Er; injection Er as <-; unfold store;
        match goal with |- context [b_group ?x] => destruct (b_group x) end; cbn; assumption. }
  destruct c; cbn [bexec keeps_cursor clean_edit tl_step edited] in *; try discriminate.
  - (* insert *)
    unfold buf_insert in E. cbn [op_run] in E. destruct (gb_insert brk al (b_data b) data (c_pos (b_cursor b))) as [g1|]; [|discriminate].
    cbn [bind] in E. injection E as <- <- <-. rewrite Te, (Ssame b) by reflexivity.
    destruct (exists_at_true _ _ _ Hc) as (a & r & Es). unfold spec_insert. cbn [clean_call] in Hl. rewrite Es in *.
    destruct Hl as (V & Hpd & Hm). pose proof (split_at_app _ _ _ _ _ Es) as Et. rewrite Et in Es, Hp.
    destruct (split_at_inserted _ _ _ _ _ _ Hp Hpd Es Hm) as [X _]. unfold exists_at. now rewrite X.
  - (* delete *)
    unfold buf_delete in E. rewrite (holds_in_bounds _ _ _ _ Hd Hp) in E. cbn [bind] in E.
    fold (char_end brk (tl_text tl) (c_pos (b_cursor b))) in E. unfold buf_delete_range in E. cbn [op_run] in E.
    destruct (gb_read _ _ _) as [m1|]; [|discriminate]. cbn [bind] in E. destruct (gb_delete _ _ _) as [g1|]; [|discriminate].
    cbn [bind] in E. injection E as <- <- <-. rewrite Te, (Ssame b) by reflexivity.
    assert (L : ple (c_pos (b_cursor b)) (char_end brk (tl_text tl) (c_pos (b_cursor b)))).
    { unfold char_end. match goal with |- context [if ?e then _ else _] => destruct e end; apply ple_spec; cbn [line offset]; lia. }
    destruct (first_of_le _ _ L) as [F1 F2].
    unfold spec_delete. cbn [clean_call] in Hl.
    destruct (spec_cut brk (tl_text tl) (c_pos (b_cursor b)) (char_end brk (tl_text tl) (c_pos (b_cursor b)))) as [[a r]|] eqn:Ec; [|assumption].
    destruct (exists_at_true _ _ _ Hc) as (a' & r' & Es).
    unfold spec_cut in Ec. rewrite F1, Es in Ec.
    assert (a' = a) by (repeat match type of Ec with context [match ?x with _ => _ end] => destruct x as [[? ?]|] end; now injection Ec).
    subst a'. destruct (split_at_inv _ _ _ _ _ Hp Es) as (_ & Ep & _).
    destruct (holds_delete _ _ _ (c_pos (b_cursor b)) (char_end brk (tl_text tl) (c_pos (b_cursor b))) Hd Hp) as (g' & _ & _ & Hp').
    { cbn [clean_call]. unfold spec_cut. rewrite F1, Es, Ec. exact Hl. }
    unfold spec_delete, spec_cut in Hp'. rewrite F1, Es, Ec in Hp'.
    apply no_merge2 in Hl. unfold exists_at. rewrite Ep at 1. now rewrite (split_at_end _ _ _ Hl Hp').
  - destruct (buf_replace brk al b content) as [b1|] eqn:Er; [|discriminate]. cbn [bind] in E. injection E as <- <- <-.
    destruct Hl as [V Hps]. destruct (Rep _ _ V Hps Er) as [-> X]. exact X.
  - injection E as <- <- <-. unfold start_group, tl_start, tl_text in *. destruct (b_group b), (group tl); assumption.
  - injection E as <- <- <-. unfold end_group, tl_end, tl_text in *. destruct (b_group b) as [[|? ?]|], (group tl) as [[?|]|]; assumption.
  - destruct (cexec_stays brk (b_data b) m (b_cursor b) W) as (c' & E1 & Hi). rewrite E1 in E. cbn [bind] in E. injection E as <- <- <-.
    cbn [b_cursor set_cursor]. destruct Hi as [->|Hi]; [assumption|]. rewrite (holds_in_bounds _ _ _ _ Hd Hp) in Hi. congruence.
  - unfold buf_save in E. destruct (b_path b); [|injection E as <- <- <-; assumption].
    rewrite (session_text _ _ _ _ Hs) in E. destruct (outcome f p w); cbn [bind] in E; injection E as <- <- <-; assumption.
  - unfold buf_reload, file_of in *. destruct (b_path b) as [p|]; [|injection E as <- <- <-; assumption].
    destruct (read_to_string f p) as [s|] eqn:Ef; [|injection E as <- <- <-; assumption].
    destruct (buf_replace brk al b s) as [b1|] eqn:Er; [|discriminate]. cbn [bind] in E. injection E as <- <- <-.
    destruct (Rep _ _ (read_valid _ _ _ Ef) (Hl s eq_refl) Er) as [X1 X2]. unfold tl_sync, tl_text. cbn [now fst].
    fold (tl_text (tl_replace tl s)). rewrite X1. exact X2.
  - injection E as <- <- <-. assumption.
  - injection E as <- <- <-. assumption.
  - injection E as <- <- <-. assumption.
  - injection E as <- <- <-. assumption.
  - injection E as <- <- <-. assumption.
Qed.

Lemma cursor_run brk cs b f tl b' f' tl' : steps brk cs b f tl b' f' tl' -> session brk b f tl ->
  forallb keeps_cursor cs = true -> exists_at brk (tl_text tl) (c_pos (b_cursor b)) = true ->
  exists_at brk (tl_text tl') (c_pos (b_cursor b')) = true.
Proof.
  induction 1 as [b f tl|al c cs b f tl o b1 f1 b2 f2 tl2 Ha Hl E Hst IH]; intros Hs Hk Hc; [assumption|].
  cbn [forallb] in Hk. apply andb_true_iff in Hk as [Hk1 Hk2].
  apply IH; try assumption; [eapply session_step; eassumption|]. eapply cursor_step; eassumption.
Qed.

