(** Further facts about buffers, and concrete sessions for the examples. *)
From Verif Require Export Disks.
From Verif Require Import Base Utf8 Utf8Proofs Grapheme GraphemeProofs UnicodeTable Position
  GapBuffer GapBufferProofs Cursor PathModel Buffer Spec CursorSpec Calls CursorCalls TextProofs
  UaxProofs HalvesProofs TextFacts GapProps CursorProofs BufferCalls Timeline OpProofs TimelineProofs
  AnyTextProofs BufferProps BufferIoProps BufferSimple Witness.

(** A failing save leaves the disk alone, or a beginning of the text at the
    buffer's path. *)
Lemma save_fails_disk brk b f w e b' f' : reachable_buffer brk b f ->
  buf_save f w b = Ok (RErr e, b', f') ->
  f' = f \/ exists p t k, b_path b = Some p /\ buf_data b = Ok t /\ k <= length (enc t) /\
    (forall p', same_file f p' p -> fs_read f' p' = Some (firstn k (enc t))) /\
    (forall p', ~ same_file f p' p -> fs_read f' p' = fs_read f p' /\ fs_canon f' p' = fs_canon f p') /\
    fs_target f' = fs_target f.
Proof.
  intros R. apply reachable_wfb in R. destruct (wfb_data_total _ R) as (t & Et & V).
  unfold buf_save. destruct (b_path b) as [p|]; [|intros E; injection E as _ _ <-; now left].
  pose proof (outcome_creatable f p w) as Hc.
  destruct (outcome f p w) as [|k|]; rewrite ?Et; cbn [bind]; intros E.
  - injection E as _ _ <-. now left.
  - injection E as _ _ <-. right. exists p, t, (Nat.min k (length (enc t))).
    split; [reflexivity|]. split; [reflexivity|]. split; [lia|].
    split; [|split; [intros p' Hq; split; [now apply write_others|now apply write_canon]|apply write_targets]].
    intros p' Hp. rewrite write_reads by (try assumption; apply Hc; discriminate).
    f_equal. destruct (Nat.le_gt_cases k (length (enc t))) as [H|H].
    + now rewrite Nat.min_l.
    + rewrite Nat.min_r by lia. now rewrite !firstn_all2 by lia.
  - discriminate.
Qed.

(** A range whose end does not exist is deleted without keeping what was
    there: undo does nothing to the text. *)
Lemma missing_end_lost brk b f p q al al' b1 : reachable_buffer brk b f -> b_group b = None ->
  in_bounds brk (b_data b) (second_of p q) = Ok false ->
  buf_delete_range brk al b (range_new p q) = Ok b1 ->
  exists b2, buf_undo brk al' b1 = Ok b2 /\ buf_data b2 = buf_data b1.
Proof.
  intros R Hg Hb. apply reachable_wfb in R. unfold buf_delete_range. cbn [op_run].
  assert (Er : r_end (range_new p q) = second_of p q).
  { unfold range_new, second_of. rewrite pos_gtb_before. now destruct (before q p). }
  assert (Ep : exists x, in_bounds brk (b_data b) (r_start (range_new p q)) = Ok x).
  { apply in_bounds_wf, (wfb_data _ R). }
  destruct Ep as [x Ex]. rewrite (read_oob brk (b_data b) (range_new p q) x); [|assumption|right; now rewrite Er].
  cbn [bind]. destruct (gb_delete brk (b_data b) (range_new p q)) as [g|]; [|discriminate]. cbn [bind].
  intros E. injection E as <-. unfold store. cbn [b_group notify set_data].
  rewrite Hg. unfold buf_undo. cbn. rewrite Hg. eexists. split; [reflexivity|reflexivity].
Qed.

Lemma undo_to_save_point brk cs b f tl b' f' tl' als :
  session brk b f tl -> group tl = None -> buf_modified b = false -> steps brk cs b f tl b' f' tl' ->
  forallb (fun c => inserts_or_cuts c || neutral c) cs = true ->
  length als = length (filter inserts_or_cuts cs) -> Forall alloc_ok als ->
  exists b1, undos brk als b' = Ok b1 /\ buf_modified b1 = false /\ buf_data b1 = buf_data b.
Proof.
  intros Hs Hg Hm Hst Hc Hl Ha.
  destruct (many_undone brk cs b f tl b' f' tl' als als Hs Hg Hst Hc Hl Ha Hl Ha) as (b1 & b2 & E1 & D1 & M1 & _).
  exists b1. split; [assumption|]. split; [congruence|assumption].
Qed.

(** ** Concrete sessions *)

Definition call_okb (c : bcall) : bool :=
  match c with BInsert d | BReplace d => valid_textb d | _ => true end.
Lemma call_okb_ok c : call_okb c = true -> call_ok c.
Proof. destruct c; cbn; try easy; apply valid_textb_ok. Qed.

Lemma tight_calls cs : forallb call_okb cs = true ->
  Forall (fun ac => alloc_ok (fst ac) /\ call_ok (snd ac)) (map (pair tight) cs).
Proof.
  rewrite forallb_forall. intros H. apply Forall_map, Forall_forall. intros c Hc. cbn [fst snd].
  split; [apply tight_ok|now apply call_okb_ok, H].
Qed.

Lemma from_new_reachable cs f os b f' : from_new cs f = Ok (os, b, f') -> forallb call_okb cs = true ->
  reachable_buffer uax29_15 b f'.
Proof.
  unfold from_new. destruct (buffer_new tight) as [b0|] eqn:E0; [|discriminate]. cbn [bind]. intros E Hc.
  exists b0, f, (map (pair tight) cs), os. split; [left; now exists tight|]. split; [now apply tight_calls|assumption].
Qed.
Lemma from_disk_reachable cs f os b f' : from_disk cs f = Ok (os, b, f') -> forallb call_okb cs = true ->
  reachable_buffer uax29_15 b f'.
Proof.
  unfold from_disk. destruct (from_file tight f the_path) as [[b0|]|] eqn:E0; try discriminate. intros E Hc.
  exists b0, f, (map (pair tight) cs), os. split; [right; now exists tight, the_path|]. split; [now apply tight_calls|assumption].
Qed.

(** The same with the timeline, for ASCII texts and legal calls. *)
Definition play_new_tight (cs : list bcall) (f : fsys) : option (buffer * fsys * timeline) :=
  match buffer_new tight with
  | Ok b0 => play (map (pair tight) cs) b0 f start_new
  | Panic => None
  end.
Definition play_disk_tight (t : text) (cs : list bcall) : option (buffer * fsys * timeline) :=
  match from_file tight (one_file t) the_path with
  | Ok (ROk b0) => play (map (pair tight) cs) b0 (one_file t) (start_file t)
  | _ => None
  end.

Lemma tight_all {A} (cs : list A) : Forall (fun ac => alloc_ok (fst ac)) (map (pair tight) cs).
Proof. apply Forall_map, Forall_forall. intros. apply tight_ok. Qed.

Lemma played_new cs f b f' tl : play_new_tight cs f = Some (b, f', tl) ->
  session uax29_15 b f' tl /\ tl_all (words (simple_cluster gcb15)) tl.
Proof.
  unfold play_new_tight. destruct (buffer_new tight) as [b0|] eqn:E0; [|discriminate]. intros E.
  split; [|].
  - eapply play_new; try eassumption. apply tight_all.
  - eapply play_steps in E as [_ E]; [assumption|apply tight_all|]. repeat split; try constructor; apply words_nil.
Qed.
Lemma played_disk t cs b f' tl : play_disk_tight t cs = Some (b, f', tl) -> ascii_no_crb t = true ->
  read_to_string (one_file t) the_path = Some t ->
  session uax29_15 b f' tl /\ tl_all (words (simple_cluster gcb15)) tl.
Proof.
  unfold play_disk_tight. destruct (from_file tight (one_file t) the_path) as [[b0|]|] eqn:E0; try discriminate. intros E Ht Hr.
  split; [|].
  - eapply play_file; try eassumption. apply tight_all.
  - eapply play_steps in E as [_ E]; [assumption|apply tight_all|].
    repeat split; try constructor; now apply ascii_words, ascii_no_crb_ok.
Qed.

Lemma undos_app brk als als' b : undos brk (als ++ als') b = let* b' := undos brk als b in undos brk als' b'.
Proof.
  revert b. induction als as [|al als IH]; intros b; cbn [undos app bind]; [reflexivity|].
  destruct (buf_undo brk al b) as [b1|]; cbn [bind]; [apply IH|reflexivity].
Qed.

Lemma redo_in_empty_group brk al b f tl : session brk b f tl -> alloc_ok al -> group tl = Some None ->
  exists b', buf_redo brk al b = Ok b' /\ session brk b' f (tl_redo tl).
Proof.
  intros Hs Ha Hg. destruct (session_progress brk al BRedo b f tl Hs Ha) as (o & b' & f' & E & S).
  - split; [exact I|]. intros s. rewrite Hg. discriminate.
  - cbn [bexec] in E. destruct (buf_redo brk al b) as [b1|] eqn:X; [|discriminate]. cbn [bind] in E.
    injection E as <- <- <-. exists b1. now split.
Qed.

Lemma replace_keeps brk al b f s t : reachable_buffer brk b f -> alloc_ok al -> valid_text s -> buf_data b = Ok t ->
  exists b', buf_replace brk al b s = Ok b' /\ buf_data b' = Ok s /\
    b_id b' = b_id b /\ b_syntax b' = b_syntax b /\ b_path b' = b_path b /\ b_callback b' = b_callback b.
Proof.
  intros R Ha V Et. destruct (replace_text brk al b s t Ha (reachable_wfb _ _ _ R) V Et) as (b' & H1 & H2 & H3 & H4 & H5 & H6 & _).
  exists b'. repeat split; assumption.
Qed.

(** Sessions are reachable. *)
Lemma brun_snoc brk cs al c : forall b f os b1 f1 o b2 f2,
  brun brk cs b f = Ok (os, b1, f1) -> bexec brk al c b1 f1 = Ok (o, b2, f2) ->
  brun brk (cs ++ [(al, c)]) b f = Ok (os ++ [o], b2, f2).
Proof.
  induction cs as [|[al' c'] cs IH]; intros b f os b1 f1 o b2 f2; cbn [brun app].
  - intros E E'. injection E as <- <- <-. rewrite E'. reflexivity.
  - destruct (bexec brk al' c' b f) as [[[o' b'] f']|]; [|discriminate]. cbn [bind].
    destruct (brun brk cs b' f') as [[[os' b''] f'']|] eqn:E1; [|discriminate]. cbn [bind].
    intros E E'. injection E as <- <- <-. now rewrite (IH _ _ _ _ _ _ _ _ E1 E').
Qed.
Lemma reachable_step brk al c b f o b' f' : reachable_buffer brk b f -> alloc_ok al -> call_ok c ->
  bexec brk al c b f = Ok (o, b', f') -> reachable_buffer brk b' f'.
Proof.
  intros (b0 & f0 & cs & os & H0 & Hc & E) Ha Hv E'. exists b0, f0, (cs ++ [(al, c)]), (os ++ [o]).
  split; [assumption|]. split; [apply Forall_app; split; [assumption|now repeat constructor]|].
  eapply brun_snoc; eassumption.
Qed.
Lemma session_reachable brk b f tl : session brk b f tl -> reachable_buffer brk b f.
Proof.
  induction 1 as [al f b E|al f p b t E Hr Hp|al c b f o b' f' tl Hs IH Ha [Hl _] E].
  - exists b, f, [], []. split; [left; eauto|]. split; [constructor|reflexivity].
  - exists b, f, [], []. split; [right; eauto|]. split; [constructor|reflexivity].
  - eapply reachable_step; try eassumption. destruct c; try exact I; apply Hl.
Qed.
