(** Texts made of simple clusters: every call on them is clean, so buffers
    follow their timelines whenever the circumstances allow it. *)
From Verif Require Import Base Utf8 Utf8Proofs Grapheme GraphemeProofs UnicodeTable Position
  GapBuffer GapBufferProofs Cursor PathModel Buffer Spec CursorSpec Calls CursorCalls TextProofs
  UaxProofs HalvesProofs TextFacts GapProps BufferCalls Timeline TimelineProofs BufferIoProps Witness.

Section Words.
Variable brk : brk_rule.
Variable U : text -> Prop.
Hypothesis HI : indep brk U.
Hypothesis HU : newline_family U.

Lemma words_clean_edit c cur file t : words U t -> brings (words U) c file -> clean_edit brk c cur file t.
Proof.
  intros Ht Hb. destruct c; cbn [clean_edit brings] in *; try exact I.
  - apply (words_clean brk U (GInsert data cur)); assumption.
  - apply (words_clean brk U (GDelete cur (char_end brk t cur)) t HI HU Ht I).
  - apply (words_clean brk U (GDelete p q) t HI HU Ht I).
  - split; [eapply words_valid; eassumption|eapply words_plain; eassumption].
  - intros s ->. eapply words_plain; eassumption.
Qed.

Lemma words_edited c cur t : words U t -> brings (words U) c None -> words U (edited brk c cur t).
Proof.
  intros Ht Hb. destruct c; cbn [edited brings] in *; try assumption.
  - apply (words_clean brk U (GInsert data cur) t HI HU Ht Hb).
  - apply (words_clean brk U (GDelete cur (char_end brk t cur)) t HI HU Ht I).
  - apply (words_clean brk U (GDelete p q) t HI HU Ht I).
Qed.

Lemma all_edit P tl t : tl_all P tl -> P t -> tl_all P (tl_edit tl t).
Proof.
  destruct tl as [ps nw fs gr sy]. unfold tl_all, tl_edit, tl_text. cbn [past now future group synced fst].
  intros (H1 & H2 & H3 & H4) Ht. destruct gr as [[s|]|]; cbn [past now future group fst]; auto.
Qed.
Lemma all_replace P tl t : tl_all P tl -> P t -> tl_all P (tl_replace tl t).
Proof. intros H Ht. unfold tl_replace. destruct (list_eq_dec _ _ _); [assumption|now apply all_edit]. Qed.
Lemma all_sync P tl : tl_all P tl -> tl_all P (tl_sync tl).
Proof.
  unfold tl_all, tl_sync, tl_text. cbn [past now future group fst]. intros (H1 & H2 & H3 & H4).
  split; [|split; [assumption|split; [|assumption]]].
  - apply Forall_map. eapply Forall_impl; [|exact H1]. easy.
  - apply Forall_map. eapply Forall_impl; [|exact H3]. easy.
Qed.

Lemma words_step c cur file o tl : tl_all (words U) tl -> brings (words U) c file ->
  tl_all (words U) (tl_step brk c cur file o tl).
Proof.
  intros H Hb. pose proof H as (_ & Ht & _).
  destruct c; cbn [tl_step brings] in *; try assumption.
  - apply all_edit; [assumption|]. now apply words_edited.
  - apply all_edit; [assumption|]. now apply words_edited.
  - apply all_edit; [assumption|]. now apply words_edited.
  - now apply all_replace.
  - destruct tl as [ps nw fs gr sy]. unfold tl_all, tl_undo, tl_text in *. cbn [past now future group synced fst] in *.
    destruct H as (H1 & H2 & H3 & H4).
    destruct gr as [[s|]|]; [cbn; auto| |]; destruct ps as [|s ps]; cbn; auto; inversion_clear H1; auto.
  - destruct tl as [ps nw fs gr sy]. unfold tl_all, tl_redo, tl_text in *. cbn [past now future group synced fst] in *.
    destruct H as (H1 & H2 & H3 & H4). destruct fs as [|s fs]; cbn; auto. inversion_clear H3. auto.
  - destruct tl as [ps nw fs gr sy]. unfold tl_all, tl_start, tl_text in *. cbn [past now future group synced fst] in *.
    destruct H as (H1 & H2 & H3 & H4). destruct gr as [[s|]|]; cbn; auto.
  - destruct tl as [ps nw fs gr sy]. unfold tl_all, tl_end, tl_text in *. cbn [past now future group synced fst] in *.
    destruct H as (H1 & H2 & H3 & H4). destruct gr as [[s|]|]; cbn; auto.
  - destruct o as [|[?|?]]; try assumption. now apply all_sync.
  - destruct o as [|[?|?]]; try assumption. destruct file; [|assumption]. apply all_sync. now apply all_replace.
Qed.
End Words.

Lemma simple_legal cls c cur file tl : cls LF = GC_LF ->
  tl_all (words (simple_cluster cls)) tl -> brings (words (simple_cluster cls)) c file ->
  allowed (uax29 cls) c tl -> legal (uax29 cls) c cur file tl.
Proof.
  intros HL (_ & Ht & _) Hb Ha. split; [|assumption].
  eapply words_clean_edit; [apply simple_indep|now apply simple_newline_family|assumption|assumption].
Qed.

Lemma simple_step cls c cur file o tl : cls LF = GC_LF ->
  tl_all (words (simple_cluster cls)) tl -> brings (words (simple_cluster cls)) c file ->
  tl_all (words (simple_cluster cls)) (tl_step (uax29 cls) c cur file o tl).
Proof. intros HL H Hb. apply words_step; try assumption; [apply simple_indep|now apply simple_newline_family]. Qed.

(** ** A checker for concrete sessions *)

Definition allowedb (brk : brk_rule) (c : bcall) (tl : timeline) : bool :=
  match c with
  | BDeleteRange p q => exists_at brk (tl_text tl) (second_of p q)
                        || list_N_eqb (spec_delete brk (tl_text tl) p q) (tl_text tl)
  | BRedo | BSave _ => match group tl with Some (Some _) => false | _ => true end
  | BReload => match group tl with None => true | _ => false end
  | _ => true
  end.
Lemma allowedb_ok brk c tl : allowedb brk c tl = true -> allowed brk c tl.
Proof.
  assert (N : match group tl with Some (Some _) => false | _ => true end = true -> no_edits_open tl).
  { unfold no_edits_open. destruct (group tl) as [[s|]|]; intros E s'; discriminate. }
  destruct c; cbn [allowedb allowed]; intros H; try exact I; auto.
  - apply orb_true_iff in H as [H|H]; [now left|right].
    destruct (list_eq_dec N.eq_dec (spec_delete brk (tl_text tl) p q) (tl_text tl)); [assumption|].
    apply list_N_eqb_neq in n. congruence.
  - destruct (group tl); [discriminate|reflexivity].
Qed.

Definition bringsb (c : bcall) (file : option text) : bool :=
  match c with
  | BInsert d | BReplace d => ascii_no_crb d
  | BReload => match file with Some s => ascii_no_crb s | None => true end
  | _ => true
  end.

(** Runs the calls on model and timeline together, checking that they are legal. *)
Fixpoint play (cs : list (allocator * bcall)) (b : buffer) (f : fsys) (tl : timeline)
  : option (buffer * fsys * timeline) :=
  match cs with
  | [] => Some (b, f, tl)
  | (al, c) :: cs' =>
    if bringsb c (file_of b f) && allowedb uax29_15 c tl then
      match bexec uax29_15 al c b f with
      | Ok (o, b1, f1) => play cs' b1 f1 (tl_step uax29_15 c (c_pos (b_cursor b)) (file_of b f) o tl)
      | Panic => None
      end
    else None
  end.

Lemma play_steps cs : forall b f tl b' f' tl', Forall (fun ac => alloc_ok (fst ac)) cs ->
  tl_all (words (simple_cluster gcb15)) tl -> play cs b f tl = Some (b', f', tl') ->
  steps uax29_15 (map snd cs) b f tl b' f' tl' /\ tl_all (words (simple_cluster gcb15)) tl'.
Proof.
  induction cs as [|[al c] cs IH]; intros b f tl b' f' tl' Ha Hw; cbn [play].
  - intros E. injection E as <- <- <-. split; [constructor|assumption].
  - destruct (bringsb c (file_of b f)) eqn:Hb; [|discriminate].
    destruct (allowedb uax29_15 c tl) eqn:Hl; [|discriminate]. cbn [andb].
    destruct (bexec uax29_15 al c b f) as [[[o b1] f1]|] eqn:E; [|discriminate]. intros Ep.
    inversion_clear Ha as [|? ? Ha1 Ha2]. cbn [fst] in Ha1.
    assert (Hb' : brings (words (simple_cluster gcb15)) c (file_of b f)).
    { destruct c; cbn [brings bringsb] in *; try exact I; try (now apply ascii_words, ascii_no_crb_ok).
      destruct (file_of b f); [|exact I]. now apply ascii_words, ascii_no_crb_ok. }
    apply IH in Ep as [Es Ew]; [|assumption|apply simple_step; [apply gcb15_LF|assumption|assumption]].
    split; [|assumption]. cbn [map snd]. econstructor; [eassumption| |eassumption|exact Es].
    apply simple_legal; [apply gcb15_LF|assumption|assumption|now apply allowedb_ok].
Qed.

Definition start_new : timeline := TL [] ([], false) [] None None.
Definition start_file (t : text) : timeline := TL [] (t, true) [] None (Some t).

Lemma play_new al b0 cs f b f' tl : buffer_new al = Ok b0 -> Forall (fun ac => alloc_ok (fst ac)) cs ->
  play cs b0 f start_new = Some (b, f', tl) ->
  session uax29_15 b0 f start_new /\ steps uax29_15 (map snd cs) b0 f start_new b f' tl /\ session uax29_15 b f' tl.
Proof.
  intros E0 Ha Ep. assert (S0 : session uax29_15 b0 f start_new) by (econstructor; eassumption).
  split; [assumption|]. apply play_steps in Ep as [Es _]; [|assumption|].
  - split; [assumption|]. eapply steps_session; eassumption.
  - repeat split; try constructor; apply words_nil.
Qed.

Lemma play_file al p t b0 cs f b f' tl : from_file al f p = Ok (ROk b0) -> read_to_string f p = Some t ->
  ascii_no_crb t = true -> Forall (fun ac => alloc_ok (fst ac)) cs ->
  play cs b0 f (start_file t) = Some (b, f', tl) ->
  session uax29_15 b0 f (start_file t) /\ steps uax29_15 (map snd cs) b0 f (start_file t) b f' tl
  /\ session uax29_15 b f' tl.
Proof.
  intros E0 Er Ht Ha Ep.
  assert (W : words (simple_cluster gcb15) t) by now apply ascii_words, ascii_no_crb_ok.
  assert (S0 : session uax29_15 b0 f (start_file t)).
  { eapply session_file; try eassumption. eapply words_plain;
      [apply (simple_indep gcb15)|apply simple_newline_family, gcb15_LF|assumption]. }
  split; [assumption|]. apply play_steps in Ep as [Es _]; [|assumption|].
  - split; [assumption|]. eapply steps_session; eassumption.
  - repeat split; try constructor; assumption.
Qed.
