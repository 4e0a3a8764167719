(** Proofs about groups that a panicking callback leaves half undone or half redone. *)
From Verif Require Import Base Utf8 Utf8Proofs Grapheme GraphemeProofs Position GapBuffer GapBufferProofs Cursor PathModel Buffer Spec
  CursorSpec CursorCalls Calls TextProofs HalvesProofs TextFacts GapProps CursorProofs OpProofs BufferCalls Timeline TimelineProofs
  AnyTextProofs Throwing ThrowSpec ThrowProofs.

Section Group.
Context (brk : brk_rule).

Lemma steps_snoc cs c : forall b f tl b2 f2 tl2, steps brk (cs ++ [c]) b f tl b2 f2 tl2 ->
  exists bm fm tlm al o, steps brk cs b f tl bm fm tlm /\ alloc_ok al /\
    legal brk c (c_pos (b_cursor bm)) (file_of bm fm) tlm /\ bexec brk al c bm fm = Ok (o, b2, f2) /\
    tl2 = tl_step brk c (c_pos (b_cursor bm)) (file_of bm fm) o tlm.
Proof.
  induction cs as [|x cs IH]; intros b f tl b2 f2 tl2 H.
  - inversion H as [|al ? ? ? ? ? o b1 f1 ? ? ? Hal Hl E Hs]; subst. inversion Hs; subst.
    exists b, f, tl, al, o. split; [constructor|]. split; [exact Hal|]. split; [exact Hl|]. split; [exact E|reflexivity].
  - inversion H as [|al ? ? ? ? ? o b1 f1 ? ? ? Hal Hl E Hs]; subst. apply IH in Hs as (bm & fm & tlm & al2 & o2 & S & R).
    exists bm, fm, tlm, al2, o2. split; [|exact R]. econstructor; eassumption.
Qed.
Lemma steps_join cs c al : forall b f tl bm fm tlm o b2 f2, steps brk cs b f tl bm fm tlm -> alloc_ok al ->
  legal brk c (c_pos (b_cursor bm)) (file_of bm fm) tlm -> bexec brk al c bm fm = Ok (o, b2, f2) ->
  steps brk (cs ++ [c]) b f tl b2 f2 (tl_step brk c (c_pos (b_cursor bm)) (file_of bm fm) o tlm).
Proof.
  induction cs as [|x cs IH]; intros b f tl bm fm tlm o b2 f2 H Hal Hl E.
  - inversion H; subst. cbn [app]. econstructor; try eassumption. constructor.
  - inversion H as [|al2 ? ? ? ? ? o2 b1 f1 ? ? ? Hal2 Hl2 E2 Hs]; subst. cbn [app]. econstructor; try eassumption. eapply IH; eassumption.
Qed.

(** What an edit stores. *)
Lemma edit_stores al c b f o b' f' tl : alloc_ok al -> inv brk b tl -> legal brk c (c_pos (b_cursor b)) (file_of b f) tl ->
  edits c = true -> bexec brk al c b f = Ok (o, b', f') ->
  (exists op b1 t, b' = store b1 op /\ same_rest b b1 /\ op_ok brk op (tl_text tl) t /\ parts op = [op] /\
     tl_step brk c (c_pos (b_cursor b)) (file_of b f) o tl = tl_edit tl t) \/
  (b' = b /\ tl_step brk c (c_pos (b_cursor b)) (file_of b f) o tl = tl /\ inserts_or_cuts c = false).
Proof.
  intros Hal H [Hl Ha] Hc F. pose proof (inv_data _ _ _ H) as Hd. pose proof (bholds_valid _ _ _ Hd) as V.
  destruct c; try discriminate Hc; cbn [bexec tl_step clean_edit allowed edited] in *.
  - left. unfold buf_insert in F. destruct (ins_run brk al b (c_pos (b_cursor b)) data _ Hal Hd Hl) as (b1 & E & H1 & R).
    rewrite E in F. cbn [bind] in F. injection F as _ <- _.
    eexists _, b1, _. split; [reflexivity|]. split; [exact R|]. split; [apply new_insert; [apply Hd|exact Hl]|]. now split.
  - left. unfold buf_delete in F. destruct Hd as [Hh Hp]. rewrite (holds_in_bounds _ _ _ _ Hh Hp) in F. cbn [bind] in F.
    fold (char_end brk (tl_text tl) (c_pos (b_cursor b))) in F. unfold buf_delete_range in F.
    destruct (del_run brk al b (c_pos (b_cursor b)) (char_end brk (tl_text tl) (c_pos (b_cursor b))) _ (conj Hh Hp) Hl None)
      as (b1 & E & H1 & R).
    rewrite E in F. cbn [bind] in F. injection F as _ <- _.
    eexists _, b1, _. split; [reflexivity|]. split; [exact R|]. split; [apply new_delete; try assumption; now apply char_end_ok|]. now split.
  - left. rename Hl into Hk, Ha into Hor. unfold buf_delete_range in F.
    destruct (del_run brk al b p q _ Hd Hk None) as (b1 & E & H1 & R).
    rewrite E in F. cbn [bind] in F. injection F as _ <- _.
    eexists _, b1, _. split; [reflexivity|]. split; [exact R|]. split; [apply new_delete; try assumption; apply Hd|]. now split.
  - destruct Hl as [V' Hs]. unfold buf_replace in F. unfold tl_replace.
    rewrite (bholds_data _ _ _ Hd) in F. cbn [bind] in F. rewrite list_N_eqb_dec in F.
    destruct (list_eq_dec N.eq_dec content (tl_text tl)) as [->|Hne].
    + right. cbn [bind] in F. injection F as _ <- _. now repeat split.
    + left. cbn [op_run] in F. destruct (replace_content_ok brk al content b V' Hs) as (b1 & E & Hb1 & R). rewrite E in F. cbn [bind] in F.
      injection F as _ <- _. eexists _, b1, _. split; [reflexivity|]. split; [exact R|]. split; [constructor; try assumption; apply Hd|]. now split.
Qed.

(** The open group along the calls in it. *)
Record tracked (cs : list bcall) (b0 : buffer) (f0 : fsys) (tl0 : timeline) (b : buffer) (tl : timeline) (ops : list operation) : Prop := Tracked {
  tr_group : b_group b = Some ops;
  tr_history : b_history b = b_history b0;
  tr_flat : Forall (fun o => parts o = [o]) ops;
  tr_past : past tl = past tl0;
  tr_base : (ops = [] /\ group tl = Some None /\ now tl = now tl0) \/ (ops <> [] /\ group tl = Some (Some (now tl0)));
  tr_some : existsb inserts_or_cuts cs = true -> ops <> [];
  tr_cut : forall ops1 ops2, ops = ops1 ++ ops2 -> exists cs1 cs2 bm fm tlm, cs = cs1 ++ cs2 /\
    steps brk cs1 b0 f0 tl0 bm fm tlm /\ ops_ok brk ops1 (tl_text tl0) (tl_text tlm) /\ ops_ok brk ops2 (tl_text tlm) (tl_text tl) /\
    (ops2 = [] \/ cs2 <> []) /\ (ops1 = [] \/ cs1 <> []) }.

Lemma snoc_split {A} (l : list A) x a b : l ++ [x] = a ++ b -> (b = [] /\ a = l ++ [x]) \/ exists b', b = b' ++ [x] /\ l = a ++ b'.
Proof.
  destruct b as [|y b _] using rev_ind; intros H.
  - left. rewrite app_nil_r in H. now split.
  - right. rewrite app_assoc in H. apply app_inj_tail in H as [-> ->]. now exists b.
Qed.

Lemma flat_parts ops : Forall (fun o => parts o = [o]) ops -> flat_map parts ops = ops.
Proof. induction 1 as [|o ops Ho _ IH]; [reflexivity|]. cbn [flat_map]. now rewrite Ho, IH. Qed.

Lemma track b0 f0 tl0 : session brk b0 f0 tl0 -> b_group b0 = Some [] -> group tl0 = Some None -> forall cs b f tl,
  forallb (fun c => neutral c || edits c) cs = true -> steps brk cs b0 f0 tl0 b f tl -> exists ops, tracked cs b0 f0 tl0 b tl ops.
Proof.
  intros S0 G0 T0. induction cs as [|c cs IH] using rev_ind; intros b f tl Hc H.
  - inversion H; subst. exists []. split; try assumption; try reflexivity; [constructor| | |].
    + left. now repeat split.
    + discriminate.
    + intros ops1 ops2 E. symmetry in E. apply app_eq_nil in E as [-> ->]. exists [], [], b, f, tl.
      split; [reflexivity|]. split; [constructor|]. split; [constructor|]. split; [constructor|]. split; now left.
  - rewrite forallb_app in Hc. apply andb_prop in Hc as [Hcs Hc]. cbn [forallb] in Hc. rewrite andb_true_r in Hc.
    pose proof (steps_session _ _ _ _ _ _ _ _ H S0) as Sn.
    pose proof H as Hall. apply steps_snoc in H as (bm & fm & tlm & al & o & Hs & Hal & Hl & E & ->).
    pose proof (steps_session _ _ _ _ _ _ _ _ Hs S0) as Sm. apply session_inv in Sm.
    destruct (IH _ _ _ Hcs Hs) as [ops [T1 Th T2 Tp T3 T4 T5]].
    assert (same : b_group b = b_group bm -> b_history b = b_history bm -> tl_step brk c (c_pos (b_cursor bm)) (file_of bm fm) o tlm = tlm -> inserts_or_cuts c = false ->
      tracked (cs ++ [c]) b0 f0 tl0 b (tl_step brk c (c_pos (b_cursor bm)) (file_of bm fm) o tlm) ops).
    { intros Eg Eh Et Ei. rewrite Et in *. split; try assumption; try congruence.
      - rewrite existsb_app. cbn [existsb]. rewrite Ei. cbn [orb]. now rewrite orb_false_r.
      - intros ops1 ops2 Eo. destruct (T5 _ _ Eo) as (cs1 & cs2 & bx & fx & tlx & -> & A & B & C & D1 & D2).
        exists cs1, (cs2 ++ [c]), bx, fx, tlx. split; [now rewrite app_assoc|]. repeat split; try assumption.
        right. now destruct cs2. }
    apply orb_prop in Hc as [Hc|Hc].
    + exists ops. destruct c; try discriminate Hc; apply same; try reflexivity; cbn [bexec] in E; try (now injection E as _ <- _).
      all: destruct (cexec brk (b_data bm) m (b_cursor bm)); [|discriminate]; cbn [bind] in E; now injection E as _ <- _.
    + destruct (edit_stores al c bm fm o b f tlm Hal Sm Hl Hc E) as [(op & b1 & t & -> & R & Hop & Hp & Et)|(-> & Et & Hi)]; [|now exists ops; apply same].
      exists (ops ++ [op]). destruct R as (_ & _ & R3 & R4 & _).
      rewrite Et in *. assert (Tx : tl_text (tl_edit tlm t) = t) by (unfold tl_edit, tl_text; destruct (group tlm) as [[|]|]; reflexivity).
      split.
      * unfold store. rewrite R4, T1. reflexivity.
      * unfold store. rewrite R4, T1. cbn. congruence.
      * apply Forall_app. split; [assumption|]. now constructor.
      * unfold tl_edit. destruct (group tlm) as [[s|]|] eqn:G; cbn; try assumption. destruct T3 as [(_ & X & _)|(_ & X)]; congruence.
      * right. split; [now destruct ops|]. unfold tl_edit. destruct T3 as [(_ & X & Y)|(_ & X)]; rewrite X; cbn; congruence.
      * intros _. now destruct ops.
      * intros ops1 ops2 Eo. apply snoc_split in Eo as [[-> ->]|(ops2' & -> & Eo)].
        -- destruct (T5 ops [] (eq_sym (app_nil_r _))) as (cs1 & cs2 & bx & fx & tlx & Ec & A & B & C & D1 & D2).
           exists (cs ++ [c]), [], (store b1 op), f, (tl_edit tlm t). split; [now rewrite app_nil_r|]. split; [assumption|].
           rewrite Tx. inversion C; subst. split; [eapply ops_snoc; [exact B|]; congruence|].
           split; [constructor|]. split; [now left|]. right. now destruct (cs1 ++ cs2).
        -- destruct (T5 _ _ Eo) as (cs1 & cs2 & bx & fx & tlx & -> & A & B & C & D1 & D2).
           exists cs1, (cs2 ++ [c]), bx, fx, tlx. split; [now rewrite app_assoc|]. split; [assumption|]. split; [assumption|].
           rewrite Tx. split; [eapply ops_snoc; eassumption|]. split; [right; now destruct cs2|assumption].
Qed.

Lemma group_opened b f tl : session brk b f tl -> group tl = None -> forall cs b1 f1 tl1, steps brk (BStartGroup :: cs) b f tl b1 f1 tl1 ->
  exists b0 f0 tl0, session brk b0 f0 tl0 /\ b_group b0 = Some [] /\ group tl0 = Some None /\ now tl0 = now tl /\
    steps brk cs b0 f0 tl0 b1 f1 tl1 /\
    (forall cs1 bm fm tlm, steps brk cs1 b0 f0 tl0 bm fm tlm -> steps brk (BStartGroup :: cs1) b f tl bm fm tlm).
Proof.
  intros S G cs b1 f1 tl1 H. inversion H as [|al ? ? ? ? ? o b0 f0 ? ? ? Hal Hl E Hs]; subst.
  pose proof (inv_group _ _ _ (session_inv _ _ _ _ S)) as Gb. unfold group_ok in Gb. rewrite G in Gb.
  exists b0, f0, (tl_step brk BStartGroup (c_pos (b_cursor b)) (file_of b f) o tl).
  split; [eapply session_step; eassumption|].
  assert (Back : forall cs1 bm fm tlm, steps brk cs1 b0 f0 (tl_step brk BStartGroup (c_pos (b_cursor b)) (file_of b f) o tl) bm fm tlm ->
    steps brk (BStartGroup :: cs1) b f tl bm fm tlm) by (intros; econstructor; eassumption).
  cbn [bexec] in E. injection E as _ <- _.
  assert (Bn : b_group b = None) by (destruct (b_group b) as [[|]|]; [contradiction|contradiction|reflexivity]).
  split; [unfold start_group; now rewrite Bn|]. split; [cbn; unfold tl_start; now rewrite G|].
  split; [cbn; unfold tl_start; now rewrite G|]. split; [exact Hs|].
  exact Back.
Qed.

Lemma thrown_undo_text al n ops t t1 b1 f1 b2 f2 cs b0 f0 tl0 : tracked cs b0 f0 tl0 t t1 ops ->
  alloc_ok al -> bholds brk b1 (tl_text t1) -> to_undo b1 = Some (OpGroup ops) -> bexec_t brk al n BUndo b1 f1 = Ok (None, b2, f2) ->
  exists cs1 cs2 bm fm tlm, cs = cs1 ++ cs2 /\ cs2 <> [] /\ steps brk cs1 b0 f0 tl0 bm fm tlm /\ buf_data b2 = Ok (tl_text tlm).
Proof.
  intros T Hal Hb U H. apply undo_thrown in H as (_ & op & x & ops1 & ops2 & U' & P & Ne & D & Cu & _ & R & _).
  rewrite U in U'. injection U' as <-. cbn [parts] in P. rewrite (flat_parts _ (tr_flat _ _ _ _ _ _ _ T)) in P.
  destruct (tr_cut _ _ _ _ _ _ _ T _ _ P) as (cs1 & cs2 & bm & fm & tlm & -> & A & _ & C & [D1|D1] & _); [congruence|].
  exists cs1, cs2, bm, fm, tlm. split; [reflexivity|]. split; [exact D1|]. split; [exact A|].
  assert (Hx : bholds brk x (tl_text t1)) by (unfold bholds; now rewrite D).
  destruct (op_ok_reverse _ _ _ _ (ok_group _ _ _ _ C) al x Hal Hx) as (b' & R' & Hb' & _). rewrite R in R'. injection R' as <-.
  eapply bholds_data, Hb'.
Qed.

Lemma half_undone b f tl cs b1 f1 tl1 al n b2 f2 : session brk b f tl -> group tl = None ->
  forallb (fun c => neutral c || edits c) cs = true -> existsb inserts_or_cuts cs = true ->
  steps brk (BStartGroup :: cs) b f tl b1 f1 tl1 \/ steps brk (BStartGroup :: cs ++ [BEndGroup]) b f tl b1 f1 tl1 ->
  alloc_ok al -> bexec_t brk al n BUndo b1 f1 = Ok (None, b2, f2) ->
  exists cs1 cs2 bm fm tlm, cs = cs1 ++ cs2 /\ cs2 <> [] /\ steps brk (BStartGroup :: cs1) b f tl bm fm tlm /\
    buf_data b2 = Ok (tl_text tlm).
Proof.
  intros S G Hc He Hs Hal H. destruct Hs as [Hs|Hs]; apply group_opened in Hs as (b0 & f0 & tl0 & S0 & G0 & T0 & _ & Hs & Back); try assumption.
  - destruct (track _ _ _ S0 G0 T0 _ _ _ _ Hc Hs) as [ops T].
    pose proof (session_inv _ _ _ _ (steps_session _ _ _ _ _ _ _ _ Hs S0)) as I.
    assert (U : to_undo b1 = Some (OpGroup ops)).
    { unfold to_undo. rewrite (tr_group _ _ _ _ _ _ _ T). pose proof (tr_some _ _ _ _ _ _ _ T He). now destruct ops. }
    destruct (thrown_undo_text _ _ _ _ _ _ _ _ _ _ _ _ _ T Hal (inv_data _ _ _ I) U H) as (cs1 & cs2 & bm & fm & tlm & E & Ne & A & D).
    exists cs1, cs2, bm, fm, tlm. repeat (split; [now auto|]). exact D.
  - apply steps_snoc in Hs as (be & fe & tle & al' & o & Hs & _ & _ & E & ->).
    destruct (track _ _ _ S0 G0 T0 _ _ _ _ Hc Hs) as [ops T].
    pose proof (session_inv _ _ _ _ (steps_session _ _ _ _ _ _ _ _ Hs S0)) as I. pose proof (tr_some _ _ _ _ _ _ _ T He) as Ne0.
    cbn [bexec] in E. injection E as _ <- _.
    assert (U : to_undo (end_group be) = Some (OpGroup ops)).
    { unfold to_undo, end_group. rewrite (tr_group _ _ _ _ _ _ _ T). now destruct ops. }
    assert (Hb : bholds brk (end_group be) (tl_text tle)).
    { unfold end_group. rewrite (tr_group _ _ _ _ _ _ _ T). destruct ops; apply (inv_data _ _ _ I). }
    destruct (thrown_undo_text _ _ _ _ _ _ _ _ _ _ _ _ _ T Hal Hb U H) as (cs1 & cs2 & bm & fm & tlm & E & Ne & A & D).
    exists cs1, cs2, bm, fm, tlm. repeat (split; [now auto|]). exact D.
Qed.

Lemma half_redone b f tl cs b1 f1 tl1 al n b2 f2 : session brk b f tl -> group tl = None ->
  forallb (fun c => neutral c || edits c) cs = true -> existsb inserts_or_cuts cs = true ->
  steps brk (BStartGroup :: cs ++ [BEndGroup; BUndo]) b f tl b1 f1 tl1 ->
  alloc_ok al -> bexec_t brk al n BRedo b1 f1 = Ok (None, b2, f2) ->
  exists cs1 cs2 bm fm tlm, cs = cs1 ++ cs2 /\ cs1 <> [] /\ steps brk (BStartGroup :: cs1) b f tl bm fm tlm /\
    buf_data b2 = Ok (tl_text tlm).
Proof.
  intros S G Hc He Hs Hal H. apply group_opened in Hs as (b0 & f0 & tl0 & S0 & G0 & T0 & N0 & Hs & Back); try assumption.
  change [BEndGroup; BUndo] with ([BEndGroup] ++ [BUndo]) in Hs. rewrite app_assoc in Hs.
  pose proof (session_inv _ _ _ _ (steps_session _ _ _ _ _ _ _ _ Hs S0)) as I1.
  apply steps_snoc in Hs as (bu & fu & tlu & al2 & o2 & Hs & _ & _ & E2 & ->).
  apply steps_snoc in Hs as (be & fe & tle & al1 & o1 & Hs & _ & _ & E1 & ->).
  destruct (track _ _ _ S0 G0 T0 _ _ _ _ Hc Hs) as [ops T]. pose proof (tr_some _ _ _ _ _ _ _ T He) as Ne0.
  cbn [bexec] in E1. injection E1 as _ <- _.
  assert (Ht : tl_text (tl_step brk BUndo (c_pos (b_cursor (end_group be))) (file_of (end_group be) fu) o2
    (tl_step brk BEndGroup (c_pos (b_cursor be)) (file_of be fe) o1 tle)) = tl_text tl0).
  { cbn [tl_step]. unfold tl_undo, tl_end. destruct (tr_base _ _ _ _ _ _ _ T) as [(X & _)|(_ & X)]; [contradiction|]. rewrite X. reflexivity. }
  apply redo_thrown in H as (_ & op & x & ops1 & ops2 & U' & P & Ne & D & Cu & _ & R & _).
  assert (U : to_redo b1 = Some (OpGroup ops)).
  { cbn [bexec] in E2. unfold buf_undo, end_group in E2. rewrite (tr_group _ _ _ _ _ _ _ T) in E2. destruct ops as [|op0 ops]; [contradiction|].
    cbn [b_group b_history set_group set_history hist_add hist_previous h_previous h_next h_mark] in E2.
    open_bind E2 y; [|discriminate]. injection E2 as _ <- _. apply reverse_records in E as (Eh & _). unfold to_redo. rewrite Eh. reflexivity. }
  rewrite U in U'. injection U' as <-. cbn [parts] in P. rewrite (flat_parts _ (tr_flat _ _ _ _ _ _ _ T)) in P.
  destruct (tr_cut _ _ _ _ _ _ _ T _ _ P) as (cs1 & cs2 & bm & fm & tlm & -> & A & B & _ & _ & [D1|D1]); [congruence|].
  exists cs1, cs2, bm, fm, tlm. split; [reflexivity|]. split; [exact D1|]. split; [now apply Back|].
  assert (Hx : bholds brk x (tl_text tl0)) by (rewrite <- Ht; unfold bholds; rewrite D; apply (inv_data _ _ _ I1)).
  destruct (op_ok_run _ _ _ _ (ok_group _ _ _ _ B) al x Hal Hx) as (o' & b' & R' & Hb' & _). rewrite R' in R. cbn [bind] in R. injection R as <-.
  eapply bholds_data, Hb'.
Qed.
End Group.
