(** Proofs about what the undo history keeps. *)
From Verif Require Import Base Utf8 Utf8Proofs HalvesProofs Grapheme UnicodeTable Position GapBuffer Cursor PathModel Buffer Spec BufferCalls CursorCalls Calls
  CopiesSpec Timeline AnyTextProofs BufferProps GapBufferProofs TextProofs GapProps CursorProofs Witness Disks UndoMemorySpec.

Lemma bytes_app w a b : ops_bytes w (a ++ b) = ops_bytes w a + ops_bytes w b.
Proof. unfold ops_bytes. now rewrite map_app, list_sum_app. Qed.
Lemma bytes_cons w o l : ops_bytes w (o :: l) = op_bytes w o + ops_bytes w l.
Proof. reflexivity. Qed.
Lemma bytes_one w o : ops_bytes w [o] = op_bytes w o.
Proof. rewrite bytes_cons. cbn. lia. Qed.
Lemma bytes_group w ops : op_bytes w (OpGroup ops) = w + ops_bytes w ops.
Proof. reflexivity. Qed.

(** Running and reversing leave the stacks alone. *)
Definition stacks (b b' : buffer) : Prop := b_history b' = b_history b /\ b_group b' = b_group b.
Lemma stacks_refl b : stacks b b. Proof. now split. Qed.
Lemma stacks_trans a b c : stacks a b -> stacks b c -> stacks a c.
Proof. unfold stacks. intuition congruence. Qed.
Lemma content_stacks brk al s b b' : replace_content brk al s b = Ok b' -> stacks b b'.
Proof.
  unfold replace_content. destruct (gb_new al s) as [g|]; [|discriminate]. cbn [bind].
  destruct (move_to brk g _ _) as [[mv c1]|]; [|discriminate]. cbn [bind]. destruct mv.
  - intros [= <-]. now split.
  - destruct (move_to brk g c1 _) as [[mv' c2]|]; [|discriminate]. intros [= <-]. now split.
Qed.
Lemma run_stacks brk al op : forall b op' b', op_run brk al op b = Ok (op', b') -> stacks b b'.
Proof.
  induction op as [d p|c r|s t|ops IH] using operation_induction; intros b op' b'.
  - cbn. destruct (gb_insert _ _ _ _ _); [|discriminate]. intros [= _ <-]. now split.
  - cbn. destruct (gb_read _ _ _); [|discriminate]. cbn. destruct (gb_delete _ _ _); [|discriminate]. intros [= _ <-]. now split.
  - cbn. destruct (replace_content brk al t b) as [b1|] eqn:E; [|discriminate]. intros [= _ <-]. eapply content_stacks; eassumption.
  - cbn. match goal with |- context [bind (?F ops b)] => set (go := F) end.
    enough (X : forall ops, Forall (fun op => forall b op' b', op_run brk al op b = Ok (op', b') -> stacks b b') ops ->
              forall b l b', go ops b = Ok (l, b') -> stacks b b').
    { destruct (go ops b) as [[l b1]|] eqn:E; [|discriminate]. intros [= _ <-]. eapply X; eassumption. }
    clear. induction ops as [|o ops IHo]; intros F b l b'; [intros [= _ <-]; apply stacks_refl|].
    apply Forall_inv in F as Fo. apply Forall_inv_tail in F as Fs. cbn.
    destruct (op_run brk al o b) as [[o' b1]|] eqn:E; [|discriminate]. cbn.
    destruct (go ops b1) as [[l' b2]|] eqn:E2; [|discriminate]. intros [= _ <-].
    eapply stacks_trans; [eapply Fo|eapply IHo]; eassumption.
Qed.
Lemma reverse_stacks brk al op : forall b b', op_reverse brk al op b = Ok b' -> stacks b b'.
Proof.
  induction op as [d p|c r|s t|ops IH] using operation_induction; intros b b'.
  - cbn. destruct (insert_end brk d p); [|intros [= <-]; apply stacks_refl].
    destruct (gb_delete _ _ _); [|discriminate]. intros [= <-]. now split.
  - cbn. destruct c; [|intros [= <-]; apply stacks_refl]. destruct (gb_insert _ _ _ _ _); [|discriminate]. intros [= <-]. now split.
  - cbn. apply content_stacks.
  - cbn. match goal with |- context [?F ops b = _] => set (go := F) end.
    enough (X : forall ops, Forall (fun op => forall b b', op_reverse brk al op b = Ok b' -> stacks b b') ops ->
              forall b b', go ops b = Ok b' -> stacks b b') by (now apply X).
    clear. induction ops as [|o ops IHo]; intros F b b'; [intros [= <-]; apply stacks_refl|].
    apply Forall_inv in F as Fo. apply Forall_inv_tail in F as Fs. cbn.
    destruct (go ops b) as [b1|] eqn:E; [|discriminate]. cbn. intros E2.
    eapply stacks_trans; [eapply IHo|eapply Fo]; eassumption.
Qed.

(** Storing one operation. *)
Definition stored (w n : nat) (b b' : buffer) : Prop :=
  kept_past w b' = kept_past w b + w + n /\ kept_future w b' = if group_open b then kept_future w b else 0.
Lemma store_kept w b b1 op n : stacks b b1 -> op_bytes w op = w + n -> stored w n b (store b1 op).
Proof.
  intros [H G] N. unfold stored, kept_past, kept_future, group_bytes, group_open, store. rewrite G.
  destruct (b_group b) as [ops|]; cbn [b_history b_group set_group set_history hist_add h_previous h_next].
  - rewrite H, bytes_app, bytes_one. split; [lia|reflexivity].
  - rewrite H, bytes_cons, G. split; [lia|reflexivity].
Qed.

Definition same_kept (w : nat) (b b' : buffer) : Prop := kept_past w b' = kept_past w b /\ kept_future w b' = kept_future w b.
Lemma stacks_kept w b b' : stacks b b' -> same_kept w b b'.
Proof. intros [H G]. unfold same_kept, kept_past, kept_future, group_bytes. now rewrite H, G. Qed.
Lemma mark_kept w b b' : same_kept w b (set_history b' (hist_mark (b_history b'))) <-> same_kept w b b'.
Proof. reflexivity. Qed.

Lemma delete_range_kept w brk al b p q b' : buf_delete_range brk al b (range_new p q) = Ok b' -> stored w (read_size brk b p q) b b'.
Proof.
  unfold buf_delete_range. cbn [op_run]. unfold read_size, buf_read.
  destruct (gb_read brk (b_data b) (range_new p q)) as [s|]; [|discriminate]. cbn [bind].
  destruct (gb_delete brk (b_data b) (range_new p q)) as [g|]; [|discriminate]. intros [= <-].
  apply store_kept; [now split|]. now destruct s.
Qed.
Lemma replace_kept w brk al b s b' : buf_replace brk al b s = Ok b' ->
  if differ s (text_of b) then stored w (size (text_of b) + size s) b b' else b' = b.
Proof.
  unfold buf_replace, text_of, differ. destruct (buf_data b) as [t|]; [|discriminate]. cbn [bind].
  destruct (list_N_eqb s t) eqn:E.
  - apply list_N_eqb_eq in E. subst t. destruct (list_eq_dec N.eq_dec s s); [|congruence]. now intros [= <-].
  - destruct (list_eq_dec N.eq_dec s t) as [->|_].
    { exfalso. assert (list_N_eqb t t = true) by now apply list_N_eqb_eq. congruence. }
    destruct (op_run brk al (OpReplace t s) b) as [[op b1]|] eqn:R; [|discriminate]. intros [= <-].
    apply store_kept; [eapply run_stacks; eassumption|]. cbn in R.
    destruct (replace_content brk al s b); [|discriminate]. now injection R as <- _.
Qed.

Lemma undo_kept w brk al b b' : buf_undo brk al b = Ok b' ->
  if group_has_edits b then kept_past w b' + group_bytes w b = kept_past w b /\ kept_future w b' = kept_future w b
  else kept w b' = kept w b.
Proof.
  unfold buf_undo, group_has_edits. destruct (b_group b) as [[|o ops]|] eqn:G.
  2: { intros E. apply reverse_stacks, (stacks_kept w) in E as [P F]. rewrite P, F. unfold kept_past, kept_future, group_bytes.
       cbn [b_history b_group set_group]. rewrite G. split; [lia|reflexivity]. }
  all: assert (Z : group_bytes w b = 0) by (unfold group_bytes; now rewrite G).
  all: unfold hist_previous; cbn [b_history set_group]; destruct (h_previous (b_history b)) as [|op prev] eqn:P.
  all: try (intros [= <-]; unfold kept, kept_past, kept_future; rewrite Z; unfold group_bytes; cbn [b_history b_group set_history set_group]; lia).
  all: intros E; apply reverse_stacks, (stacks_kept w) in E as [Pp Ff]; unfold kept; rewrite Pp, Ff;
    unfold kept_past, kept_future; rewrite Z; unfold group_bytes; cbn [b_history b_group set_history set_group h_previous h_next];
    rewrite P, !bytes_cons; lia.
Qed.
Lemma redo_kept w brk al b b' : buf_redo brk al b = Ok b' -> kept w b' = kept w b.
Proof.
  unfold buf_redo, hist_next. destruct (h_next (b_history b)) as [|op next] eqn:N.
  - now intros [= <-].
  - destruct (op_run brk al op _) as [[op' b2]|] eqn:E; [|discriminate]. intros [= <-].
    apply run_stacks, (stacks_kept w) in E as [P F]. unfold kept. rewrite P, F. unfold kept_past, kept_future, group_bytes.
    cbn [b_history b_group set_history h_previous h_next]. rewrite N, !bytes_cons. lia.
Qed.
Lemma end_kept w b : kept_past w (end_group b) = kept_past w b + (if group_has_edits b then w else 0) /\
  kept_future w (end_group b) = if group_has_edits b then 0 else kept_future w b.
Proof.
  unfold end_group, group_has_edits, kept_past, kept_future, group_bytes. destruct (b_group b) as [[|o ops]|] eqn:G.
  - cbn [b_history b_group set_group]. unfold ops_bytes at 3. cbn. split; [lia|reflexivity].
  - cbn [b_history b_group set_group set_history hist_add h_previous h_next]. rewrite bytes_cons, bytes_group. split; [lia|reflexivity].
  - rewrite G. split; [lia|reflexivity].
Qed.

(** Each call. *)
Theorem call_kept : forall w brk al c b f o b' f', bexec brk al c b f = Ok (o, b', f') ->
  if is_edit c b f then
    kept_past w b' = kept_past w b + w + turnover brk c b f /\
    kept_future w b' = (if group_open b then kept_future w b else 0)
  else match c with
  | BUndo => if group_has_edits b then kept_past w b' + group_bytes w b = kept_past w b /\ kept_future w b' = kept_future w b
             else kept w b' = kept w b
  | BRedo => kept w b' = kept w b
  | BEndGroup => kept_past w b' = kept_past w b + (if group_has_edits b then w else 0) /\
                 kept_future w b' = (if group_has_edits b then 0 else kept_future w b)
  | _ => kept_past w b' = kept_past w b /\ kept_future w b' = kept_future w b
  end.
Proof.
  intros w brk al c b f o b' f' E. destruct c; cbn [bexec is_edit turnover] in *.
  - unfold buf_insert in E. cbn [op_run] in E. destruct (gb_insert _ _ _ _ _); [|discriminate]. cbn [bind] in E.
    injection E as _ <- _. apply store_kept; [now split|reflexivity].
  - unfold buf_delete in E. unfold right_of. destruct (in_bounds brk (b_data b) _) as [i|]; [|discriminate]. cbn [bind] in E.
    destruct (buf_delete_range _ _ _ _) as [b1|] eqn:D; [|discriminate]. injection E as _ <- _.
    apply (delete_range_kept w) in D. now destruct i.
  - destruct (buf_delete_range _ _ _ _) as [b1|] eqn:D; [|discriminate]. injection E as _ <- _. eapply delete_range_kept; eassumption.
  - destruct (buf_replace _ _ _ _) as [b1|] eqn:D; [|discriminate]. injection E as _ <- _.
    apply (replace_kept w) in D. destruct (differ content (text_of b)); [exact D|]. subst b1. now split.
  - destruct (buf_undo _ _ _) as [b1|] eqn:D; [|discriminate]. injection E as _ <- _. eapply undo_kept; eassumption.
  - destruct (buf_redo _ _ _) as [b1|] eqn:D; [|discriminate]. injection E as _ <- _. eapply redo_kept; eassumption.
  - injection E as _ <- _. unfold start_group. destruct (b_group b) eqn:G; [now split|]. unfold kept_past, kept_future, group_bytes.
    cbn [b_history b_group set_group]. now rewrite G.
  - injection E as _ <- _. apply end_kept.
  - destruct (cexec _ _ _ _); [|discriminate]. injection E as _ <- _. now split.
  - injection E as _ <- _. now split.
  - unfold buf_save in E. destruct (b_path b); [|injection E as _ <- _; now split].
    destruct (outcome f p w0); [injection E as _ <- _; now split| |];
      (destruct (buf_data b); [|discriminate]); injection E as _ <- _; now split.
  - unfold buf_reload in E. unfold file_of. destruct (b_path b) as [p|]; [|injection E as _ <- _; now split].
    destruct (read_to_string f p) as [s|]; [|injection E as _ <- _; now split].
    destruct (buf_replace _ _ _ _) as [b1|] eqn:D; [|discriminate]. injection E as _ <- _.
    apply (replace_kept w) in D. destruct (differ s (text_of b)); [exact D|]. subst b1. now split.
  - injection E as _ <- _. now split.
  - injection E as _ <- _. now split.
  - injection E as _ <- _. now split.
  - injection E as _ <- _. now split.
  - injection E as _ <- _. now split.
Qed.

(** Sessions. *)
Lemma call_adds w brk al c b f o b' f' : bexec brk al c b f = Ok (o, b', f') -> kept w b' <= kept w b + adds w brk c b f.
Proof.
  intros E. pose proof (call_kept w _ _ _ _ _ _ _ _ E) as K. unfold adds, kept in *. destruct (is_edit c b f).
  - destruct K as [-> ->]. destruct (group_open b); lia.
  - destruct c; try lia.
    + destruct (group_has_edits b); [|lia]. lia.
    + destruct K as [-> ->]. destruct (group_has_edits b); lia.
Qed.
Theorem session_kept : forall w brk cs b f os b' f', brun brk cs b f = Ok (os, b', f') ->
  kept w b' <= kept w b + session_adds w brk cs b f.
Proof.
  intros w brk cs. induction cs as [|[al c] cs IH]; intros b f os b' f' E.
  - injection E as _ <- _. cbn. lia.
  - cbn [brun session_adds] in *. destruct (bexec brk al c b f) as [[[o b1] f1]|] eqn:E1; [|discriminate]. cbn [bind] in E.
    destruct (brun brk cs b1 f1) as [[[os1 b2] f2]|] eqn:E2; [|discriminate]. injection E as _ <- _.
    apply (call_adds w) in E1. apply IH in E2. lia.
Qed.
Theorem fresh_kept : forall w f b, fresh_buffer f b -> kept w b = 0.
Proof.
  intros w f b [(al & E)|(al & p & E)].
  - unfold buffer_new in E. destruct (gb_new al []); [|discriminate]. now injection E as <-.
  - unfold from_file in E. destruct (read_to_string f p) as [t|]; [|discriminate]. destruct (gb_new al t); [|discriminate]. cbn [bind] in E.
    destruct (fs_canon f p); [|discriminate]. now injection E as <-.
Qed.

(** How much a call can add. *)
Lemma read_le brk b p q : wf (b_data b) -> read_size brk b p q <= size (text_of b).
Proof.
  intros (s1 & s2 & Hrep). unfold read_size, buf_read, text_of, buf_data. rewrite range_new_ordered, (to_string_ok _ _ _ Hrep).
  rewrite (read_halves _ _ _ _ _ _ Hrep (first_second_ple p q)).
  destruct (hsplit brk s1 s2 (first_of p q)) as [[pre post]|] eqn:E1; [|lia].
  destruct (hsplit brk s1 s2 (second_of p q)) as [[pre' post']|] eqn:E2; [|lia].
  destruct (gsplit_mono _ _ _ _ _ _ _ _ E1 E2 (first_second_ple p q)) as (k & -> & ->).
  rewrite skipn_app, skipn_all, Nat.sub_diag. cbn [skipn app]. unfold size. fold (blen (concat k)) (blen (s1 ++ s2)).
  rewrite (hsplit_concat _ _ _ _ _ _ E1), concat_app, !blen_app. lia.
Qed.
Theorem turnover_le : forall brk c b f, reachable_buffer brk b f -> turnover brk c b f <= handed c b f + size (text_of b).
Proof.
  intros brk c b f R. apply reachable_wfb, wfb_data in R. destruct c; cbn [turnover handed]; try lia.
  - now apply read_le.
  - now apply read_le.
Qed.

(** Nothing limits it: one letter is typed and deleted again and again. *)
Definition round : list (allocator * bcall) := [(tight, BInsert [120%N]); (tight, BDelete)].
Definition rounds (n : nat) : list (allocator * bcall) := concat (repeat round n).
Definition idle (g : gapbuf) (hs : list operation) : buffer := Buf None g None (cursor_new (Pos 0 0)) (Hist hs [] None) None None false [].
Definition used : gapbuf :=
  match buffer_new tight with
  | Ok b => match brun uax29_15 round b no_files with Ok (_, b', _) => b_data b' | Panic => b_data b end
  | Panic => GB (Vec [] []) 0 0
  end.
Lemma first_round : exists b, buffer_new tight = Ok b /\ exists os,
  brun uax29_15 round b no_files = Ok (os, idle used [OpDelete (Some [120%N]) (range_new (Pos 0 0) (Pos 0 1)); OpInsert [120%N] (Pos 0 0)], no_files).
Proof. eexists. split; [reflexivity|]. eexists. vm_compute. reflexivity. Qed.
Lemma next_round hs : exists os, brun uax29_15 round (idle used hs) no_files =
  Ok (os, idle used (OpDelete (Some [120%N]) (range_new (Pos 0 0) (Pos 0 1)) :: OpInsert [120%N] (Pos 0 0) :: hs), no_files).
Proof. eexists. vm_compute. reflexivity. Qed.

Lemma brun_app brk cs1 cs2 : forall b f os1 b1 f1 os2 b2 f2, brun brk cs1 b f = Ok (os1, b1, f1) -> brun brk cs2 b1 f1 = Ok (os2, b2, f2) ->
  brun brk (cs1 ++ cs2) b f = Ok (os1 ++ os2, b2, f2).
Proof.
  induction cs1 as [|[al c] cs1 IH]; intros b f os1 b1 f1 os2 b2 f2 E1 E2.
  - injection E1 as <- <- <-. exact E2.
  - cbn [brun app] in *. destruct (bexec brk al c b f) as [[[o b0] f0]|]; [|discriminate]. cbn [bind] in *.
    destruct (brun brk cs1 b0 f0) as [[[os b3] f3]|] eqn:E; [|discriminate]. injection E1 as <- <- <-.
    now rewrite (IH _ _ _ _ _ _ _ _ E E2).
Qed.
Lemma more_rounds n : forall hs, exists os hs', brun uax29_15 (rounds n) (idle used hs) no_files = Ok (os, idle used hs', no_files) /\
  forall w, ops_bytes w hs' = n * (2 * w + 2) + ops_bytes w hs.
Proof.
  induction n as [|n IH]; intros hs.
  - exists [], hs. split; [reflexivity|]. intros w. lia.
  - destruct (next_round hs) as (os1 & E1).
    set (hs1 := OpDelete _ _ :: _) in E1. destruct (IH hs1) as (os2 & hs' & E2 & H).
    exists (os1 ++ os2), hs'. split.
    + unfold rounds. cbn [repeat concat]. fold (rounds n). now apply (brun_app _ _ _ _ _ _ _ _ _ _ _ E1).
    + intros w. rewrite H. unfold hs1. rewrite !bytes_cons. cbn [op_bytes]. change (size [120%N]) with 1. lia.
Qed.
Theorem no_limit : forall n, exists cs os b f, from_new cs no_files = Ok (os, b, f) /\ reachable_buffer uax29_15 b f /\
  List.length cs = 2 * n /\ buf_data b = Ok [] /\ forall w, kept w b = n * (2 * w + 2).
Proof.
  intros n. exists (concat (repeat [BInsert [120%N]; BDelete] n)).
  assert (M : map (pair tight) (concat (repeat [BInsert [120%N]; BDelete] n)) = rounds n).
  { unfold rounds. induction n as [|n IH]; [reflexivity|]. cbn [repeat concat]. rewrite map_app, IH. reflexivity. }
  assert (L : List.length (concat (repeat [BInsert [120%N]; BDelete] n)) = 2 * n).
  { clear M. induction n as [|n IH]; [reflexivity|]. cbn [repeat concat]. rewrite app_length, IH. cbn. lia. }
  assert (F : Forall (fun ac => alloc_ok (fst ac) /\ call_ok (snd ac)) (rounds n)).
  { clear M L. unfold rounds. induction n as [|n IH]; [constructor|]. cbn [repeat concat]. apply Forall_app. split; [|exact IH].
    constructor; [split; [exact tight_ok|repeat constructor]|]. constructor; [split; [exact tight_ok|exact I]|constructor]. }
  unfold from_new. rewrite M.
  destruct first_round as (b0 & B0 & os1 & E1).
  assert (X : exists os b, brun uax29_15 (rounds n) b0 no_files = Ok (os, b, no_files) /\ buf_data b = Ok [] /\ forall w, kept w b = n * (2 * w + 2)).
  { destruct n as [|n].
    - exists [], b0. split; [reflexivity|]. injection B0 as <-. split; [reflexivity|]. intros w. reflexivity.
    - destruct (more_rounds n [OpDelete (Some [120%N]) (range_new (Pos 0 0) (Pos 0 1)); OpInsert [120%N] (Pos 0 0)]) as (os2 & hs' & E2 & H).
      exists (os1 ++ os2), (idle used hs'). split; [|split].
      + unfold rounds. cbn [repeat concat]. fold (rounds n). now apply (brun_app _ _ _ _ _ _ _ _ _ _ _ E1).
      + reflexivity.
      + intros w. unfold kept, kept_past, kept_future, group_bytes. cbn [idle b_history b_group h_previous h_next].
        rewrite H, !bytes_cons. cbn [op_bytes ops_bytes map list_sum fold_right]. change (size [120%N]) with 1. unfold ops_bytes. cbn. lia. }
  destruct X as (os & b & E & D & K). exists os, b, no_files. rewrite B0. cbn [bind]. split; [exact E|]. split; [|auto].
  exists b0, no_files, (rounds n), os. split; [left; now exists tight|]. split; [exact F|exact E].
Qed.

Theorem sessions_kept : forall w brk f0 b0 cs os b f, fresh_buffer f0 b0 -> brun brk cs b0 f0 = Ok (os, b, f) ->
  kept w b <= session_adds w brk cs b0 f0.
Proof. intros w brk f0 b0 cs os b f F E. apply (session_kept w) in E. rewrite (fresh_kept w _ _ F) in E. exact E. Qed.
