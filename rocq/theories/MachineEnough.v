(** With enough memory a session on machine integers does what it does on
    unbounded numbers. *)
From Verif Require Import Base Utf8 Utf8Proofs Grapheme GraphemeProofs Position GapBuffer
  Cursor PathModel Buffer CursorSpec CursorCalls OpProofs BufferCalls AnyTextProofs Machine MachineSpec MachineProofs.

(** For every large enough [K] the results agree. *)
Definition ev {A} (m : nat -> mres A) (r : res A) : Prop := exists K0, forall K, K0 <= K -> m K = of_res r.

Lemma ev_const {A} (r : res A) : ev (fun _ => of_res r) r.
Proof. now exists 0. Qed.
Lemma ev_ok {A} (a : A) : ev (fun _ => MOk a) (Ok a).
Proof. now exists 0. Qed.
Lemma ev_bind {A B} (m : nat -> mres A) (r : res A) (f : nat -> A -> mres B) (g : A -> res B) :
  ev m r -> (forall a, ev (fun K => f K a) (g a)) -> ev (fun K => mbind (m K) (f K)) (bind r g).
Proof.
  intros [K0 H] Hf. destruct r as [a|].
  - destruct (Hf a) as [K1 H1]. exists (Nat.max K0 K1). intros K HK. rewrite H by lia. cbn. apply H1. lia.
  - exists K0. intros K HK. now rewrite H.
Qed.
Lemma ev_bind_ok {A B} (m : nat -> mres A) (a : A) (f : nat -> A -> mres B) (r : res B) :
  ev m (Ok a) -> ev (fun K => f K a) r -> ev (fun K => mbind (m K) (f K)) r.
Proof.
  intros [K0 H] [K1 H1]. exists (Nat.max K0 K1). intros K HK. rewrite H by lia. cbn. apply H1. lia.
Qed.
Lemma ev_uadd a b : ev (fun K => uadd K a b) (Ok (a + b)).
Proof. exists (a + b). intros K HK. apply uadd_ok. lia. Qed.
Lemma ev_alloc v : ev (fun K => allocated K v) (Ok v).
Proof. exists (vcap v). intros K HK. unfold allocated. now rewrite (proj2 (Nat.leb_le _ _) HK). Qed.
Lemma ev_for {A S} (xs : list A) (body : nat -> A -> S -> mres S) (body' : A -> S -> res S) :
  (forall x s, ev (fun K => body K x s) (body' x s)) ->
  forall s, ev (fun K => mfor_each xs s (body K)) (for_each xs s body').
Proof.
  intros H. induction xs as [|x xs IH]; intros s; cbn [mfor_each for_each]; [apply ev_ok|].
  apply ev_bind; [apply H|exact IH].
Qed.

Ltac ev1 := first [solve [eauto 1 with ev] | apply ev_ok | apply ev_const | eapply ev_bind_ok; [first [apply ev_uadd|apply ev_alloc]|cbv beta]
  | apply ev_bind; [solve [eauto with ev]|intros]].
Ltac ev := repeat ev1; eauto with ev.
Create HintDb ev.
#[local] Hint Resolve ev_const ev_ok ev_uadd ev_alloc : ev.

Lemma ev_new al s : ev (fun K => u_new K al s) (gb_new al s).
Proof. unfold u_new, gb_new. ev. Qed.
Lemma ev_shift gl i d : ev (fun K => u_shift_left_body K gl i d) (shift_left_body gl i d).
Proof. unfold u_shift_left_body, shift_left_body. ev. Qed.
Lemma ev_move_gap g off : ev (fun K => u_move_gap K g off) (move_gap g off).
Proof.
  unfold u_move_gap, move_gap. destruct (_ =? 0); [ev|]. destruct (Nat.compare _ _); [ev| |].
  - apply ev_bind; [|intros; ev]. apply (ev_for _ (fun K => u_shift_left_body K (gap_length g))). intros. apply ev_shift.
  - eapply ev_bind_ok; [apply ev_uadd|]. apply ev_bind; [|intros; ev].
    apply (ev_for _ (fun K i d => of_res (shift_right_body (gap_length g) i d))). intros. apply ev_const.
Qed.
#[local] Hint Resolve ev_new ev_move_gap : ev.
Lemma ev_write g d : ev (fun K => u_write_to_gap K g d) (write_to_gap g d).
Proof. unfold u_write_to_gap, write_to_gap. apply (ev_for _ (fun K b g => _)). intros. ev. Qed.
Lemma ev_scan gs : forall off ln lo p, ev (fun K => u_scan K gs off ln lo p) (Ok (scan gs off ln lo p)).
Proof.
  induction gs as [|g gs IH]; intros; cbn [u_scan scan]; [ev|]. destruct (_ && _); [ev|]. destruct (is_lf g); ev.
Qed.
Lemma ev_second g : ev (fun K => u_second_half K g) (second_half g).
Proof. unfold u_second_half, second_half. ev. Qed.
#[local] Hint Resolve ev_write ev_scan ev_second : ev.
Lemma ev_find brk g p : ev (fun K => u_find_offset K brk g p) (find_offset brk g p).
Proof.
  unfold u_find_offset, find_offset. ev. eapply ev_bind_ok; [apply ev_scan|]. destruct (scan _ _ _ _ _); [ev|].
  destruct (_ && _); [ev|]. ev. eapply ev_bind_ok; [apply ev_scan|]. destruct (scan _ _ _ _ _); [ev|]. destruct (_ && _); ev.
Qed.
#[local] Hint Resolve ev_find : ev.
Lemma ev_in_bounds brk g p : ev (fun K => u_in_bounds K brk g p) (in_bounds brk g p).
Proof. unfold u_in_bounds, in_bounds. ev. Qed.
Lemma ev_ensure al g d : ev (fun K => u_ensure_capacity K al g d) (ensure_capacity al g d).
Proof. unfold u_ensure_capacity, ensure_capacity. destruct (_ <? _); ev. Qed.
#[local] Hint Resolve ev_in_bounds ev_ensure : ev.
Lemma ev_insert brk al g d p : ev (fun K => u_insert K brk al g d p) (gb_insert brk al g d p).
Proof. unfold u_insert, gb_insert. ev. destruct a0; ev. Qed.
Lemma ev_read brk g r : ev (fun K => u_read K brk g r) (gb_read brk g r).
Proof. unfold u_read, gb_read. ev. destruct a; ev. destruct a; ev. destruct (_ && _); ev. Qed.
Lemma ev_delete brk g r : ev (fun K => u_delete K brk g r) (gb_delete brk g r).
Proof. unfold u_delete, gb_delete. ev. destruct a; ev. destruct a0; ev. destruct a0; ev. Qed.
Lemma ev_to_string g : ev (fun K => u_to_string K g) (gb_to_string g).
Proof. unfold u_to_string, gb_to_string. ev. Qed.
#[local] Hint Resolve ev_insert ev_read ev_delete ev_to_string : ev.
Lemma ev_move_to brk g c p : ev (fun K => u_move_to K brk g c p) (move_to brk g c p).
Proof. unfold u_move_to, move_to. ev. destruct a; ev. Qed.
#[local] Hint Resolve ev_move_to : ev.
Lemma ev_line brk g c l : ev (fun K => u_move_to_line K brk g c l) (move_to_line brk g c l).
Proof. unfold u_move_to_line, move_to_line. ev. destruct a as [[|] c1]; ev. destruct a0; ev. Qed.
#[local] Hint Resolve ev_line : ev.
Lemma ev_last gs : forall ln len, ev (fun K => u_last_line_loop K gs ln len) (Ok (last_line_loop gs ln len)).
Proof. induction gs as [|g gs IH]; intros; cbn [u_last_line_loop last_line_loop]; [ev|]. destruct (is_lf g); ev. Qed.
Lemma ev_cexec brk g m c : ev (fun K => u_cexec K brk g m c) (cexec brk g m c).
Proof.
  destruct m; cbn [u_cexec cexec]; unfold u_move_up, move_up, u_move_down, move_down, u_move_left, move_left,
    u_move_right, move_right, u_move_to_start_of_line, move_to_start_of_line, u_move_to_end_of_line, move_to_end_of_line,
    u_move_to_last_line, move_to_last_line, u_move_to_first_line, move_to_first_line; ev.
  all: repeat (match goal with
    | |- context [if ?x then _ else _] => destruct x
    | |- context [let '(_, _) := ?x in _] => is_var x; destruct x
    | |- context [match ?x with Some _ => _ | None => _ end] => destruct x
    end; ev).
  eapply ev_bind_ok; [apply ev_last|]. destruct (last_line_loop _ _ _) as [ln len]. ev. destruct a0. ev.
Qed.
#[local] Hint Resolve ev_cexec : ev.

Lemma ev_insert_end brk d p : ev (fun K => u_insert_end K brk d p) (Ok (insert_end brk d p)).
Proof.
  unfold u_insert_end, insert_end. eapply ev_bind_ok; [apply ev_uadd|]. eapply ev_bind_ok; [apply ev_uadd|].
  unfold usub. rewrite (proj2 (Nat.leb_le 1 (line p + (count_lf d + 1)))) by lia. cbn [of_res mbind].
  destruct (_ =? 1); [ev|]. destruct (last_line d); ev.
Qed.
Lemma ev_replace_content brk al s b : ev (fun K => u_replace_content K brk al s b) (replace_content brk al s b).
Proof.
  unfold u_replace_content, replace_content. ev. destruct a0 as [[|] c]; ev.
  apply ev_bind; [|intros; ev]. ev. destruct a0. ev.
Qed.
#[local] Hint Resolve ev_replace_content : ev.
Lemma ev_op_run brk al op : forall b, ev (fun K => u_op_run K brk al op b) (op_run brk al op b).
Proof.
  induction op as [d p|m r|o n|ops IH] using operation_induction; intros b.
  - cbn [u_op_run op_run]. ev.
  - cbn [u_op_run op_run]. ev.
  - cbn [u_op_run op_run]. ev.
  - change (op_run brk al (OpGroup ops) b) with (let* (ops', b') := go_run brk al ops b in Ok (OpGroup ops', b')).
    change (fun K => u_op_run K brk al (OpGroup ops) b) with
      (fun K => let+ (ops', b') := u_go_run K brk al ops b in MOk (OpGroup ops', b')).
    apply ev_bind; [|intros [ops' b']; ev]. revert b.
    induction IH as [|o ops Ho _ IH]; intros b; cbn [u_go_run go_run]; [ev|].
    apply ev_bind; [apply Ho|]. intros [o' b1]. apply ev_bind; [apply IH|]. intros [r b2]. ev.
Qed.
Lemma ev_op_reverse brk al op : forall b, ev (fun K => u_op_reverse K brk al op b) (op_reverse brk al op b).
Proof.
  induction op as [d p|m r|o n|ops IH] using operation_induction; intros b.
  - cbn [u_op_reverse op_reverse]. eapply ev_bind_ok; [apply ev_insert_end|]. destruct (insert_end brk d p); ev.
  - cbn [u_op_reverse op_reverse]. destruct m; ev.
  - cbn [u_op_reverse op_reverse]. ev.
  - change (op_reverse brk al (OpGroup ops) b) with (go_rev brk al ops b).
    change (fun K => u_op_reverse K brk al (OpGroup ops) b) with (fun K => u_go_rev K brk al ops b). revert b.
    induction IH as [|o ops Ho _ IH]; intros b; cbn [u_go_rev go_rev]; [ev|].
    apply ev_bind; [apply IH|]. intros b1. apply Ho.
Qed.
#[local] Hint Resolve ev_op_run ev_op_reverse : ev.
Lemma ev_replace brk al b s : ev (fun K => u_buf_replace K brk al b s) (buf_replace brk al b s).
Proof. unfold u_buf_replace, buf_replace. ev. destruct (list_N_eqb _ _); ev. destruct a1; ev. Qed.
Lemma ev_delete_range brk al b r : ev (fun K => u_buf_delete_range K brk al b r) (buf_delete_range brk al b r).
Proof. unfold u_buf_delete_range, buf_delete_range. ev. destruct a; ev. Qed.
#[local] Hint Resolve ev_replace ev_delete_range : ev.
Lemma ev_buf_insert brk al b d : ev (fun K => u_buf_insert K brk al b d) (buf_insert brk al b d).
Proof. unfold u_buf_insert, buf_insert. ev. destruct a; ev. Qed.
Lemma ev_buf_delete brk al b : ev (fun K => u_buf_delete K brk al b) (buf_delete brk al b).
Proof.
  unfold u_buf_delete, buf_delete. ev. destruct a.
  - eapply ev_bind_ok; [apply ev_ok|]. ev.
  - eapply ev_bind_ok; [eapply ev_bind_ok; [apply ev_uadd|apply ev_ok]|]. ev.
Qed.
Lemma ev_undo brk al b : ev (fun K => u_buf_undo K brk al b) (buf_undo brk al b).
Proof. unfold u_buf_undo, buf_undo. destruct (b_group b) as [[|]|]; try destruct (hist_previous _) as [[|] ?]; ev. Qed.
Lemma ev_redo brk al b : ev (fun K => u_buf_redo K brk al b) (buf_redo brk al b).
Proof. unfold u_buf_redo, buf_redo. destruct (hist_next _) as [[|] ?]; ev. destruct a; ev. Qed.
Lemma ev_save f w b : ev (fun K => u_buf_save K f w b) (buf_save f w b).
Proof. unfold u_buf_save, buf_save. destruct (b_path b); ev. destruct (outcome _ _ _); ev. Qed.
Lemma ev_reload brk al f b : ev (fun K => u_buf_reload K brk al f b) (buf_reload brk al f b).
Proof. unfold u_buf_reload, buf_reload. destruct (b_path b); ev. destruct (read_to_string _ _); ev. Qed.
#[local] Hint Resolve ev_buf_insert ev_buf_delete ev_undo ev_redo ev_save ev_reload : ev.
Lemma ev_bexec brk al c b f : ev (fun K => u_bexec K brk al c b f) (bexec brk al c b f).
Proof. destruct c; cbn [u_bexec bexec]; ev; repeat match goal with |- context [let '(_, _) := ?x in _] => is_var x; destruct x end; ev. Qed.
Lemma ev_brun brk cs : forall b f, ev (fun K => u_brun K brk cs b f) (brun brk cs b f).
Proof.
  induction cs as [|[al c] cs IH]; intros b f; cbn [u_brun brun]; [ev|].
  apply ev_bind; [apply ev_bexec|]. intros [[o b1] f1]. apply ev_bind; [apply IH|]. intros [[os b2] f2]. ev.
Qed.
Lemma ev_fresh f b : fresh_buffer f b -> exists K0, forall K, K0 <= K -> u_fresh K f b.
Proof.
  intros [(al & E)|(al & p & E)].
  - assert (H : ev (fun K => u_buffer_new K al) (buffer_new al)) by (unfold u_buffer_new, buffer_new; ev).
    destruct H as [K0 H]. exists K0. intros K HK. left. exists al. rewrite H, E by exact HK. reflexivity.
  - assert (H : ev (fun K => u_from_file K al f p) (from_file al f p)).
    { unfold u_from_file, from_file. destruct (read_to_string f p); ev. destruct (fs_canon f p); ev. }
    destruct H as [K0 H]. exists K0. intros K HK. right. exists al, p. rewrite H, E by exact HK. reflexivity.
Qed.
Lemma within_some (cs : list (allocator * bcall)) : exists K0, forall K, K0 <= K -> Forall (fun ac => within_machine K (snd ac)) cs.
Proof.
  induction cs as [|[al c] cs [K0 IH]]; [exists 0; constructor|].
  assert (H : exists K1, forall K, K1 <= K -> within_machine K c).
  { destruct c; try (now exists 0); cbn [within_machine].
    - eexists. intros K HK. exact HK.
    - exists (line p + line q). lia.
    - exists (line p + offset p). lia. }
  destruct H as [K1 H]. exists (Nat.max K0 K1). intros K HK. constructor; [apply H; lia|apply IH; lia].
Qed.
Lemma enough_memory brk cs b f : fresh_buffer f b -> exists K0, forall K, K0 <= K ->
  u_fresh K f b /\ Forall (fun ac => within_machine K (snd ac)) cs /\ u_brun K brk cs b f = of_res (brun brk cs b f).
Proof.
  intros Hf. destruct (ev_fresh f b Hf) as [K0 H0]. destruct (within_some cs) as [K1 H1]. destruct (ev_brun brk cs b f) as [K2 H2].
  exists (Nat.max K0 (Nat.max K1 K2)). intros K HK. split; [apply H0; lia|]. split; [apply H1; lia|apply H2; lia].
Qed.
