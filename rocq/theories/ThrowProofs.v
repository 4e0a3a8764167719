(** Proofs about change callbacks that panic. *)
From Verif Require Import Base Utf8 Utf8Proofs Grapheme Position GapBuffer Cursor PathModel Buffer Spec
  OpProofs HalvesProofs BufferCalls AnyTextProofs Throwing ThrowSpec.

Ltac open_bind H x :=
  match type of H with
  | bind ?r _ = _ => let E := fresh "E" in destruct r as [x|] eqn:E; cbn [bind] in H
  end.

Definition logs (b : buffer) : nat := length (b_log b).

(** ** The ordinary operations, edit by edit *)

(** The buffer after running, or reversing, operations. *)
Fixpoint runs (brk : brk_rule) (al : allocator) (ops : list operation) (b : buffer) : res buffer :=
  match ops with
  | [] => Ok b
  | o :: ops => let* (_, b) := op_run brk al o b in runs brk al ops b
  end.
Fixpoint revs (brk : brk_rule) (al : allocator) (ops : list operation) (b : buffer) : res buffer :=
  match ops with
  | [] => Ok b
  | o :: ops => let* b := revs brk al ops b in op_reverse brk al o b
  end.

Section Flat.
Context (brk : brk_rule) (al : allocator).

Lemma runs_app ops1 ops2 : forall b, runs brk al (ops1 ++ ops2) b = let* b := runs brk al ops1 b in runs brk al ops2 b.
Proof.
  induction ops1 as [|o ops1 IH]; intros b; [reflexivity|]. cbn [app runs].
  destruct (op_run brk al o b) as [[o' b1]|]; [|reflexivity]. cbn [bind]. apply IH.
Qed.
Lemma revs_app ops1 ops2 b : revs brk al (ops1 ++ ops2) b = let* b := revs brk al ops2 b in revs brk al ops1 b.
Proof.
  induction ops1 as [|o ops1 IH]; cbn [app revs].
  - now destruct (revs brk al ops2 b).
  - rewrite IH. now destruct (revs brk al ops2 b).
Qed.

Lemma run_group ops b : op_run brk al (OpGroup ops) b = let* (ops', b') := go_run brk al ops b in Ok (OpGroup ops', b').
Proof. reflexivity. Qed.
Lemma go_runs ops : forall b, (let* (_, b') := go_run brk al ops b in Ok b') = runs brk al ops b.
Proof.
  induction ops as [|o ops IH]; intros b; [reflexivity|]. cbn [go_run runs].
  destruct (op_run brk al o b) as [[o' b1]|]; [|reflexivity]. cbn [bind]. rewrite <- IH.
  now destruct (go_run brk al ops b1) as [[x y]|].
Qed.
Lemma group_runs ops b : (let* (_, b') := op_run brk al (OpGroup ops) b in Ok b') = runs brk al ops b.
Proof. rewrite run_group, <- go_runs. now destruct (go_run brk al ops b) as [[x y]|]. Qed.
Lemma group_revs ops b : op_reverse brk al (OpGroup ops) b = revs brk al ops b.
Proof.
  change (op_reverse brk al (OpGroup ops) b) with (go_rev brk al ops b).
  induction ops as [|o ops IH]; [reflexivity|]. cbn [go_rev revs]. now rewrite IH.
Qed.

Lemma flat_run op : forall b, (let* (_, b') := op_run brk al op b in Ok b') = runs brk al (parts op) b.
Proof.
  induction op as [d p|c r|s t|ops IH] using operation_induction; intros b.
  1-3: cbn [parts runs]; now destruct (op_run brk al _ b) as [[x y]|].
  rewrite group_runs. cbn [parts]. revert b. induction IH as [|o ops Ho _ IH]; intros b; [reflexivity|].
  cbn [flat_map runs]. rewrite runs_app, <- Ho. destruct (op_run brk al o b) as [[x y]|]; [|reflexivity]. cbn [bind]. apply IH.
Qed.
Lemma flat_rev op : forall b, op_reverse brk al op b = revs brk al (parts op) b.
Proof.
  induction op as [d p|c r|s t|ops IH] using operation_induction; intros b; [reflexivity..|].
  rewrite group_revs. cbn [parts]. revert b. induction IH as [|o ops Ho _ IH]; intros b; [reflexivity|].
  cbn [flat_map revs]. rewrite revs_app, IH. destruct (revs brk al (flat_map parts ops) b) as [b1|]; [|reflexivity]. cbn [bind]. apply Ho.
Qed.

(** ** The announcements only grow *)
Lemma notify_logs b p : logs b <= logs (notify b p).
Proof. unfold logs, notify. cbn. destruct (b_callback b); [rewrite app_length; lia|lia]. Qed.
Lemma replace_logs s b b' : replace_content brk al s b = Ok b' -> logs b <= logs b'.
Proof.
  unfold replace_content. intros H. open_bind H g; [|discriminate]. open_bind H kc; [|discriminate]. destruct kc as [k c1].
  open_bind H c2; [|discriminate]. injection H as <-. apply (notify_logs (set_cursor (set_data b g) c2)).
Qed.
Lemma run_logs op : forall b op' b', op_run brk al op b = Ok (op', b') -> logs b <= logs b'.
Proof.
  induction op as [d p|c r|s t|ops IH] using operation_induction; intros b op' b' H; cbn [op_run] in H.
  - open_bind H g; [|discriminate]. injection H as _ <-. apply (notify_logs (set_data b g)).
  - open_bind H m; [|discriminate]. open_bind H g; [|discriminate]. injection H as _ <-. apply (notify_logs (set_data b g)).
  - open_bind H v; [|discriminate]. injection H as _ <-. now apply replace_logs in E.
  - change (op_run brk al (OpGroup ops) b = Ok (op', b')) in H. rewrite run_group in H. open_bind H x; [|discriminate]. destruct x as [ops' b1]. injection H as _ <-. revert b ops' b1 E.
    induction IH as [|o ops Ho _ IH]; intros b ops' b1 E; cbn [go_run] in E.
    + now injection E as _ <-.
    + open_bind E x; [|discriminate]. destruct x as [o' b2]. open_bind E y; [|discriminate]. destruct y as [r' b3]. injection E as _ <-.
      apply Ho in E0. apply IH in E1. lia.
Qed.
Lemma runs_logs ops b b' : runs brk al ops b = Ok b' -> logs b <= logs b'.
Proof.
  rewrite <- group_runs. intros H. open_bind H x; [|discriminate]. destruct x as [o y]. injection H as <-. now apply run_logs in E.
Qed.
Lemma reverse_logs op : forall b b', op_reverse brk al op b = Ok b' -> logs b <= logs b'.
Proof.
  induction op as [d p|c r|s t|ops IH] using operation_induction; intros b b' H; cbn [op_reverse] in H.
  - destruct (insert_end brk d p); [|injection H as <-; lia]. open_bind H g; [|discriminate]. injection H as <-. apply (notify_logs (set_data b g)).
  - destruct c; [|injection H as <-; lia]. open_bind H g; [|discriminate]. injection H as <-. apply (notify_logs (set_data b g)).
  - now apply replace_logs in H.
  - change (go_rev brk al ops b = Ok b') in H. revert b b' H.
    induction IH as [|o ops Ho _ IH]; intros b b' E; cbn [go_rev] in E.
    + injection E as <-; lia.
    + open_bind E x; [|discriminate]. apply IH in E0. apply Ho in E. lia.
Qed.
Lemma revs_logs ops b b' : revs brk al ops b = Ok b' -> logs b <= logs b'.
Proof. rewrite <- group_revs. apply reverse_logs. Qed.

(** ** Operations with a callback that panics *)

Lemma tell_spec {A} (a : A) b p n :
  match tell a b p n with
  | Went a' b' n' => a' = a /\ b' = notify b p /\ logs b' + n' = logs b + n
  | Thrown b' => b' = notify b p /\ n = 0 /\ logs b' = logs b + 1
  end.
Proof.
  unfold tell. destruct (b_callback b) eqn:E; [destruct n as [|n]|]; repeat split; unfold logs, notify; cbn; rewrite E; try rewrite app_length; cbn; lia.
Qed.

(** How a throwing operation relates to the ordinary one, [es]: its edits, [done]:
    all of them made. *)
Definition agrees {A} (x : res (flow A)) (y : res (A * buffer)) (b : buffer) (n : nat) (thrown : buffer -> Prop) : Prop :=
  match x with
  | Panic => y = Panic
  | Ok (Went a b' n') => y = Ok (a, b') /\ logs b' + n' = logs b + n
  | Ok (Thrown b') => logs b' = logs b + n + 1 /\ thrown b'
  end.

Lemma replace_t {A} s (a : A) b n (T : buffer -> Prop) :
  (forall b', replace_content brk al s b = Ok b' -> T b') ->
  agrees (replace_content_t brk al s a b n) (let* b' := replace_content brk al s b in Ok (a, b')) b n T.
Proof.
  intros HT. unfold replace_content_t, replace_content in *. destruct (gb_new al s) as [g|]; [|reflexivity]. cbn [bind] in *.
  destruct (move_to brk g (cursor_new (Pos 0 0)) (c_pos (b_cursor b))) as [[k c1]|]; [|reflexivity]. cbn [bind] in *.
  destruct (if (k : bool) then Ok c1 else _) as [c2|]; [|reflexivity]. cbn [bind] in *.
  pose proof (tell_spec a (set_cursor (set_data b g) c2) (Pos 0 0) n) as X.
  destruct (tell a _ _ n) as [a' b' n'|b']; cbn [agrees].
  - destruct X as (-> & -> & X). now split.
  - destruct X as (-> & -> & X). change (logs (set_cursor (set_data b g) c2)) with (logs b) in X. split; [lia|]. now apply HT.
Qed.

Definition part_run (op : operation) (b b' : buffer) : Prop :=
  exists ops1 ops2, parts op = ops1 ++ ops2 /\ ops1 <> [] /\ runs brk al ops1 b = Ok b'.
Definition part_rev (op : operation) (b b' : buffer) : Prop :=
  exists ops1 ops2, parts op = ops1 ++ ops2 /\ ops2 <> [] /\ revs brk al ops2 b = Ok b'.

Lemma part_all op b b' x : parts op = [op] -> op_run brk al op b = Ok (x, b') -> part_run op b b'.
Proof. intros P E. exists [op], []. split; [assumption|]. split; [discriminate|]. cbn. now rewrite E. Qed.
Lemma part_rall op b b' : parts op = [op] -> op_reverse brk al op b = Ok b' -> part_rev op b b'.
Proof. intros P E. exists [], [op]. split; [assumption|]. split; [discriminate|]. exact E. Qed.

Lemma run_t op : forall b n, agrees (op_run_t brk al op b n) (op_run brk al op b) b n (part_run op b).
Proof.
  induction op as [d p|c r|s t|ops IH] using operation_induction; intros b n.
  - cbn [op_run_t op_run]. destruct (gb_insert brk al (b_data b) d p) as [g|] eqn:E; [|reflexivity]. cbn [bind].
    pose proof (tell_spec (OpInsert d p) (set_data b g) p n) as X.
    destruct (tell _ _ p n) as [a' b' n'|b']; cbn [agrees]; destruct X as (-> & -> & X); [now split|].
    change (logs (set_data b g)) with (logs b) in X. split; [lia|]. eapply part_all; [reflexivity|]. cbn [op_run]. now rewrite E.
  - cbn [op_run_t op_run]. destruct (gb_read brk (b_data b) r) as [m|] eqn:Em; [|reflexivity]. cbn [bind].
    destruct (gb_delete brk (b_data b) r) as [g|] eqn:E; [|reflexivity]. cbn [bind].
    pose proof (tell_spec (OpDelete m r) (set_data b g) (r_start r) n) as X.
    destruct (tell _ _ _ n) as [a' b' n'|b']; cbn [agrees]; destruct X as (-> & -> & X); [now split|].
    change (logs (set_data b g)) with (logs b) in X. split; [lia|]. eapply part_all; [reflexivity|]. cbn [op_run]. rewrite Em. cbn [bind]. now rewrite E.
  - cbn [op_run_t op_run]. apply (replace_t t (OpReplace s t)). intros b' E. eapply part_all; [reflexivity|]. cbn [op_run]. now rewrite E.
  - rewrite run_group. cbn [op_run_t].
    match goal with |- context [(fix go (l : list operation) (b0 : buffer) (n0 : nat) {struct l} : res (flow (list operation)) := _) ops b n] =>
      set (go := (fix go (l : list operation) (b0 : buffer) (n0 : nat) {struct l} : res (flow (list operation)) := _)) end.
    assert (X : forall b n, agrees (go ops b n) (go_run brk al ops b) b n
      (fun b' => exists ops1 ops2, flat_map parts ops = ops1 ++ ops2 /\ ops1 <> [] /\ runs brk al ops1 b = Ok b')).
    { clear b n. induction IH as [|o ops Ho _ IH]; intros b n; cbn [go_run].
      - cbn. now split.
      - change (go (o :: ops) b n) with (let* x := op_run_t brk al o b n in
          match x with Thrown b => Ok (Thrown b) | Went o' b n => let* y := go ops b n in
            match y with Thrown b => Ok (Thrown b) | Went rest' b n => Ok (Went (o' :: rest') b n) end end).
        specialize (Ho b n). destruct (op_run_t brk al o b n) as [[o' b1 n1|b1]|]; cbn [bind agrees] in *.
        + destruct Ho as [E1 L1]. rewrite E1. cbn [bind]. specialize (IH b1 n1).
          destruct (go ops b1 n1) as [[r' b2 n2|b2]|]; cbn [bind agrees] in *.
          * destruct IH as [-> L2]. split; [reflexivity|lia].
          * destruct IH as [L2 (ops1 & ops2 & P & Ne & R)]. split; [lia|]. exists (parts o ++ ops1), ops2.
            cbn [flat_map]. rewrite P, app_assoc. split; [reflexivity|]. split; [intros Z; apply app_eq_nil in Z; tauto|].
            rewrite runs_app, <- flat_run, E1. exact R.
          * now rewrite IH.
        + destruct Ho as [L1 (ops1 & ops2 & P & Ne & R)]. split; [lia|]. exists ops1, (ops2 ++ flat_map parts ops).
          cbn [flat_map]. rewrite P, <- app_assoc. now repeat split.
        + now rewrite Ho. }
    specialize (X b n). destruct (go ops b n) as [[r' b2 n2|b2]|]; cbn [bind agrees] in *.
    + destruct X as [-> L]. now split.
    + exact X.
    + now rewrite X.
Qed.

Lemma reverse_t op : forall b n,
  agrees (op_reverse_t brk al op b n) (let* b' := op_reverse brk al op b in Ok (tt, b')) b n (part_rev op b).
Proof.
  induction op as [d p|c r|s t|ops IH] using operation_induction; intros b n.
  - cbn [op_reverse_t op_reverse]. destruct (insert_end brk d p) as [e|] eqn:Ee; [|now split].
    destruct (gb_delete brk (b_data b) (range_new p e)) as [g|] eqn:E; [|reflexivity]. cbn [bind].
    pose proof (tell_spec tt (set_data b g) p n) as X.
    destruct (tell _ _ p n) as [a' b' n'|b']; cbn [agrees]; destruct X as (-> & -> & X); [now split|].
    change (logs (set_data b g)) with (logs b) in X. split; [lia|]. apply part_rall; [reflexivity|]. cbn [op_reverse]. rewrite Ee, E. reflexivity.
  - cbn [op_reverse_t op_reverse]. destruct c as [m|]; [|now split].
    destruct (gb_insert brk al (b_data b) m (r_start r)) as [g|] eqn:E; [|reflexivity]. cbn [bind].
    pose proof (tell_spec tt (set_data b g) (r_start r) n) as X.
    destruct (tell _ _ _ n) as [a' b' n'|b']; cbn [agrees]; destruct X as (-> & -> & X); [now split|].
    change (logs (set_data b g)) with (logs b) in X. split; [lia|]. apply part_rall; [reflexivity|]. cbn [op_reverse]. rewrite E. reflexivity.
  - cbn [op_reverse_t op_reverse]. apply (replace_t s tt). intros b' E. apply part_rall; [reflexivity|]. exact E.
  - change (op_reverse brk al (OpGroup ops) b) with (go_rev brk al ops b). cbn [op_reverse_t].
    match goal with |- context [(fix go (l : list operation) (b0 : buffer) (n0 : nat) {struct l} : res (flow unit) := _) ops b n] =>
      set (go := (fix go (l : list operation) (b0 : buffer) (n0 : nat) {struct l} : res (flow unit) := _)) end.
    change (part_rev (OpGroup ops) b) with (fun b' => exists ops1 ops2, flat_map parts ops = ops1 ++ ops2 /\ ops2 <> [] /\ revs brk al ops2 b = Ok b').
    revert b n. induction IH as [|o ops Ho _ IH]; intros b n; cbn [go_rev].
    + now split.
    + change (go (o :: ops) b n) with (let* x := go ops b n in match x with Thrown b => Ok (Thrown b) | Went _ b n => op_reverse_t brk al o b n end).
      specialize (IH b n). destruct (go ops b n) as [[u b1 n1|b1]|]; cbn [bind agrees] in *.
      * destruct IH as [E1 L1]. destruct (go_rev brk al ops b) as [b1'|] eqn:Eg; [|discriminate]. injection E1 as _ ->. cbn [bind].
        specialize (Ho b1 n1). destruct (op_reverse_t brk al o b1 n1) as [[u2 b2 n2|b2]|]; cbn [agrees] in *.
        -- destruct Ho as [E2 L2]. rewrite E2. split; [reflexivity|lia].
        -- destruct Ho as [L2 (ops1 & ops2 & P & Ne & R)]. split; [lia|]. exists ops1, (ops2 ++ flat_map parts ops).
           cbn [flat_map]. rewrite P, app_assoc. split; [reflexivity|]. split; [intros Z; apply app_eq_nil in Z; tauto|].
           rewrite revs_app. change (flat_map parts ops) with (parts (OpGroup ops)). rewrite <- flat_rev.
           change (op_reverse brk al (OpGroup ops) b) with (go_rev brk al ops b). rewrite Eg. exact R.
        -- exact Ho.
      * destruct IH as [L1 (ops1 & ops2 & P & Ne & R)]. split; [lia|]. exists (parts o ++ ops1), ops2.
        cbn [flat_map]. rewrite P, <- app_assoc. now repeat split.
      * destruct (go_rev brk al ops b); [discriminate|reflexivity].
Qed.
End Flat.

(** ** What operations leave alone *)
Section Kept.
Context (brk : brk_rule) (al : allocator).
Lemma records_refl b : same_records b b.
Proof. repeat split. Qed.
Lemma records_trans a b c : same_records a b -> same_records b c -> same_records a c.
Proof. intros (A1 & A2 & A3 & A4 & A5 & A6) (B1 & B2 & B3 & B4 & B5 & B6). repeat split; congruence. Qed.
Lemma records_sym a b : same_records a b -> same_records b a.
Proof. intros (A1 & A2 & A3 & A4 & A5 & A6). repeat split; congruence. Qed.
Lemma replace_records s b b' : replace_content brk al s b = Ok b' -> same_records b b'.
Proof.
  unfold replace_content. intros H. open_bind H g; [|discriminate]. open_bind H kc; [|discriminate]. destruct kc as [k c1].
  open_bind H c2; [|discriminate]. injection H as <-. repeat split.
Qed.
Lemma run_records op : forall b op' b', op_run brk al op b = Ok (op', b') -> same_records b b'.
Proof.
  induction op as [d p|c r|s t|ops IH] using operation_induction; intros b op' b' H; cbn [op_run] in H.
  - open_bind H g; [|discriminate]. injection H as _ <-. repeat split.
  - open_bind H m; [|discriminate]. open_bind H g; [|discriminate]. injection H as _ <-. repeat split.
  - open_bind H v; [|discriminate]. injection H as _ <-. now apply replace_records in E.
  - change (op_run brk al (OpGroup ops) b = Ok (op', b')) in H. rewrite run_group in H. open_bind H x; [|discriminate]. destruct x as [ops' b1]. injection H as _ <-. revert b ops' b1 E.
    induction IH as [|o ops Ho _ IH]; intros b ops' b1 E; cbn [go_run] in E.
    + injection E as _ <-. apply records_refl.
    + open_bind E x; [|discriminate]. destruct x as [o' b2]. open_bind E y; [|discriminate]. destruct y as [r' b3]. injection E as _ <-.
      apply Ho in E0. apply IH in E1. eapply records_trans; eassumption.
Qed.
Lemma runs_records ops b b' : runs brk al ops b = Ok b' -> same_records b b'.
Proof.
  rewrite <- group_runs. intros H. open_bind H x; [|discriminate]. destruct x as [o y]. injection H as <-. now apply run_records in E.
Qed.
Lemma reverse_records op : forall b b', op_reverse brk al op b = Ok b' -> same_records b b'.
Proof.
  induction op as [d p|c r|s t|ops IH] using operation_induction; intros b b' H; cbn [op_reverse] in H.
  - destruct (insert_end brk d p); [|injection H as <-; apply records_refl]. open_bind H g; [|discriminate]. injection H as <-. repeat split.
  - destruct c; [|injection H as <-; apply records_refl]. open_bind H g; [|discriminate]. injection H as <-. repeat split.
  - now apply replace_records in H.
  - change (go_rev brk al ops b = Ok b') in H. revert b b' H.
    induction IH as [|o ops Ho _ IH]; intros b b' E; cbn [go_rev] in E.
    + injection E as <-. apply records_refl.
    + open_bind E x; [|discriminate]. apply IH in E0. apply Ho in E. eapply records_trans; eassumption.
Qed.
Lemma revs_records ops b b' : revs brk al ops b = Ok b' -> same_records b b'.
Proof. rewrite <- group_revs. apply reverse_records. Qed.

Lemma forgetting_store b b' op : same_records b b' -> forgetting b (store b' op) = b'.
Proof.
  intros (H1 & H2 & _). unfold forgetting, store. destruct b'; cbn in *. subst.
  destruct (b_group b); reflexivity.
Qed.
Lemma forgetting_marked b b' op h : same_records b b' -> forgetting b (set_history (store b' op) h) = b'.
Proof.
  intros (H1 & H2 & _). unfold forgetting, store. destruct b'; cbn in *. subst.
  destruct (b_group b); reflexivity.
Qed.

(** ** Calls *)
Definition edit_agrees (x : res (option unit * buffer)) (y : res buffer) (b : buffer) (n : nat) : Prop :=
  match x with
  | Panic => y = Panic
  | Ok (Some _, b') => y = Ok b' /\ logs b' <= logs b + n
  | Ok (None, b') => logs b' = logs b + n + 1 /\ same_records b b' /\ exists op, y = Ok (store b' op)
  end.

Lemma store_logs b op : logs (store b op) = logs b.
Proof. unfold logs. now rewrite store_log. Qed.
Lemma whole_run op b b' : parts op = [op] -> part_run brk al op b b' -> exists op', op_run brk al op b = Ok (op', b').
Proof.
  intros P (ops1 & ops2 & E & Ne & R). rewrite P in E. destruct ops1 as [|o ops1]; [congruence|]. injection E as <- E.
  symmetry in E. apply app_eq_nil in E as [-> ->]. cbn in R. destruct (op_run brk al op b) as [[op' b1]|]; [|discriminate].
  cbn in R. injection R as ->. eauto.
Qed.
Lemma stored_t op b n : parts op = [op] ->
  edit_agrees (stored (op_run_t brk al op b n)) (let* (op', b') := op_run brk al op b in Ok (store b' op')) b n.
Proof.
  intros P. pose proof (run_t brk al op b n) as X. unfold stored. destruct (op_run_t brk al op b n) as [[op' b' n'|b']|]; cbn [bind agrees edit_agrees] in *.
  - destruct X as [-> L]. cbn [bind]. split; [reflexivity|]. rewrite store_logs. lia.
  - destruct X as [L R]. apply whole_run in R as (op' & R); [|assumption]. rewrite R. cbn [bind].
    split; [assumption|]. split; [now apply run_records in R|]. now exists op'.
  - now rewrite X.
Qed.
Lemma delete_range_t b n r : edit_agrees (buf_delete_range_t brk al n b r) (buf_delete_range brk al b r) b n.
Proof. now apply (stored_t (OpDelete None r)). Qed.
Lemma replace_call_t b n s : edit_agrees (buf_replace_t brk al n b s) (buf_replace brk al b s) b n.
Proof.
  unfold buf_replace_t, buf_replace. destruct (buf_data b) as [t|]; [|reflexivity]. cbn [bind].
  destruct (list_N_eqb s t); [cbn; split; [reflexivity|lia]|]. now apply (stored_t (OpReplace t s)).
Qed.
Lemma delete_t b n : edit_agrees (buf_delete_t brk al n b) (buf_delete brk al b) b n.
Proof.
  unfold buf_delete_t, buf_delete. destruct (in_bounds brk (b_data b) _) as [ok|]; [|reflexivity]. cbn [bind]. apply delete_range_t.
Qed.

(** The buffer from which [undo] and [redo] have taken the operation. *)
Definition popped (b : buffer) : buffer :=
  match b_group b with
  | Some (_ :: _) => set_group b None
  | _ => set_history (set_group b None) (snd (hist_previous (b_history b)))
  end.
Definition advanced (b : buffer) : buffer := set_history b (snd (hist_next (b_history b))).

(** What a call that the callback's panic has ended leaves. *)
Definition left_by (c : bcall) (b : buffer) (f : fsys) (b' : buffer) : Prop :=
  match c with
  | BUndo => exists op b0 ops1 ops2, to_undo b = Some op /\ b0 = popped b /\ parts op = ops1 ++ ops2 /\ ops2 <> [] /\ revs brk al ops2 b0 = Ok b' /\
      buf_undo brk al b = revs brk al (ops1 ++ ops2) b0
  | BRedo => exists op b0 ops1 ops2, to_redo b = Some op /\ b0 = advanced b /\ parts op = ops1 ++ ops2 /\ ops1 <> [] /\ runs brk al ops1 b0 = Ok b' /\
      buf_redo brk al b = runs brk al (ops1 ++ ops2) b0
  | _ => editing c = true /\ exists o b1, bexec brk al c b f = Ok (o, b1, f) /\ b' = forgetting b b1
  end.

Lemma unit_call x y b n f : edit_agrees x y b n ->
  match unit_t x f with
  | Panic => (let* b' := y in Ok (BUnit, b', f)) = Panic
  | Ok (Some o, b', f') => (let* b' := y in Ok (BUnit, b', f)) = Ok (o, b', f') /\ logs b' <= logs b + n
  | Ok (None, b', f') => f' = f /\ logs b' = logs b + n + 1 /\
      exists o b1, (let* b' := y in Ok (BUnit, b', f)) = Ok (o, b1, f) /\ b' = forgetting b b1
  end.
Proof.
  unfold unit_t, edit_agrees. destruct x as [[[u|] b']|]; cbn [bind].
  - intros [-> L]. now split.
  - intros (L & S & op & ->). split; [reflexivity|]. split; [assumption|]. exists BUnit, (store b' op). split; [reflexivity|].
    symmetry. now apply forgetting_store.
  - intros ->. reflexivity.
Qed.

Lemma call_t n c b f :
  match bexec_t brk al n c b f with
  | Panic => bexec brk al c b f = Panic
  | Ok (Some o, b', f') => bexec brk al c b f = Ok (o, b', f') /\ logs b' <= logs b + n
  | Ok (None, b', f') => f' = f /\ logs b' = logs b + n + 1 /\ left_by c b f b'
  end.
Proof.
  assert (E : forall x y, edit_agrees x y b n -> editing c = true -> bexec brk al c b f = (let* b' := y in Ok (BUnit, b', f)) ->
    (c <> BUndo /\ c <> BRedo) ->
    match unit_t x f with
    | Panic => bexec brk al c b f = Panic
    | Ok (Some o, b', f') => bexec brk al c b f = Ok (o, b', f') /\ logs b' <= logs b + n
    | Ok (None, b', f') => f' = f /\ logs b' = logs b + n + 1 /\ left_by c b f b'
    end).
  { intros x y A Ec Eb [N1 N2]. pose proof (unit_call x y b n f A) as X. rewrite <- Eb in X.
    destruct (unit_t x f) as [[[[o|] b'] f']|]; [assumption| |assumption]. destruct X as (-> & L & X).
    split; [reflexivity|]. split; [assumption|]. destruct c; try congruence; now split. }
  assert (O : forall r : res (bout * buffer * fsys), (forall o b' f', r = Ok (o, b', f') -> logs b' <= logs b + n) ->
    match (let* (o, b', f') := r in Ok (Some o, b', f')) with
    | Panic => r = Panic
    | Ok (Some o, b', f') => r = Ok (o, b', f') /\ logs b' <= logs b + n
    | Ok (None, b', f') => f' = f /\ logs b' = logs b + n + 1 /\ left_by c b f b'
    end).
  { intros r H. destruct r as [[[o b'] f']|]; cbn [bind]; [|reflexivity]. split; [reflexivity|]. now apply (H o b' f'). }
  destruct c as [d| |p q|s| | | | |m|p|w| |p|i|s|on|g]; cbn [bexec_t bexec] in *.
  - apply (E _ _ (stored_t (OpInsert d (c_pos (b_cursor b))) b n eq_refl) eq_refl eq_refl). now split.
  - apply (E _ _ (delete_t b n) eq_refl eq_refl). now split.
  - apply (E _ _ (delete_range_t b n _) eq_refl eq_refl). now split.
  - apply (E _ _ (replace_call_t b n _) eq_refl eq_refl). now split.
  - unfold buf_undo_t, buf_undo, unit_t, hist_previous.
    assert (U : forall op b1, b1 = popped b -> logs b1 = logs b ->
      buf_undo brk al b = op_reverse brk al op b1 -> to_undo b = Some op ->
      match (let* (r, b0) := (let* x := op_reverse_t brk al op b1 n in match x with Thrown b => Ok (None, b) | Went _ b _ => Ok (Some tt, b) end) in
             Ok (match r with Some _ => Some BUnit | None => None end, b0, f)) with
      | Panic => (let* b' := op_reverse brk al op b1 in Ok (BUnit, b', f)) = Panic
      | Ok (Some o, b', f') => (let* b' := op_reverse brk al op b1 in Ok (BUnit, b', f)) = Ok (o, b', f') /\ logs b' <= logs b + n
      | Ok (None, b', f') => f' = f /\ logs b' = logs b + n + 1 /\ left_by BUndo b f b'
      end).
    { intros op b1 H1 L0 H4 H5. pose proof (reverse_t brk al op b1 n) as X.
      destruct (op_reverse_t brk al op b1 n) as [[u b' n'|b']|]; cbn [bind agrees] in *.
      - destruct X as [X L]. destruct (op_reverse brk al op b1) as [b2|]; [|discriminate]. injection X as X ->. cbn [bind]. split; [reflexivity|]. lia.
      - destruct X as [L (ops1 & ops2 & P & Ne & R)]. split; [reflexivity|]. split; [lia|].
        exists op, b1, ops1, ops2. rewrite H4, <- P. repeat split; try assumption. apply flat_rev.
      - destruct (op_reverse brk al op b1); [discriminate|reflexivity]. }
    unfold buf_undo, popped, to_undo, hist_previous in U. cbn [b_history set_group] in *.
    destruct (b_group b) as [[|o ops]|] eqn:Eg; [| |].
    + destruct (h_previous (b_history b)) as [|op hp]; [cbn; split; [reflexivity|unfold logs; cbn; lia]|]. now apply U.
    + now apply U.
    + destruct (h_previous (b_history b)) as [|op hp]; [cbn; split; [reflexivity|unfold logs; cbn; lia]|]. now apply U.
  - unfold buf_redo_t, buf_redo, unit_t, hist_next.
    assert (U : forall op b1, b1 = advanced b -> logs b1 = logs b ->
      buf_redo brk al b = (let* (_, b2) := op_run brk al op b1 in Ok b2) -> to_redo b = Some op ->
      match (let* (r, b0) := (let* x := op_run_t brk al op b1 n in match x with Thrown b => Ok (None, b) | Went _ b _ => Ok (Some tt, b) end) in
             Ok (match r with Some _ => Some BUnit | None => None end, b0, f)) with
      | Panic => (let* b' := (let* (_, b2) := op_run brk al op b1 in Ok b2) in Ok (BUnit, b', f)) = Panic
      | Ok (Some o, b', f') => (let* b' := (let* (_, b2) := op_run brk al op b1 in Ok b2) in Ok (BUnit, b', f)) = Ok (o, b', f') /\ logs b' <= logs b + n
      | Ok (None, b', f') => f' = f /\ logs b' = logs b + n + 1 /\ left_by BRedo b f b'
      end).
    { intros op b1 H1 L0 H4 H5. pose proof (run_t brk al op b1 n) as X.
      destruct (op_run_t brk al op b1 n) as [[u b' n'|b']|]; cbn [bind agrees] in *.
      - destruct X as [-> L]. cbn [bind]. split; [reflexivity|]. lia.
      - destruct X as [L (ops1 & ops2 & P & Ne & R)]. split; [reflexivity|]. split; [lia|].
        exists op, b1, ops1, ops2. rewrite H4, <- P. repeat split; try assumption. apply flat_run.
      - now rewrite X. }
    unfold buf_redo, advanced, to_redo, hist_next in U.
    destruct (h_next (b_history b)) as [|op hp]; [cbn; split; [reflexivity|unfold logs; cbn; lia]|]. now apply U.
  - apply O. intros o b' f' [= _ <- _]. unfold start_group. destruct (b_group b); unfold logs; cbn; lia.
  - apply O. intros o b' f' [= _ <- _]. unfold end_group. destruct (b_group b) as [[|x l]|]; unfold logs; cbn; lia.
  - apply O. intros o b' f' H. open_bind H cc; [|discriminate]. injection H as _ <- _. unfold logs; cbn; lia.
  - apply O. intros o b' f' [= _ <- _]. unfold logs; cbn; lia.
  - apply O. intros o b' f' H. open_bind H cc; [|discriminate]. destruct cc as [[r b1] f1]. injection H as _ <- _.
    unfold buf_save in E0. destruct (b_path b) as [p|]; [|injection E0 as _ <- _; lia].
    destruct (outcome f p w); [injection E0 as _ <- _; lia| |];
      (open_bind E0 d; [|discriminate]; injection E0 as _ <- _; unfold logs; cbn; lia).
  - unfold buf_reload_t, buf_reload. destruct (b_path b) as [p|] eqn:Ep; [|cbn; split; [reflexivity|lia]].
    destruct (read_to_string f p) as [t|] eqn:Er; [|cbn; split; [reflexivity|lia]].
    pose proof (replace_call_t b n t) as X. destruct (buf_replace_t brk al n b t) as [[[u|] b']|]; cbn [bind edit_agrees] in *.
    + destruct X as [-> L]. cbn [bind]. split; [reflexivity|exact L].
    + destruct X as (L & S & op & X). split; [reflexivity|]. split; [assumption|]. split; [reflexivity|].
      exists (BResult (ROk tt)). cbn [bexec]. unfold buf_reload. rewrite Ep, Er, X. cbn [bind].
      eexists. split; [reflexivity|]. symmetry. now apply forgetting_marked.
    + now rewrite X.
  - apply O. intros o b' f' [= _ <- _]. unfold logs; cbn; lia.
  - apply O. intros o b' f' [= _ <- _]. unfold logs; cbn; lia.
  - apply O. intros o b' f' [= _ <- _]. unfold logs; cbn; lia.
  - apply O. intros o b' f' [= _ <- _]. unfold logs; cbn; lia.
  - apply O. intros o b' f' [= _ <- _]. unfold logs; cbn; lia.
Qed.
End Kept.

(** ** Everything stays well formed *)
Section Safe.
Context (brk : brk_rule).
Lemma parts_valid op : op_valid op -> Forall op_valid (parts op).
Proof.
  induction op as [d p|c r|s t|ops IH] using operation_induction; intros H; [constructor; [assumption|constructor]..|].
  rewrite op_valid_group in H. cbn [parts]. induction IH as [|o ops Ho _ IH]; [constructor|]. inversion_clear H as [|? ? Ha Hb].
  cbn [flat_map]. apply Forall_app. auto.
Qed.
Lemma wfb_forgetting b b1 : wfb b -> wfb b1 -> wfb (forgetting b b1).
Proof. intros [W1 W2 W3 W4] [V1 _ _ _]. now split. Qed.
Lemma announces_forgetting b b1 : announces b b1 -> announces b (forgetting b b1).
Proof. exact (fun H => H). Qed.
Lemma wfb_popped b op : wfb b -> to_undo b = Some op -> op_valid op /\ wfb (popped b).
Proof.
  intros [W1 W2 W3 W4]. unfold to_undo, popped, hist_previous.
  assert (H : hd_error (h_previous (b_history b)) = Some op -> op_valid op /\
    wfb (set_history (set_group b None) (snd match h_previous (b_history b) with
       | [] => (None, b_history b)
       | o :: ps => (Some o, Hist ps (o :: h_next (b_history b)) (h_mark (b_history b)))
       end))).
  { destruct (h_previous (b_history b)) as [|o ps]; [discriminate|]. cbn. intros [= ->]. inversion_clear W2.
    split; [assumption|]. split; cbn; trivial. now constructor. }
  destruct (b_group b) as [[|o ops]|]; [exact H| |exact H]. intros [= <-]. split; [now apply op_valid_group|]. now split.
Qed.
Lemma wfb_advanced b op : wfb b -> to_redo b = Some op -> op_valid op /\ wfb (advanced b).
Proof.
  intros [W1 W2 W3 W4]. unfold to_redo, advanced, hist_next. destruct (h_next (b_history b)) as [|o ps]; [discriminate|].
  cbn. intros [= ->]. inversion_clear W3. split; [assumption|]. split; cbn; trivial. now constructor.
Qed.
Lemma wfb_step b b' : wfb b -> step_ok b b' -> wfb b'.
Proof. intros [_ B2 B3 B4] [S1 (_ & _ & R3 & R4 & _) _]. split; rewrite ?R3, ?R4; assumption. Qed.
Lemma popped_same b : b_data (popped b) = b_data b /\ b_cursor (popped b) = b_cursor b /\ b_log (popped b) = b_log b /\ b_callback (popped b) = b_callback b.
Proof. unfold popped. now destruct (b_group b) as [[|]|]. Qed.

Lemma left_safe al c b f b' : alloc_ok al -> call_ok c -> wfb b -> left_by brk al c b f b' -> wfb b' /\ announces b b'.
Proof.
  intros Hal Hc W L.
  assert (E : (editing c = true /\ exists o b1, bexec brk al c b f = Ok (o, b1, f) /\ b' = forgetting b b1) -> wfb b' /\ announces b b').
  { intros (_ & o & b1 & E & ->). pose proof (bexec_any brk al c b f Hal Hc W) as X. rewrite E in X. destruct X as [X1 X2].
    split; [now apply wfb_forgetting|now apply announces_forgetting]. }
  destruct c; try exact (E L); cbn [left_by] in L; clear E.
  - destruct L as (op & b0 & ops1 & ops2 & Eu & -> & P & _ & R & _). destruct (wfb_popped _ _ W Eu) as [V W0].
    apply parts_valid in V. rewrite P in V. apply Forall_app in V as [_ V]. apply op_valid_group in V.
    rewrite <- group_revs in R. pose proof (op_reverse_step brk al _ Hal V (popped b) (wfb_data _ W0)) as X. rewrite R in X.
    destruct (popped_same b) as (Q1 & _ & Q3 & Q4).
    split; [now apply (wfb_step (popped b))|]. now apply (announces_step b (popped b) b' b').
  - destruct L as (op & b0 & ops1 & ops2 & Eu & -> & P & _ & R & _). destruct (wfb_advanced _ _ W Eu) as [V W0].
    apply parts_valid in V. rewrite P in V. apply Forall_app in V as [V _]. apply op_valid_group in V.
    rewrite <- group_runs in R. pose proof (op_run_step brk al _ Hal V (advanced b) (wfb_data _ W0)) as X.
    destruct (op_run brk al (OpGroup ops1) (advanced b)) as [[o b1]|]; [|discriminate]. injection R as ->. destruct X as [X _].
    split; [now apply (wfb_step (advanced b))|]. now apply (announces_step b (advanced b) b' b').
Qed.

Lemma call_safe al n c b f : alloc_ok al -> call_ok c -> wfb b ->
  match bexec_t brk al n c b f with
  | Ok (_, b', _) => wfb b' /\ announces b b'
  | Panic => ~ order_safe brk
  end.
Proof.
  intros Hal Hc W. pose proof (call_t brk al n c b f) as X. pose proof (bexec_any brk al c b f Hal Hc W) as Y.
  destruct (bexec_t brk al n c b f) as [[[[o|] b'] f']|].
  - destruct X as [X _]. now rewrite X in Y.
  - destruct X as (_ & _ & X). eapply left_safe; eassumption.
  - now rewrite X in Y.
Qed.
Lemma run_safe cs : forall b f, wfb b -> usable cs ->
  match brun_t brk cs b f with
  | Ok (_, b', _) => wfb b'
  | Panic => ~ order_safe brk
  end.
Proof.
  induction cs as [|[[al n] c] cs IH]; intros b f W H; cbn [brun_t]; [assumption|].
  inversion_clear H as [|? ? [Ha Hc] H']. cbn [fst snd] in *.
  pose proof (call_safe al n c b f Ha Hc W) as X.
  destruct (bexec_t brk al n c b f) as [[[o b1] f1]|]; cbn [bind]; [|assumption]. destruct X as [W1 _].
  specialize (IH b1 f1 W1 H'). destruct (brun_t brk cs b1 f1) as [[[os b2] f2]|]; cbn [bind]; assumption.
Qed.
Lemma usable_wfb b f : usable_buffer brk b f -> wfb b.
Proof.
  intros (b0 & f0 & cs & os & H0 & Hc & E). pose proof (run_safe cs b0 f0 (fresh_wfb _ _ H0) Hc) as X. now rewrite E in X.
Qed.
End Safe.

(** ** The statements *)
Lemma went brk al n c b f o b' f' : bexec_t brk al n c b f = Ok (Some o, b', f') -> bexec brk al c b f = Ok (o, b', f').
Proof. intros H. pose proof (call_t brk al n c b f) as X. rewrite H in X. apply X. Qed.

Lemma left_log brk al c b f b' o b1 f1 : left_by brk al c b f b' -> bexec brk al c b f = Ok (o, b1, f1) -> logs b' <= logs b1.
Proof.
  assert (E : editing c = true /\ (exists o b1, bexec brk al c b f = Ok (o, b1, f) /\ b' = forgetting b b1) ->
    bexec brk al c b f = Ok (o, b1, f1) -> logs b' <= logs b1).
  { intros (_ & o2 & b2 & E & ->) F. rewrite E in F. injection F as -> -> ->. apply le_n. }
  destruct c; try exact E; clear E; cbn [left_by bexec].
  - intros (op & b0 & ops1 & ops2 & _ & _ & _ & _ & R & ->). rewrite revs_app, R. cbn [bind]. intros F.
    open_bind F b2; [|discriminate]. injection F as _ <- _. now apply revs_logs in E.
  - intros (op & b0 & ops1 & ops2 & _ & _ & _ & _ & R & ->). rewrite runs_app, R. cbn [bind]. intros F.
    open_bind F b2; [|discriminate]. injection F as _ <- _. now apply runs_logs in E.
Qed.
Lemma when_thrown brk al n c b f o b1 f1 : bexec brk al c b f = Ok (o, b1, f1) ->
  if length (b_log b1) <=? length (b_log b) + n
  then bexec_t brk al n c b f = Ok (Some o, b1, f1)
  else exists b', bexec_t brk al n c b f = Ok (None, b', f) /\ length (b_log b') = length (b_log b) + n + 1.
Proof.
  intros H. pose proof (call_t brk al n c b f) as X. pose proof (left_log brk al c b f) as Y.
  destruct (bexec_t brk al n c b f) as [[[[o2|] b'] f']|].
  - destruct X as [X L]. rewrite H in X. injection X as -> -> ->. destruct (Nat.leb_spec (length (b_log b')) (length (b_log b) + n)); [reflexivity|]. unfold logs in L. lia.
  - destruct X as (-> & L & X). specialize (Y _ _ _ _ X H). unfold logs in *.
    destruct (Nat.leb_spec (length (b_log b1)) (length (b_log b) + n)); [lia|]. now exists b'.
  - rewrite H in X. discriminate.
Qed.

Lemma edit_thrown brk al n c b f b' f' : editing c = true -> bexec_t brk al n c b f = Ok (None, b', f') ->
  f' = f /\ exists o b1, bexec brk al c b f = Ok (o, b1, f) /\ b' = forgetting b b1.
Proof.
  intros Ec H. pose proof (call_t brk al n c b f) as X. rewrite H in X. destruct X as (-> & _ & X). split; [reflexivity|].
  destruct c; try discriminate Ec; apply X.
Qed.
Lemma only_edits brk al n c b f b' f' : bexec_t brk al n c b f = Ok (None, b', f') -> editing c = true \/ history_call c = true.
Proof.
  intros H. pose proof (call_t brk al n c b f) as X. rewrite H in X. destruct X as (_ & _ & X).
  destruct c; try (left; reflexivity); try (right; reflexivity); destruct X; discriminate.
Qed.

Lemma undo_thrown brk al n b f b' f' : bexec_t brk al n BUndo b f = Ok (None, b', f') ->
  f' = f /\ exists op b0 ops1 ops2,
    to_undo b = Some op /\ parts op = ops1 ++ ops2 /\ ops2 <> [] /\
    b_data b0 = b_data b /\ b_cursor b0 = b_cursor b /\ b_log b0 = b_log b /\
    op_reverse brk al (OpGroup ops2) b0 = Ok b' /\
    op_reverse brk al (OpGroup (ops1 ++ ops2)) b0 = buf_undo brk al b.
Proof.
  intros H. pose proof (call_t brk al n BUndo b f) as X. rewrite H in X. destruct X as (-> & _ & X). split; [reflexivity|].
  destruct X as (op & b0 & ops1 & ops2 & Eu & -> & P & Ne & R & A). destruct (popped_same b) as (Q1 & Q2 & Q3 & Q4).
  exists op, (popped b), ops1, ops2. rewrite !group_revs. repeat split; try assumption. now symmetry.
Qed.
Lemma redo_thrown brk al n b f b' f' : bexec_t brk al n BRedo b f = Ok (None, b', f') ->
  f' = f /\ exists op b0 ops1 ops2,
    to_redo b = Some op /\ parts op = ops1 ++ ops2 /\ ops1 <> [] /\
    b_data b0 = b_data b /\ b_cursor b0 = b_cursor b /\ b_log b0 = b_log b /\
    (let* (_, b2) := op_run brk al (OpGroup ops1) b0 in Ok b2) = Ok b' /\
    (let* (_, b2) := op_run brk al (OpGroup (ops1 ++ ops2)) b0 in Ok b2) = buf_redo brk al b.
Proof.
  intros H. pose proof (call_t brk al n BRedo b f) as X. rewrite H in X. destruct X as (-> & _ & X). split; [reflexivity|].
  destruct X as (op & b0 & ops1 & ops2 & Eu & -> & P & Ne & R & A).
  exists op, (advanced b), ops1, ops2. rewrite !group_runs. repeat split; try assumption. now symmetry.
Qed.
Lemma history_records brk al n c b f b' f' o b1 f1 : history_call c = true ->
  bexec_t brk al n c b f = Ok (None, b', f') -> bexec brk al c b f = Ok (o, b1, f1) -> same_records b1 b'.
Proof.
  intros Hc H F. pose proof (call_t brk al n c b f) as X. rewrite H in X. destruct X as (_ & _ & X).
  destruct c; try discriminate Hc; cbn [bexec left_by] in *; destruct X as (op & b0 & ops1 & ops2 & _ & _ & _ & _ & R & A);
    rewrite A in F; open_bind F b2; try discriminate; injection F as _ <- _.
  - apply revs_records in R, E. eapply records_trans; [apply records_sym; exact E|exact R].
  - apply runs_records in R, E. eapply records_trans; [apply records_sym; exact E|exact R].
Qed.
Lemma single_undo brk al n b f b' f' op : bexec_t brk al n BUndo b f = Ok (None, b', f') -> to_undo b = Some op ->
  length (parts op) = 1 -> buf_undo brk al b = Ok b'.
Proof.
  intros H E L. apply undo_thrown in H as (_ & op2 & b0 & ops1 & ops2 & E2 & P & Ne & _ & _ & _ & R & A). rewrite E in E2.
  injection E2 as <-. rewrite P, app_length in L. destruct ops2 as [|o ops2]; [congruence|]. cbn in L.
  destruct ops1 as [|x ops1]; [|cbn in L; lia]. cbn [app] in A. congruence.
Qed.
Lemma single_redo brk al n b f b' f' op : bexec_t brk al n BRedo b f = Ok (None, b', f') -> to_redo b = Some op ->
  length (parts op) = 1 -> buf_redo brk al b = Ok b'.
Proof.
  intros H E L. apply redo_thrown in H as (_ & op2 & b0 & ops1 & ops2 & E2 & P & Ne & _ & _ & _ & R & A). rewrite E in E2.
  injection E2 as <-. rewrite P, app_length in L. destruct ops1 as [|o ops1]; [congruence|]. cbn in L.
  destruct ops2 as [|x ops2]; [|cbn in L; lia]. rewrite app_nil_r in A. congruence.
Qed.

Lemma session_went brk cs : forall b f os b' f', brun_t brk cs b f = Ok (map Some os, b', f') ->
  brun brk (map (fun x => (fst (fst x), snd x)) cs) b f = Ok (os, b', f').
Proof.
  induction cs as [|[[al n] c] cs IH]; intros b f os b' f'; cbn [brun_t brun map fst snd].
  - destruct os; [|discriminate]. now intros [= <- <-].
  - destruct (bexec_t brk al n c b f) as [[[o b1] f1]|] eqn:E; [|discriminate]. cbn [bind].
    destruct (brun_t brk cs b1 f1) as [[[os1 b2] f2]|] eqn:Er; [|discriminate]. cbn [bind]. destruct os as [|o0 os]; [discriminate|].
    cbn [map]. intros [= -> -> <- <-]. rewrite (went _ _ _ _ _ _ _ _ _ E). cbn [bind]. now rewrite (IH _ _ _ _ _ Er).
Qed.
Lemma no_panic cls f b cs : cls LF = GC_LF -> fresh_buffer f b -> usable cs ->
  exists os b' f' t, brun_t (uax29 cls) cs b f = Ok (os, b', f') /\ buf_data b' = Ok t /\ valid_text t.
Proof.
  intros Hc Hf Hu. pose proof (run_safe (uax29 cls) cs b f (fresh_wfb _ _ Hf) Hu) as X.
  destruct (brun_t (uax29 cls) cs b f) as [[[os b'] f']|].
  - destruct (wfb_data_total b' X) as (t & E & V). now exists os, b', f', t.
  - destruct X. now apply uax29_order_safe.
Qed.
Lemma kept_above brk b f al n c o b' f' t t' : usable_buffer brk b f -> alloc_ok al -> call_ok c ->
  bexec_t brk al n c b f = Ok (o, b', f') -> b_callback b = true -> buf_data b = Ok t -> buf_data b' = Ok t' ->
  exists ps, b_log b' = b_log b ++ ps /\ forall k, Forall (fun p => k <= line p) ps -> same_lines k t t'.
Proof.
  intros U Hal Hc H Hb Et Et'. pose proof (call_safe brk al n c b f Hal Hc (usable_wfb _ _ _ U)) as X. rewrite H in X.
  destruct X as (_ & ps & L & F). rewrite Hb in L. exists ps. split; [assumption|]. intros k Hk. now apply (F k).
Qed.
Lemma reload_again brk b f al n b' f' : usable_buffer brk b f -> alloc_ok al ->
  bexec_t brk al n BReload b f = Ok (Some (BResult (ROk tt)), b', f') ->
  exists p t, b_path b = Some p /\ read_to_string f p = Some t /\ buf_data b' = Ok t /\ buf_modified b' = false.
Proof.
  intros U Hal H. apply usable_wfb in U. apply went in H. cbn [bexec] in H. open_bind H x; [|discriminate]. destruct x as [r b1].
  injection H as -> <- _. unfold buf_reload in E. destruct (b_path b) as [p|]; [|discriminate].
  destruct (read_to_string f p) as [t|] eqn:Er; [|discriminate]. open_bind E b2; [|discriminate]. injection E as <-.
  exists p, t. split; [reflexivity|]. split; [assumption|]. split.
  - change (buf_data b2 = Ok t). unfold buf_replace in E0. destruct (wfb_data_total b U) as (s & Es & _). rewrite Es in E0. cbn [bind] in E0.
    destruct (list_N_eqb t s) eqn:Eq.
    + injection E0 as <-. apply list_N_eqb_eq in Eq. now subst.
    + cbn [op_run] in E0. assert (V : valid_text t).
      { unfold read_to_string in Er. destruct (fs_read f p); [|discriminate]. now apply decode_strict_valid in Er as [? _]. }
      destruct (replace_content_step brk al t b V) as (b3 & E3 & _ & D). rewrite E3 in E0. cbn [bind] in E0. injection E0 as <-.
      unfold buf_data. now rewrite store_data.
  - unfold buf_modified, hist_at_mark, hist_mark. cbn. now rewrite Nat.eqb_refl.
Qed.
