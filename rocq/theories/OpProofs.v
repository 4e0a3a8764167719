(** Operations move between two texts, forwards and backwards. *)
From Verif Require Import Base Utf8 Utf8Proofs Grapheme GraphemeProofs Position GapBuffer
  GapBufferProofs Cursor PathModel Buffer Spec CursorSpec CursorCalls Calls TextProofs HalvesProofs TextFacts GapProps
  CursorProofs.

(** What a reversible operation means, as a relation between texts. *)
Inductive op_ok (brk : brk_rule) : operation -> text -> text -> Prop :=
| ok_ins_none d p t : valid_text d -> plain_newlines brk d -> split_at brk t p = None ->
    op_ok brk (OpInsert d p) t t
| ok_ins d p a b : valid_text d -> plain_newlines brk d -> plain_newlines brk (a ++ b) -> split_at brk (a ++ b) p = Some (a, b) ->
    no_merge brk [a; d; b] -> op_ok brk (OpInsert d p) (a ++ b) (a ++ d ++ b)
| ok_del p q a m b : valid_text m -> plain_newlines brk (a ++ m ++ b) ->
    split_at brk (a ++ m ++ b) (first_of p q) = Some (a, m ++ b) ->
    split_at brk (a ++ m ++ b) (second_of p q) = Some (a ++ m, b) ->
    no_merge brk [a; b] -> op_ok brk (OpDelete (Some m) (range_new p q)) (a ++ m ++ b) (a ++ b)
| ok_del_none p q t : clean_call brk (GDelete p q) t -> spec_delete brk t p q = t ->
    op_ok brk (OpDelete None (range_new p q)) t t
| ok_rep s t : valid_text s -> valid_text t -> plain_newlines brk s -> plain_newlines brk t ->
    op_ok brk (OpReplace s t) s t
| ok_group ops s t : ops_ok brk ops s t -> op_ok brk (OpGroup ops) s t
with ops_ok (brk : brk_rule) : list operation -> text -> text -> Prop :=
| ops_nil t : ops_ok brk [] t t
| ops_cons op ops s t u : op_ok brk op s t -> ops_ok brk ops t u -> ops_ok brk (op :: ops) s u.

Scheme op_ok_mut := Induction for op_ok Sort Prop
  with ops_ok_mut := Induction for ops_ok Sort Prop.

Lemma ops_snoc brk ops op s t u : ops_ok brk ops s t -> op_ok brk op t u -> ops_ok brk (ops ++ [op]) s u.
Proof.
  induction 1 as [|o ops s t v Ho Hs IH]; intros H; cbn [app].
  - econstructor; [exact H|constructor].
  - econstructor; [exact Ho|]. now apply IH.
Qed.

(** The fields an operation does not touch. *)
Definition same_rest (b b' : buffer) : Prop :=
  b_id b' = b_id b /\ b_path b' = b_path b /\ b_history b' = b_history b /\
  b_group b' = b_group b /\ b_syntax b' = b_syntax b /\ b_callback b' = b_callback b.
Lemma same_rest_refl b : same_rest b b.
Proof. now unfold same_rest. Qed.
Lemma same_rest_trans a b c : same_rest a b -> same_rest b c -> same_rest a c.
Proof. unfold same_rest. intuition congruence. Qed.
Lemma same_rest_set b g p : same_rest b (notify (set_data b g) p).
Proof. now unfold same_rest. Qed.

(** The buffer holds a plain text. *)
Definition bholds (brk : brk_rule) (b : buffer) (t : text) : Prop :=
  holds brk (b_data b) t /\ plain_newlines brk t.
Lemma bholds_data brk b t : bholds brk b t -> buf_data b = Ok t.
Proof. intros [H _]. now apply holds_to_string in H. Qed.
Lemma bholds_valid brk b t : bholds brk b t -> valid_text t.
Proof. intros [H _]. now apply holds_valid in H. Qed.

Lemma insert_end_from brk d p : insert_end brk d p = Some (end_from brk p d).
Proof.
  unfold insert_end, end_from. rewrite last_line_last.
  replace (line p + (count_lf d + 1) - 1) with (line p + count_lf d) by lia.
  destruct (Nat.eqb_spec (count_lf d + 1) 1), (Nat.eqb_spec (count_lf d) 0); try lia; reflexivity.
Qed.

Lemma skipn_len_app {A} (a b : list A) : skipn (length a) (a ++ b) = b.
Proof. now rewrite skipn_app, skipn_all, Nat.sub_diag. Qed.

(** [replace_content] *)
Lemma move_to_bool brk g c p : wf g -> exists k c', move_to brk g c p = Ok (k, c').
Proof. intros H. destruct (move_to_wf brk g c p H) as (k & _ & E). eauto. Qed.

Lemma replace_content_ok brk al s b : valid_text s -> plain_newlines brk s ->
  exists b', replace_content brk al s b = Ok b' /\ bholds brk b' s /\ same_rest b b'.
Proof.
  intros V Hp. unfold replace_content. destruct (holds_new brk al s V) as (g & E & H). rewrite E.
  cbn [bind]. pose proof (holds_wf _ _ _ H) as W.
  destruct (move_to_bool brk g (cursor_new (Pos 0 0)) (c_pos (b_cursor b)) W) as (k & c1 & E1).
  rewrite E1. cbn [bind]. destruct k; cbn [bind].
  - eexists. split; [reflexivity|]. split; [split; [exact H|assumption]|now unfold same_rest].
  - destruct (move_to_bool brk g c1 (Pos (line (c_pos (b_cursor b))) 0) W) as (k2 & c2 & E2).
    rewrite E2. cbn [bind].
    eexists. split; [reflexivity|]. split; [split; [exact H|assumption]|now unfold same_rest].
Qed.

(** Reading an in-bounds range. *)
Lemma spec_read_mid brk t p q a m b :
  split_at brk t (first_of p q) = Some (a, m ++ b) -> split_at brk t (second_of p q) = Some (a ++ m, b) ->
  spec_read brk t p q = Some m.
Proof. intros E1 E2. unfold spec_read. rewrite E1, E2. now rewrite skipn_len_app. Qed.
Lemma spec_cut_mid brk t p q a m b :
  split_at brk t (first_of p q) = Some (a, m ++ b) -> split_at brk t (second_of p q) = Some (a ++ m, b) ->
  spec_cut brk t p q = Some (a, b).
Proof. intros E1 E2. unfold spec_cut. now rewrite E1, E2. Qed.

Lemma del_run brk al b p q t : bholds brk b t -> clean_call brk (GDelete p q) t -> forall c,
  exists b', op_run brk al (OpDelete c (range_new p q)) b
             = Ok (OpDelete (spec_read brk t p q) (range_new p q), b')
    /\ bholds brk b' (spec_delete brk t p q) /\ same_rest b b'.
Proof.
  intros [H Hp] Hc c. cbn [op_run]. rewrite (holds_read _ _ _ _ _ H Hp). cbn [bind].
  destruct (holds_delete _ _ _ p q H Hp Hc) as (g' & E & H' & Hp'). rewrite E. cbn [bind].
  eexists. split; [reflexivity|]. split; [split; assumption|apply same_rest_set].
Qed.

Lemma ins_run brk al b p d t : alloc_ok al -> bholds brk b t -> clean_call brk (GInsert d p) t ->
  exists b', op_run brk al (OpInsert d p) b = Ok (OpInsert d p, b')
    /\ bholds brk b' (spec_insert brk t d p) /\ same_rest b b'.
Proof.
  intros Hal [H Hp] Hc. cbn [op_run].
  destruct (holds_insert brk al _ _ _ _ Hal H Hp Hc) as (g' & E & H' & Hp'). rewrite E. cbn [bind].
  eexists. split; [reflexivity|]. split; [split; assumption|apply same_rest_set].
Qed.

Definition runs_to (brk : brk_rule) (op : operation) (s t : text) : Prop :=
  forall al b, alloc_ok al -> bholds brk b s ->
  exists op' b', op_run brk al op b = Ok (op', b') /\ bholds brk b' t /\ same_rest b b'.
Definition reverses_to (brk : brk_rule) (op : operation) (t s : text) : Prop :=
  forall al b, alloc_ok al -> bholds brk b t ->
  exists b', op_reverse brk al op b = Ok b' /\ bholds brk b' s /\ same_rest b b'.

Definition go_run (brk : brk_rule) (al : allocator) : list operation -> buffer -> res (list operation * buffer) :=
  fix go (ops : list operation) (b : buffer) :=
    match ops with
    | [] => Ok ([], b)
    | o :: rest =>
      let* (o', b1) := op_run brk al o b in
      let* (rest', b2) := go rest b1 in
      Ok (o' :: rest', b2)
    end.
Definition go_rev (brk : brk_rule) (al : allocator) : list operation -> buffer -> res buffer :=
  fix go (ops : list operation) (b : buffer) :=
    match ops with
    | [] => Ok b
    | o :: rest => let* b1 := go rest b in op_reverse brk al o b1
    end.

Lemma op_ok_run brk op s t : op_ok brk op s t -> runs_to brk op s t.
Proof.
  intros H.
  apply (op_ok_mut brk (fun op s t _ => runs_to brk op s t)
    (fun ops s t _ => forall al b, alloc_ok al -> bholds brk b s ->
       exists ops' b', go_run brk al ops b = Ok (ops', b') /\ bholds brk b' t /\ same_rest b b'));
    try exact H; clear.
  - intros d p t V Hpd E al b Hal Hb.
    assert (Hc : clean_call brk (GInsert d p) t) by (cbn [clean_call]; now rewrite E).
    destruct (ins_run brk al b p d t Hal Hb Hc) as (b' & E1 & H1 & H2).
    unfold spec_insert in H1. rewrite E in H1. eauto.
  - intros d p a b0 V Hpd Hp0 E Hm al b Hal Hb.
    assert (Hc : clean_call brk (GInsert d p) (a ++ b0)) by (cbn [clean_call]; now rewrite E).
    destruct (ins_run brk al b p d _ Hal Hb Hc) as (b' & E1 & H1 & H2).
    unfold spec_insert in H1. rewrite E in H1. eauto.
  - intros p q a m b0 V Hp0 E1 E2 Hm al b Hal Hb. pose proof (spec_cut_mid _ _ _ _ _ _ _ E1 E2) as Ec.
    assert (Hc : clean_call brk (GDelete p q) (a ++ m ++ b0)) by (cbn [clean_call]; now rewrite Ec).
    destruct (del_run brk al b p q _ Hb Hc (Some m)) as (b' & X & H1 & H2).
    unfold spec_delete in H1. rewrite Ec in H1. eauto.
  - intros p q t Hc E al b Hal Hb.
    destruct (del_run brk al b p q _ Hb Hc None) as (b' & X & H1 & H2). rewrite E in H1. eauto.
  - intros s t Vs Vt Hs Ht al b Hal Hb. cbn [op_run].
    destruct (replace_content_ok brk al t b Vt Ht) as (b' & E & H1 & H2). rewrite E. cbn [bind]. eauto.
  - intros ops s t _ IH al b Hal Hb. destruct (IH al b Hal Hb) as (ops' & b' & E & H1 & H2).
    exists (OpGroup ops'), b'. split; [|now split].
    change (op_run brk al (OpGroup ops) b) with (let* (ops', b') := go_run brk al ops b in Ok (OpGroup ops', b')).
    now rewrite E.
  - intros t al b Hal Hb. exists [], b. split; [reflexivity|]. split; [assumption|apply same_rest_refl].
  - intros op ops s t u _ IH1 _ IH2 al b Hal Hb.
    destruct (IH1 al b Hal Hb) as (op' & b1 & E1 & H1 & R1).
    destruct (IH2 al b1 Hal H1) as (ops' & b2 & E2 & H2 & R2).
    exists (op' :: ops'), b2. cbn [go_run]. rewrite E1. cbn [bind]. rewrite E2. cbn [bind].
    split; [reflexivity|]. split; [assumption|]. eapply same_rest_trans; eassumption.
Qed.

Lemma op_ok_reverse brk op s t : op_ok brk op s t -> reverses_to brk op t s.
Proof.
  intros H.
  apply (op_ok_mut brk (fun op s t _ => reverses_to brk op t s)
    (fun ops s t _ => forall al b, alloc_ok al -> bholds brk b t ->
       exists b', go_rev brk al ops b = Ok b' /\ bholds brk b' s /\ same_rest b b'));
    try exact H; clear.
  - intros d p t V Hpd E al b Hal [Hb Hp]. cbn [op_reverse]. rewrite insert_end_from.
    assert (F : first_of p (end_from brk p d) = p) by (apply first_of_le, end_from_ple; assumption).
    assert (Ec : spec_cut brk t p (end_from brk p d) = None) by (unfold spec_cut; now rewrite F, E).
    destruct (holds_delete brk (b_data b) t p (end_from brk p d) Hb Hp) as (g' & X & H1 & H2).
    { cbn [clean_call]. now rewrite Ec. }
    rewrite X. cbn [bind]. unfold spec_delete in H1, H2. rewrite Ec in H1, H2.
    eexists. split; [reflexivity|]. split; [now split|apply same_rest_set].
  - intros d p a b0 V Hpd Hp0 E Hm al b Hal [Hb Hp]. cbn [op_reverse]. rewrite insert_end_from.
    destruct (split_at_inv _ _ _ _ _ Hp0 E) as (S & _ & Pa & Pb & _).
    destruct (split_at_inserted _ _ _ _ _ _ Hp0 Hpd E Hm) as [E1 E2].
    destruct (first_of_le p (end_from brk p d)) as [F1 F2]; [now apply end_from_ple|].
    assert (Ec : spec_cut brk (a ++ d ++ b0) p (end_from brk p d) = Some (a, b0)).
    { eapply spec_cut_mid; rewrite ?F1, ?F2; eassumption. }
    destruct (holds_delete brk (b_data b) _ p (end_from brk p d) Hb Hp) as (g' & X & H1 & H2).
    { cbn [clean_call]. rewrite Ec. now apply no_merge2. }
    rewrite X. cbn [bind]. unfold spec_delete in H1, H2. rewrite Ec in H1, H2.
    eexists. split; [reflexivity|]. split; [now split|apply same_rest_set].
  - intros p q a m b0 V Hp0 E1 E2 Hm al b Hal [Hb Hp]. rewrite range_new_ordered. cbn [op_reverse r_start].
    destruct (split_at_inv _ _ _ _ _ Hp0 E1) as (S1 & Ep & Pa & Pmb & _).
    destruct (split_at_inv _ _ _ _ _ Hp0 E2) as (S2 & _ & _ & Pb & _).
    apply no_merge2 in Hm.
    assert (E : split_at brk (a ++ b0) (first_of p q) = Some (a, b0)).
    { rewrite Ep. apply split_at_end; [assumption|]. apply plain_newlines_app; [assumption|now split]. }
    destruct (split_at_mono _ _ _ _ _ _ _ _ Hp0 E1 E2 (first_second_ple p q)) as (m' & Em1 & Em2 & S3 & S4).
    apply app_inv_head in Em1. subst m'.
    assert (Pm : plain_newlines brk m) by (apply (plain_newlines_app _ _ _ S3) in Pmb; tauto).
    assert (Hn : no_merge brk [a; m; b0]).
    { unfold no_merge. cbn [concat map]. rewrite !app_nil_r. unfold seam in *. rewrite S1, S3. reflexivity. }
    destruct (holds_insert brk al (b_data b) _ m (first_of p q) Hal Hb Hp) as (g' & X & H1 & H2).
    { cbn [clean_call]. rewrite E. now split. }
    rewrite X. cbn [bind]. unfold spec_insert in H1, H2. rewrite E in H1, H2.
    eexists. split; [reflexivity|]. split; [now split|apply same_rest_set].
  - intros p q t Hc E al b Hal Hb. cbn [op_reverse]. exists b. split; [reflexivity|].
    split; [assumption|apply same_rest_refl].
  - intros s t Vs Vt Hs Ht al b Hal Hb. cbn [op_reverse]. now apply replace_content_ok.
  - intros ops s t _ IH al b Hal Hb. exact (IH al b Hal Hb).
  - intros t al b Hal Hb. exists b. split; [reflexivity|]. split; [assumption|apply same_rest_refl].
  - intros op ops s t u _ IH1 _ IH2 al b Hal Hb.
    destruct (IH2 al b Hal Hb) as (b1 & E1 & H1 & R1). destruct (IH1 al b1 Hal H1) as (b2 & E2 & H2 & R2).
    exists b2. cbn [go_rev]. rewrite E1. cbn [bind]. split; [assumption|]. split; [assumption|].
    eapply same_rest_trans; eassumption.
Qed.
