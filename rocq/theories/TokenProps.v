(** The token properties, from TokenProofs.v. *)
From Coq Require Import Sorted.
From Verif Require Import Base Utf8 Utf8Proofs Grapheme GraphemeProofs Position GapBuffer LineIterator Buffer Token
  Spec TextProofs TextFacts GapProps BufferCalls Timeline TimelineProofs BufferProps SearchProofs TokenSpec TokenProofs.

Section Props.
Variables pstate scopeop stack : Type.
Variable parse_line : pstate -> text -> option (list (nat * scopeop)) * pstate.
Variable apply : stack -> scopeop -> stack * bool.
Variable new : stack.
Variable brk : brk_rule.
Hypothesis Hbd : on_boundaries pstate scopeop parse_line.
Notation yields := (yields pstate scopeop stack parse_line apply brk).
Notation next := (ti_next pstate scopeop stack parse_line apply brk).
Notation parses := (parse_all pstate scopeop parse_line).
Notation applies := (apply_all scopeop stack apply).
Notation fine := (all_fine pstate scopeop stack parse_line apply).

Definition each_at := each_split scopeop stack apply new.

Lemma yields_all start data ks it : yields start new data ks it ->
  exists e, all_tokens pstate scopeop stack parse_line apply new brk start data = Some (ks, e) /\
    ti_error it = e /\ (e = None -> next it = Ok (None, it)).
Proof.
  intros (it0 & E & D). pose proof (all_drains _ _ _ parse_line apply new brk Hbd start data) as A.
  destruct (all_tokens _ _ _ _ _ _ _ _ _) as [[ks' e]|]; [|rewrite A in E; discriminate].
  destruct A as (t & t' & E' & D' & He & Hn). rewrite E in E'. injection E' as <-.
  destruct (drains_det _ _ _ _ D _ _ D') as [<- <-]. exists e. now split.
Qed.
Lemma yields_or start data :
  (ti_new _ _ _ parse_line new data start = Ok (RErr ParsingError) /\ parses start (firstn 1 (full_lines data)) = None) \/
  exists ks it, yields start new data ks it.
Proof.
  pose proof (all_drains _ _ _ parse_line apply new brk Hbd start data) as A.
  destruct (all_tokens _ _ _ _ _ _ _ _ _) as [[ks' e]|] eqn:E.
  - right. destruct A as (t & t' & E' & D' & _). now exists ks', t', t.
  - left. split; [assumption|]. eapply all_none; eassumption.
Qed.

Lemma parse_firstn start ls evss : parses start ls = Some evss -> forall k, parses start (firstn k ls) = Some (firstn k evss).
Proof.
  revert start evss. induction ls as [|l ls IH]; intros start evss; cbn [parse_all].
  - intros E; injection E as <-. intros k. now rewrite !firstn_nil.
  - destruct (parse_line start l) as [[evs|] s'] eqn:El; [|discriminate].
    destruct (parses s' ls) as [r|] eqn:Er; [|discriminate]. intros E; injection E as <-. intros [|k]; [reflexivity|].
    cbn [firstn parse_all]. now rewrite El, (IH _ _ Er).
Qed.
Lemma apply_prefix sc xs ys sc' : applies sc (xs ++ ys) = Some sc' -> exists sc'', applies sc xs = Some sc''.
Proof. rewrite applies_app. destruct (applies sc xs) as [sc''|]; [eauto|discriminate]. Qed.

Lemma tokens_reproduce start data : fine start new data ->
  exists ks it, yields start new data ks it /\ text_of ks = data /\
    (forall l, In (Lexeme l) ks -> ~ In LF (lx_value l)) /\
    ti_error it = None /\ next it = Ok (None, it).
Proof.
  intros (evss & sc & Hp & Ha). destruct (yields_or start data) as [[_ X]|(ks & it & Y)].
  - rewrite (parse_firstn _ _ _ Hp) in X. discriminate.
  - exists ks, it. split; [assumption|]. destruct (yields_all _ _ _ _ Y) as (e & E & He & Hn).
    assert (e = None) as ->.
    { pose proof (all_error _ _ _ parse_line apply new brk Hbd start data ks e E) as X.
      destruct e as [[]|]; try contradiction; [| |reflexivity].
      - destruct X as (k & ev & _ & X & _). now rewrite (parse_firstn _ _ _ Hp) in X.
      - destruct X as (k & ev & X1 & X2). rewrite (parse_firstn _ _ _ Hp) in X1. injection X1 as <-.
        rewrite <- (firstn_skipn k evss), concat_app, map_app in Ha. apply apply_prefix in Ha as [sc'' Ha]. congruence. }
    destruct (all_text _ _ _ parse_line apply new brk Hbd _ _ _ _ E) as (w & Ew & Hw).
    split; [now rewrite Ew, (Hw eq_refl), app_nil_r|].
    split; [|split; [assumption|now apply Hn]].
    intros l Hl. apply in_split in Hl as (a & b & Eq).
    destruct (all_each _ _ _ parse_line apply new brk Hbd _ _ _ _ E) as [P _].
    destruct (each_at _ _ _ P _ _ _ Eq) as [H _]. exact H.
Qed.

Lemma tokens_errors start data ks it : yields start new data ks it ->
  exists w, data = text_of ks ++ w /\
  match ti_error it with
  | None => w = [] /\ fine start new data
  | Some ParsingError => exists k evss, parses start (firstn k (full_lines data)) = Some evss /\
      parses start (firstn (S k) (full_lines data)) = None /\ text_of ks ++ [LF] = concat (firstn k (full_lines data))
  | Some ScopeError => exists k evss, parses start (firstn k (full_lines data)) = Some evss /\
      applies new (map snd (concat evss)) = None
  | Some _ => False
  end.
Proof.
  intros Y. destruct (yields_all _ _ _ _ Y) as (e & E & -> & Hn).
  destruct (all_text _ _ _ parse_line apply new brk Hbd _ _ _ _ E) as (w & Ew & Hw). exists w. split; [assumption|].
  pose proof (all_error _ _ _ parse_line apply new brk Hbd start data ks e E) as X.
  destruct e as [[]|]; try exact X. split; [now apply Hw|assumption].
Qed.

Lemma tokens_scopes start data ks it pre l post : in_order pstate scopeop parse_line ->
  yields start new data ks it -> ks = pre ++ Lexeme l :: post ->
  let i := end_line (text_of pre) in let k := end_byte (text_of pre) in
  scope_at _ _ _ parse_line apply start new data i k = Some (lx_scope l) /\
  forall evss, parses start (firstn (S i) (full_lines data)) = Some evss ->
    Forall (fun e => ~ (k < fst e < k + blen (lx_value l))) (nth i evss []).
Proof.
  intros Ho Y Ek. destruct (yields_all _ _ _ _ Y) as (e & E & _).
  destruct (all_each _ _ _ parse_line apply new brk Hbd _ _ _ _ E) as [_ P].
  exact (each_at _ _ _ (P Ho) _ _ _ Ek).
Qed.

Lemma tokens_nonempty start data ks it pre l l' post : yields start new data ks it ->
  ks = pre ++ Lexeme l :: Lexeme l' :: post -> lx_value l <> [].
Proof.
  intros Y Ek. destruct (yields_all _ _ _ _ Y) as (e & E & _).
  eapply (adjacent_split scopeop stack apply new); [eapply all_adjacent; eassumption|exact Ek].
Qed.

(** ** Positions *)
Lemma end_line_count t : end_line t = count_lf t.
Proof. unfold end_line. rewrite lines_count. lia. Qed.

Lemma seam_left a k r : seam brk a (k ++ r) -> seam brk (a ++ k) r -> seam brk a k.
Proof.
  unfold seam. intros H1 H2. rewrite <- app_assoc in H2. rewrite H1 in H2.
  destruct (app_cmp _ _ _ _ H2) as [(m & E & _)|(m & E & _)].
  - rewrite E. f_equal. pose proof (graphemes_post _ _ _ _ E) as P. rewrite <- P. f_equal.
    apply (f_equal (@concat _)) in E. rewrite concat_app, !graphemes_concat in E. now apply app_inv_head in E.
  - assert (L : concat (graphemes brk a) = concat (graphemes brk (a ++ k)) ++ concat m) by now rewrite E, concat_app.
    rewrite !graphemes_concat in L. assert (k = []) as ->.
    { apply (f_equal (@length _)) in L. rewrite !app_length in L. destruct k; [reflexivity|cbn in L; lia]. }
    now rewrite !app_nil_r.
Qed.

Lemma position_end data w (ks : list (token stack)) : plain_newlines brk data ->
  (forall l, In (Lexeme l) ks -> ~ In LF (lx_value l)) -> data = text_of ks ++ w ->
  on_clusters brk data ks ->
  Pos (end_line (text_of ks)) (list_sum (map (fun v => length (graphemes brk v)) (last_line_values ks [])))
  = end_from brk (Pos 0 0) (text_of ks).
Proof.
  intros Hp. revert w. induction ks as [|k ks IH] using rev_ind; intros w Hl Ed Hc; [reflexivity|].
  assert (S1 : seam brk (text_of ks) (token_text k ++ w)).
  { specialize (Hc ks [k] eq_refl). apply no_merge2 in Hc. rewrite Ed, text_of_app, <- app_assoc in Hc.
    rewrite skipn_app, skipn_all, Nat.sub_diag in Hc. unfold text_of at 2 in Hc. cbn in Hc. rewrite app_nil_r in Hc. exact Hc. }
  assert (Et : text_of (ks ++ [k]) = text_of ks ++ token_text k).
  { rewrite text_of_app. unfold text_of at 2. cbn. now rewrite app_nil_r. }
  assert (S2 : seam brk (text_of ks ++ token_text k) w).
  { specialize (Hc (ks ++ [k]) [] (eq_sym (app_nil_r _))). apply no_merge2 in Hc. rewrite Et in Hc. rewrite Ed, Et in Hc.
    now rewrite skipn_app, skipn_all, Nat.sub_diag in Hc. }
  pose proof (seam_left _ _ _ S1 S2) as S3.
  rewrite Et in Ed |- *. rewrite Ed in Hp.
  pose proof (proj1 (proj1 (plain_newlines_app _ _ _ S2) Hp)) as Hp3.
  rewrite end_from_app by assumption.
  rewrite <- (IH (token_text k ++ w)).
  - rewrite last_values_app. destruct k as [|l]; cbn [token_text last_line_values].
    + unfold end_from. rewrite !end_line_count, count_lf_app. reflexivity.
    + assert (Hll : ~ In LF (lx_value l)) by (apply Hl; apply in_or_app; right; now left).
      unfold end_from. rewrite !end_line_count, count_lf_app, (count_lf_none (lx_value l)) by assumption. cbn [Nat.eqb line offset].
      rewrite map_app, list_sum_app. cbn [map list_sum fold_right]. f_equal. lia.
  - intros l Hi. apply Hl. apply in_or_app. now left.
  - now rewrite Ed, <- app_assoc.
  - intros pre post E. apply (Hc pre (post ++ [k])). now rewrite E, app_assoc.
Qed.

Lemma on_clusters_pre data (a b : list (token stack)) : on_clusters brk data (a ++ b) -> on_clusters brk data a.
Proof. intros H pre post E. apply (H pre (post ++ b)). now rewrite E, app_assoc. Qed.

Lemma first_second_le p q : before q p = false -> first_of p q = p /\ second_of p q = q.
Proof. intros H. unfold first_of, second_of. now rewrite H. Qed.

Lemma tokens_positions start data ks it pre l post : plain_newlines brk data -> on_clusters brk data ks ->
  yields start new data ks it -> ks = pre ++ Lexeme l :: post ->
  (exists w, split_at brk data (lx_position l) = Some (text_of pre, lx_value l ++ text_of post ++ w)) /\
  spec_read brk data (lx_position l)
    (Pos (line (lx_position l)) (offset (lx_position l) + length (graphemes brk (lx_value l)))) = Some (lx_value l).
Proof.
  intros Hp Hc Y Ek. destruct (yields_all _ _ _ _ Y) as (e & E & _).
  destruct (all_text _ _ _ parse_line apply new brk Hbd _ _ _ _ E) as (w & Ew & _).
  destruct (all_each _ _ _ parse_line apply new brk Hbd _ _ _ _ E) as [P _].
  assert (Hnl : forall x, In (Lexeme x) ks -> ~ In LF (lx_value x)).
  { intros x Hx. apply in_split in Hx as (a & b & Eq). destruct (each_at _ _ _ P _ _ _ Eq) as [H _]. exact H. }
  destruct (each_at _ _ _ P _ _ _ Ek) as [_ Ep]. cbn [app] in Ep.
  assert (D1 : data = text_of pre ++ lx_value l ++ text_of post ++ w).
  { rewrite Ew, Ek, text_of_app. change (Lexeme l :: post) with ([Lexeme l] ++ post). rewrite text_of_app.
    unfold text_of at 2. cbn [map concat token_text]. now rewrite app_nil_r, <- !app_assoc. }
  assert (E1 : lx_position l = end_from brk (Pos 0 0) (text_of pre)).
  { rewrite Ep. apply (position_end data (lx_value l ++ text_of post ++ w)); try assumption.
    - intros x Hx. apply Hnl. rewrite Ek. apply in_or_app. now left.
    - rewrite Ek in Hc. now apply on_clusters_pre in Hc. }
  assert (Et2 : text_of (pre ++ [Lexeme l]) = text_of pre ++ lx_value l).
  { rewrite text_of_app. f_equal. unfold text_of. cbn. apply app_nil_r. }
  assert (S1 : seam brk (text_of pre) (lx_value l ++ text_of post ++ w)).
  { specialize (Hc pre (Lexeme l :: post) Ek). apply no_merge2 in Hc. rewrite D1 in Hc. now rewrite skipn_app, skipn_all, Nat.sub_diag in Hc. }
  assert (S2 : seam brk (text_of pre ++ lx_value l) (text_of post ++ w)).
  { specialize (Hc (pre ++ [Lexeme l]) post). rewrite <- app_assoc in Hc. specialize (Hc Ek). apply no_merge2 in Hc.
    rewrite Et2 in Hc. rewrite D1, app_assoc in Hc. now rewrite skipn_app, skipn_all, Nat.sub_diag in Hc. }
  assert (E2 : Pos (line (lx_position l)) (offset (lx_position l) + length (graphemes brk (lx_value l)))
    = end_from brk (Pos 0 0) (text_of pre ++ lx_value l)).
  { rewrite end_from_app.
    - rewrite <- E1. unfold end_from. rewrite (count_lf_none (lx_value l)) by (apply Hnl; rewrite Ek; apply in_or_app; right; now left).
      cbn [Nat.eqb]. f_equal. lia.
    - rewrite D1, app_assoc in Hp. now apply (proj1 (plain_newlines_app _ _ _ S2)) in Hp.
    - exact (seam_left _ _ _ S1 S2). }
  assert (Sp1 : split_at brk data (lx_position l) = Some (text_of pre, lx_value l ++ text_of post ++ w)).
  { rewrite E1, D1. apply split_at_end; [exact S1|now rewrite D1 in Hp]. }
  split; [now exists w|].
  unfold spec_read. destruct (first_second_le (lx_position l) (Pos (line (lx_position l)) (offset (lx_position l) + length (graphemes brk (lx_value l))))) as [F1 F2].
  { unfold before. cbn [line offset]. rewrite Nat.ltb_irrefl, Nat.eqb_refl. cbn [orb andb]. apply Nat.ltb_ge. lia. }
  rewrite F1, F2, Sp1, E2, D1, app_assoc. rewrite split_at_end by (assumption || now rewrite D1, app_assoc in Hp).
  now rewrite skipn_app, skipn_all, Nat.sub_diag.
Qed.
End Props.

Lemma singles_clusters brk data {S} (ks : list (token S)) w : singles brk data -> data = text_of ks ++ w ->
  on_clusters brk data ks.
Proof.
  intros H E pre post ->. apply no_merge2. rewrite text_of_app, <- app_assoc in E. rewrite E.
  rewrite skipn_app, skipn_all, Nat.sub_diag. cbn [skipn app]. unfold singles in H.
  rewrite E in H at 2. rewrite map_app in H. apply seam_split in H. now rewrite !concat_singles in H.
Qed.

Lemma token_read brk b f tl pstate scopeop stack parse_line apply new start ks it pre l post :
  on_boundaries pstate scopeop parse_line ->
  session brk b f tl -> on_clusters brk (tl_text tl) ks ->
  yields pstate scopeop stack parse_line apply brk start new (tl_text tl) ks it ->
  ks = pre ++ Lexeme l :: post ->
  prefix_at brk (tl_text tl) (lx_position l) = Some (text_of pre) /\
  buf_read brk b (range_new (lx_position l)
    (Pos (line (lx_position l)) (offset (lx_position l) + length (graphemes brk (lx_value l)))))
  = Ok (Some (lx_value l)).
Proof.
  intros Hb Hs Hc Y Ek. pose proof (inv_data _ _ _ (session_inv _ _ _ _ Hs)) as [Hd Hp].
  destruct (tokens_positions _ _ _ _ apply new brk Hb _ _ _ _ _ _ _ Hp Hc Y Ek) as [[w S] R]. split.
  - unfold split_at in S. destruct (prefix_at _ _ _) as [a|]; [|discriminate]. now injection S as -> _.
  - unfold buf_read. rewrite <- R. now apply holds_read.
Qed.
Lemma token_read_singles brk b f tl pstate scopeop stack parse_line apply new start ks it pre l post :
  on_boundaries pstate scopeop parse_line ->
  session brk b f tl -> singles brk (tl_text tl) ->
  yields pstate scopeop stack parse_line apply brk start new (tl_text tl) ks it ->
  ks = pre ++ Lexeme l :: post ->
  prefix_at brk (tl_text tl) (lx_position l) = Some (text_of pre) /\
  buf_read brk b (range_new (lx_position l)
    (Pos (line (lx_position l)) (offset (lx_position l) + length (lx_value l))))
  = Ok (Some (lx_value l)).
Proof.
  intros Hb Hs H Y Ek.
  destruct (tokens_errors _ _ _ _ _ new brk Hb _ _ _ _ Y) as (w & Ew & _).
  pose proof (singles_clusters _ _ _ _ H Ew) as Hc.
  destruct (token_read _ _ _ _ _ _ _ _ _ _ _ _ _ _ _ _ Hb Hs Hc Y Ek) as [P R]. split; [assumption|].
  replace (length (lx_value l)) with (length (graphemes brk (lx_value l))); [exact R|].
  assert (E : tl_text tl = text_of pre ++ lx_value l ++ text_of post ++ w).
  { rewrite Ew, Ek, text_of_app. change (Lexeme l :: post) with ([Lexeme l] ++ post). rewrite text_of_app.
    unfold text_of at 2. cbn [map concat token_text]. now rewrite app_nil_r, <- !app_assoc. }
  unfold singles in H. rewrite E in H. rewrite !map_app in H. apply graphemes_post in H. rewrite concat_app, concat_singles in H.
  assert (H' : graphemes brk (lx_value l ++ concat (map (fun c => [c]) (text_of post) ++ map (fun c => [c]) w)) = map (fun c => [c]) (lx_value l) ++ map (fun c => [c]) (text_of post) ++ map (fun c => [c]) w) by exact H.
  apply graphemes_pre in H'. rewrite concat_singles in H'. rewrite H'. now rewrite map_length.
Qed.
