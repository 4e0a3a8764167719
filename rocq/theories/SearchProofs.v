(** Searching, line counts, file names. *)
From Coq Require Import Sorted.
From Verif Require Import Base Utf8 Utf8Proofs LossySpec LossyProofs Grapheme GraphemeProofs UnicodeTable Position
  GapBuffer GapBufferProofs Cursor PathModel Buffer Spec CursorSpec Calls CursorCalls TextProofs
  UaxProofs HalvesProofs TextFacts GapProps CursorProofs BufferCalls Timeline OpProofs TimelineProofs
  AnyTextProofs BufferProps BufferIoProps BufferFacts SearchSpec.

Lemma starts_with_spec needle data : valid_text needle -> valid_text data ->
  starts_with (enc needle) (enc data) = true <-> exists r, data = needle ++ r.
Proof.
  intros Vn Vd. unfold starts_with. rewrite andb_true_iff, Nat.leb_le, list_N_eqb_eq. split.
  - intros [_ E]. exists (decode_lossy (skipn (length (enc needle)) (enc data))).
    rewrite <- (decode_enc data) at 1 by assumption.
    rewrite <- (firstn_skipn (length (enc needle)) (enc data)), <- E at 1.
    now rewrite decode_enc_app.
  - intros [r ->]. rewrite enc_app, app_length. split; [lia|].
    now rewrite firstn_app, Nat.sub_diag, firstn_O, app_nil_r, firstn_all.
Qed.

Lemma search_line_in needle ln : valid_text needle -> needle <> [] -> forall data off p, valid_text data ->
  In p (search_line needle ln data off) <->
  line p = ln /\ exists a r, data = a ++ needle ++ r /\ offset p = off + blen a.
Proof.
  intros Vn Hn. induction data as [|c data IH]; intros off p V; cbn [search_line].
  - split; [easy|]. intros [_ (a & r & E & _)]. destruct a; [|discriminate].
    destruct needle; [now destruct Hn|discriminate].
  - rewrite in_app_iff. inversion V as [|? ? Vc Vd]; subst. rewrite (IH (off + len1 c) p Vd). split.
    + intros [H|[H1 (a & r & -> & H3)]].
      * destruct (starts_with (enc needle) (enc (c :: data))) eqn:E; [|destruct H].
        apply starts_with_spec in E as [r E]; [|assumption|assumption]. destruct H as [<-|[]].
        split; [reflexivity|]. exists [], r. split; [assumption|]. unfold blen. simpl. lia.
      * split; [assumption|]. exists (c :: a), r. split; [reflexivity|]. rewrite blen_cons. lia.
    + intros [H1 (a & r & E & H3)]. destruct a as [|x a].
      * left. rewrite (proj2 (starts_with_spec needle (c :: data) Vn V)) by (exists r; exact E).
        left. destruct p as [l o]. simpl in *. subst. f_equal. unfold blen. simpl. lia.
      * right. injection E as -> E. split; [assumption|]. exists a, r. split; [assumption|].
        rewrite blen_cons in H3. lia.
Qed.

Lemma sorted_app {A} (R : A -> A -> Prop) l l' : StronglySorted R l -> StronglySorted R l' ->
  (forall x y, In x l -> In y l' -> R x y) -> StronglySorted R (l ++ l').
Proof.
  induction 1 as [|x l Hl IH Hx]; intros Hl' H; cbn [app]; [assumption|]. constructor.
  - apply IH; [assumption|]. intros a b Ha Hb. apply H; [now right|assumption].
  - apply Forall_app. split; [assumption|]. apply Forall_forall. intros y Hy. apply H; [now left|assumption].
Qed.

Lemma search_line_lower needle ln : forall data off p, In p (search_line needle ln data off) ->
  line p = ln /\ off <= offset p.
Proof.
  induction data as [|c data IH]; intros off p; cbn [search_line]; [easy|].
  rewrite in_app_iff. intros [H|H].
  - destruct (starts_with _ _); [|easy]. destruct H as [<-|[]]. split; [reflexivity|simpl; lia].
  - apply IH in H as [H1 H2]. split; [assumption|lia].
Qed.
Lemma search_line_sorted needle ln : forall data off, StronglySorted lex_lt (search_line needle ln data off).
Proof.
  induction data as [|c data IH]; intros off; cbn [search_line]; [constructor|].
  apply sorted_app; [destruct (starts_with _ _); repeat constructor|apply IH|].
  intros x y Hx Hy. destruct (starts_with _ _); [|easy]. destruct Hx as [<-|[]].
  apply search_line_lower in Hy as [H1 H2]. pose proof (len1_pos c). right. simpl. lia.
Qed.

Lemma search_lines_in needle : forall ls n p,
  In p (search_lines needle n ls) <->
  exists k l, nth_error ls k = Some l /\ In p (search_line needle (n + k) l 0).
Proof.
  induction ls as [|l ls IH]; intros n p; cbn [search_lines].
  - split; [easy|]. intros (k & l & E & _). now destruct k.
  - rewrite in_app_iff, IH. split.
    + intros [H|(k & l' & E & H)].
      * exists 0, l. split; [reflexivity|]. now rewrite Nat.add_0_r.
      * exists (S k), l'. split; [exact E|]. now replace (n + S k) with (n + 1 + k) by lia.
    + intros ([|k] & l' & E & H); cbn [nth_error] in E.
      * injection E as <-. left. now rewrite Nat.add_0_r in H.
      * right. exists k, l'. split; [exact E|]. now replace (n + 1 + k) with (n + S k) by lia.
Qed.
Lemma search_lines_sorted needle : forall ls n, StronglySorted lex_lt (search_lines needle n ls).
Proof.
  induction ls as [|l ls IH]; intros n; cbn [search_lines]; [constructor|].
  apply sorted_app; [apply search_line_sorted|apply IH|].
  intros x y Hx Hy. apply search_line_lower in Hx as [Hx _].
  apply search_lines_in in Hy as (k & l' & _ & Hy). apply search_line_lower in Hy as [Hy _]. left. lia.
Qed.

(** [str::lines] and the lines of the text, with carriage returns. *)
Lemma str_lines_sound t k l : nth_error (str_lines t) k = Some l ->
  exists l', nth_error (lines_of t) k = Some l' /\ (l' = l \/ (l' = l ++ [CR] /\ ~ no_crlf t)).
Proof.
  unfold str_lines. revert k l. induction t as [m Hm|m t Hm IH] using text_line_ind; intros k l.
  - rewrite lines_of_one, split_inclusive_one by assumption. destruct m as [|c m]; [now destruct k|].
    cbn [map]. rewrite strip_eol_last by assumption. destruct k as [|[|k]]; cbn [nth_error]; try discriminate.
    intros E. injection E as <-. eexists. split; [reflexivity|now left].
  - rewrite lines_of_app, split_inclusive_app by assumption. cbn [map]. destruct k as [|k]; cbn [nth_error].
    + intros E. injection E as <-. exists m. split; [reflexivity|]. unfold strip_eol. rewrite strip_suffix_snoc.
      destruct (strip_suffix CR m) as [x|] eqn:E; [|now left]. apply strip_suffix_some in E. right. split; [assumption|].
      intros X. apply (X x t). now rewrite E, <- app_assoc.
    + intros E. destruct (IH _ _ E) as (l' & E' & [H|[H X]]); exists l'; (split; [assumption|]); [now left|right].
      split; [assumption|]. intros Y. apply X. intros a b Z. apply (Y (m ++ LF :: a) b).
      now rewrite Z, <- app_assoc.
Qed.
Lemma str_lines_complete t k l' : nth_error (lines_of t) k = Some l' -> l' <> [] ->
  exists l, nth_error (str_lines t) k = Some l /\ (l' = l \/ (l' = l ++ [CR] /\ ~ no_crlf t)).
Proof.
  intros E Hne.
  assert (X : exists l, nth_error (str_lines t) k = Some l).
  { unfold str_lines. revert k E. induction t as [m Hm|m t Hm IH] using text_line_ind; intros k.
    - rewrite lines_of_one, split_inclusive_one by assumption.
      destruct k as [|[|k]]; cbn [nth_error]; try discriminate. intros E. injection E as <-.
      destruct m; [now destruct Hne|]. cbn. eauto.
    - rewrite lines_of_app, split_inclusive_app by assumption. destruct k as [|k]; cbn [map nth_error]; [eauto|apply IH]. }
  destruct X as [l X]. exists l. split; [assumption|]. apply str_lines_sound in X as (l2 & E2 & H).
  assert (l2 = l') by congruence. now subst.
Qed.

Lemma in_lines t l : In l (lines_of t) -> incl l t.
Proof.
  intros H c Hc. rewrite <- (join_lines t). revert H. generalize (lines_of t).
  induction l0 as [|x ls IH]; [easy|]. intros [->|H].
  - destruct ls; [assumption|]. rewrite join_cons by discriminate. apply in_or_app. now left.
  - destruct ls as [|y ls]; [easy|]. rewrite join_cons by discriminate. apply in_or_app. right. right. now apply IH.
Qed.

Lemma valid_line t k l : valid_text t -> nth_error (lines_of t) k = Some l -> valid_text l.
Proof.
  intros V E. apply nth_error_In in E. apply Forall_forall. intros c Hc. unfold valid_text in V.
  rewrite Forall_forall in V. apply V. now apply (in_lines t l).
Qed.

Lemma app_snoc_inv {A} (a b r l : list A) x : a ++ b ++ r = l ++ [x] -> ~ In x b -> b <> [] ->
  exists r', r = r' ++ [x] /\ l = a ++ b ++ r'.
Proof.
  intros E Hx Hb. destruct (exists_last (l := a ++ b ++ r)) as (y & z & Ez).
  { intros X. apply app_eq_nil in X as [_ X]. apply app_eq_nil in X as [X _]. now apply Hb. }
  destruct r as [|r0 r].
  - exfalso. rewrite app_nil_r in E. destruct (exists_last Hb) as (b' & b0 & ->).
    rewrite app_assoc in E. apply app_inj_tail in E as [_ ->]. apply Hx, in_or_app. right. now left.
  - destruct (exists_last (l := r0 :: r)) as (r' & r1 & Er); [discriminate|]. rewrite Er in E.
    rewrite !app_assoc in E. apply app_inj_tail in E as [E ->]. exists r'. split; [assumption|].
    now rewrite <- E, app_assoc.
Qed.

(** Search, any text: the byte offsets at which the needle occurs. *)
Lemma search_spec brk b f t needle : reachable_buffer brk b f -> buf_data b = Ok t ->
  valid_text needle -> needle <> [] -> ~ In LF needle -> no_crlf t \/ ~ In CR needle ->
  exists ps, buf_search b needle = Ok ps /\ StronglySorted lex_lt ps /\
    forall p, In p ps <-> exists a, occurs needle t (line p) a /\ offset p = blen a.
Proof.
  intros R Et Vn Hn Hlf Hcr. destruct (buffer_text_valid _ _ _ R) as (t' & Et' & V).
  assert (t' = t) by congruence. subst t'.
  unfold buf_search. rewrite Et. cbn [bind]. eexists. split; [reflexivity|]. split; [apply search_lines_sorted|].
  intros p. rewrite search_lines_in. split.
  - intros (k & l & E & H). destruct (str_lines_sound _ _ _ E) as (l' & E' & Hl).
    pose proof (valid_line _ _ _ V E') as V'.
    assert (Vl : valid_text l) by (destruct Hl as [->|[-> _]]; [assumption|now apply valid_app in V' as [V' _]]).
    apply search_line_in in H as [H1 (a & r & -> & H2)]; [|assumption..]. exists a.
    split; [|simpl in H2; assumption]. rewrite H1. simpl.
    destruct Hl as [->|[-> _]]; [exists (a ++ needle ++ r), r; now split|].
    exists ((a ++ needle ++ r) ++ [CR]), (r ++ [CR]). split; [assumption|]. now rewrite <- !app_assoc.
  - intros (a & (l' & r & E & El) & Ho). assert (Hne : l' <> []).
    { subst l'. intros X. apply app_eq_nil in X as [_ X]. apply app_eq_nil in X as [X _]. now apply Hn. }
    pose proof (valid_line _ _ _ V E) as V'.
    destruct (str_lines_complete _ _ _ E Hne) as (l & El' & Hl). exists (line p), l. split; [assumption|]. simpl.
    assert (Vl : valid_text l) by (destruct Hl as [->|[-> _]]; [assumption|now apply valid_app in V' as [V' _]]).
    apply search_line_in; [assumption..|]. split; [reflexivity|].
    destruct Hl as [Hl|[Hl Hc]].
    + exists a, r. subst l. now split.
    + destruct Hcr as [Hcr|Hcr]; [now destruct Hc|]. rewrite Hl in El. symmetry in El.
      destruct (app_snoc_inv _ _ _ _ _ El Hcr Hn) as (r' & _ & ->). exists a, r'. now split.
Qed.

Lemma ascii_blen_app a x : ascii (a ++ x) -> blen a = length a.
Proof. intros H. apply Forall_app in H as [H _]. now apply ascii_blen. Qed.

Lemma search_ascii brk b f t needle : reachable_buffer brk b f -> buf_data b = Ok t -> ascii t ->
  valid_text needle -> needle <> [] -> ~ In LF needle -> no_crlf t \/ ~ In CR needle ->
  exists ps, buf_search b needle = Ok ps /\ StronglySorted lex_lt ps /\
    forall p, In p ps <-> exists a, occurs needle t (line p) a /\ offset p = length a.
Proof.
  intros R Et Ha Vn Hn Hlf Hcr. destruct (search_spec _ _ _ _ _ R Et Vn Hn Hlf Hcr) as (ps & E & S & H).
  exists ps. split; [assumption|]. split; [assumption|]. intros p. rewrite H.
  assert (X : forall a, occurs needle t (line p) a -> blen a = length a).
  { intros a (l & r & El & ->). apply (ascii_blen_app a (needle ++ r)). apply nth_error_In in El.
    unfold ascii in *. rewrite Forall_forall in *. intros c Hc. apply Ha. eapply in_lines; eassumption. }
  split; intros (a & Ho & Hp); exists a; (split; [assumption|]); rewrite Hp; rewrite (X a Ho); reflexivity.
Qed.

(** Reading a match back. *)
Lemma singles_line brk t l : singles brk t -> In l (lines_of t) -> singles brk l.
Proof.
  induction t as [m Hm|m t Hm IH] using text_line_ind.
  - rewrite lines_of_one by assumption. now intros H [->|[]].
  - rewrite lines_of_app by assumption. intros H. destruct (singles_split _ _ _ H Hm) as [H1 H2].
    intros [->|X]; [assumption|now apply IH].
Qed.

Lemma concat_singles (l : text) : concat (map (fun c => [c]) l) = l.
Proof. induction l; simpl; congruence. Qed.

Lemma singles_prefix brk t k l o : singles brk t -> nth_error (lines_of t) k = Some l -> o <= length l ->
  prefix_at brk t (Pos k o) = Some (concat (map (fun l => l ++ [LF]) (firstn k (lines_of t))) ++ firstn o l).
Proof.
  intros H E Ho. unfold prefix_at. cbn [line offset]. rewrite E.
  pose proof (singles_line _ _ _ H (nth_error_In _ _ E)) as X. unfold singles in X.
  rewrite X, map_length. rewrite (proj2 (Nat.leb_le _ _) Ho). f_equal. f_equal.
  now rewrite firstn_map, concat_singles.
Qed.

Lemma singles_read brk t k a m r : singles brk t -> nth_error (lines_of t) k = Some (a ++ m ++ r) ->
  spec_read brk t (Pos k (length a)) (Pos k (length a + length m)) = Some m.
Proof.
  intros H E. unfold spec_read.
  destruct (first_of_le (Pos k (length a)) (Pos k (length a + length m))) as [-> ->].
  { apply ple_spec. cbn. lia. }
  unfold split_at. rewrite !(singles_prefix _ _ _ _ _ H E) by (rewrite !app_length; lia).
  f_equal. set (A := concat _). rewrite !app_length, skipn_app.
  rewrite skipn_all2 by lia. cbn [app].
  replace (length A + length (firstn (length a) (a ++ m ++ r)) - length A) with (length a)
    by (rewrite firstn_length, app_length; lia).
  rewrite firstn_app, firstn_all2 by lia.
  replace (length a + length m - length a) with (length m) by lia.
  rewrite firstn_app, Nat.sub_diag, firstn_O, app_nil_r, firstn_all.
  now rewrite skipn_app, skipn_all, Nat.sub_diag.
Qed.

Lemma search_reads_back brk b f tl needle ps : session brk b f tl ->
  ascii (tl_text tl) -> singles brk (tl_text tl) ->
  valid_text needle -> needle <> [] -> ~ In LF needle -> no_crlf (tl_text tl) \/ ~ In CR needle ->
  buf_search b needle = Ok ps ->
  Forall (fun p => in_bounds brk (b_data b) p = Ok true /\
    buf_read brk b (range_new p (Pos (line p) (offset p + length needle))) = Ok (Some needle)) ps.
Proof.
  intros Hs Ha Hsi Vn Hn Hlf Hcr E. pose proof (session_reachable _ _ _ _ Hs) as R. pose proof (session_text _ _ _ _ Hs) as Et.
  destruct (search_ascii _ _ _ _ _ R Et Ha Vn Hn Hlf Hcr) as (ps' & E' & _ & H).
  assert (ps' = ps) by congruence. subst ps'.
  pose proof (inv_data _ _ _ (session_inv _ _ _ _ Hs)) as [Hd Hp].
  apply Forall_forall. intros p Hin. apply H in Hin as (a & (l & r & El & ->) & Ho).
  destruct p as [k o]. cbn [line offset] in *. subst o. split.
  - rewrite (holds_in_bounds _ _ _ _ Hd Hp). f_equal. unfold exists_at, split_at.
    rewrite (singles_prefix _ _ _ _ _ Hsi El) by (rewrite app_length; lia). reflexivity.
  - unfold buf_read. rewrite (holds_read _ _ _ _ _ Hd Hp). f_equal. now apply (singles_read brk _ _ _ _ r).
Qed.

(** ** Line count *)

Lemma line_count_lines brk b f t : reachable_buffer brk b f -> buf_data b = Ok t ->
  buf_line_count b = Ok (length (lines_of t)).
Proof. intros _ E. unfold buf_line_count. rewrite E. cbn [bind]. now rewrite lines_count. Qed.

Lemma line_count_addresses brk b f tl : session brk b f tl ->
  exists n, buf_line_count b = Ok n /\ n = 1 + count_occ N.eq_dec (tl_text tl) LF /\
    forall l, in_bounds brk (b_data b) (Pos l 0) = Ok (l <? n).
Proof.
  intros Hs. pose proof (session_text _ _ _ _ Hs) as Et.
  pose proof (inv_data _ _ _ (session_inv _ _ _ _ Hs)) as [Hd Hp].
  unfold buf_line_count. rewrite Et. cbn [bind]. eexists. split; [reflexivity|]. split.
  - generalize (tl_text tl). induction l as [|c l IH]; [reflexivity|]. cbn [count_occ].
    unfold count_lf in *. cbn [filter]. destruct (N.eqb_spec LF c) as [<-|Hc]; destruct (N.eq_dec _ LF); cbn [length];
      try congruence; lia.
  - intros l. rewrite (holds_in_bounds _ _ _ _ Hd Hp). f_equal. unfold exists_at. rewrite split_line_start.
    rewrite lines_count. now destruct (l <? count_lf (tl_text tl) + 1).
Qed.

(** ** File names *)

Lemma take_to_dot_spec r : forall a o, take_to_dot r = (a, o) ->
  ~ In DOT a /\ match o with Some x => r = a ++ DOT :: x | None => r = a end.
Proof.
  induction r as [|b r IH]; intros a o; cbn [take_to_dot].
  - intros E. injection E as <- <-. split; [easy|reflexivity].
  - destruct (N.eqb_spec b DOT) as [->|Hb].
    + intros E. injection E as <- <-. split; [easy|reflexivity].
    + destruct (take_to_dot r) as [a' o']. intros E. injection E as <- <-.
      destruct (IH _ _ eq_refl) as [H1 H2]. split; [intros [X|X]; [now apply Hb|now apply H1]|].
      destruct o'; subst r; reflexivity.
Qed.
Lemma rsplit_dot_spec n a o : rsplit_dot n = (a, o) ->
  ~ In DOT a /\ match o with Some x => n = x ++ DOT :: a | None => n = a end.
Proof.
  unfold rsplit_dot. destruct (take_to_dot (rev n)) as [a' o'] eqn:E. apply take_to_dot_spec in E as [H1 H2].
  intros X. injection X as <- <-. split; [now rewrite <- in_rev|].
  destruct o' as [x|]; rewrite <- (rev_involutive n), H2; [|reflexivity].
  rewrite rev_app_distr. cbn [rev]. now rewrite <- app_assoc.
Qed.
Lemma last_dot_unique x a x' a' : x ++ DOT :: a = x' ++ DOT :: a' -> ~ In DOT a -> ~ In DOT a' -> x = x' /\ a = a'.
Proof.
  revert x'. induction x as [|c x IH]; intros [|c' x'] E H H'; cbn [app] in E.
  - injection E as E. now split.
  - injection E as <- E. exfalso. apply H. rewrite E. apply in_or_app. right. now left.
  - injection E as -> E. exfalso. apply H'. rewrite <- E. apply in_or_app. right. now left.
  - injection E as <- E. destruct (IH _ E H H') as [-> ->]. now split.
Qed.

Lemma file_name_ok b t : buf_file_name b = Some t <->
  exists p q, b_path b = Some p /\ p = q ++ [Normal (enc t)] /\ valid_text t.
Proof.
  unfold buf_file_name, path_file_name. split.
  - destruct (b_path b) as [p|]; [|discriminate]. destruct (rev p) as [|[| | |n] r] eqn:E; try discriminate.
    intros H. apply decode_strict_valid in H as [V <-]. exists p, (rev r). split; [reflexivity|]. split; [|assumption].
    rewrite <- (rev_involutive p), E. reflexivity.
  - intros (p & q & -> & -> & V). rewrite rev_app_distr. cbn [rev app]. now apply decode_strict_enc.
Qed.

Lemma extension_of b p q name stem ext : b_path b = Some p -> p = q ++ [Normal name] -> named name stem ext ->
  buf_file_extension b = Some (decode_lossy ext).
Proof.
  intros Hp -> (-> & Hs & He & Hd). unfold buf_file_extension, path_extension, path_file_name. rewrite Hp, rev_app_distr.
  cbn [rev app]. destruct (list_N_eqb (stem ++ DOT :: ext) [DOT; DOT]) eqn:E.
  - apply list_N_eqb_eq in E. exfalso. destruct stem as [|s1 [|s2 stem]]; [now destruct Hs| |].
    + injection E as -> ->. now apply He.
    + cbn in E. injection E as -> -> E. now destruct stem.
  - destruct (rsplit_dot (stem ++ DOT :: ext)) as [a o] eqn:X. apply rsplit_dot_spec in X as [X1 X2].
    destruct o as [x|]; [|exfalso; apply X1; rewrite <- X2; apply in_or_app; right; now left].
    destruct (last_dot_unique _ _ _ _ X2 Hd X1) as [<- <-].
    destruct stem as [|s stem]; [now destruct Hs|]. destruct ext as [|e ext]; [now destruct He|]. reflexivity.
Qed.

Lemma extension_iff b p q name stem ext : b_path b = Some p -> p = q ++ [Normal name] -> named name stem ext ->
  forall t, buf_file_extension b = Some t <-> lossy ext t.
Proof.
  intros Hp Hq Hn t. rewrite (extension_of _ _ _ _ _ _ Hp Hq Hn), <- decode_lossy_iff. split; congruence.
Qed.

Lemma extension_text b p q name stem t : b_path b = Some p -> p = q ++ [Normal name] ->
  named name stem (enc t) -> valid_text t -> buf_file_extension b = Some t.
Proof. intros Hp Hq Hn V. rewrite (extension_of _ _ _ _ _ _ Hp Hq Hn). now rewrite decode_enc. Qed.
Lemma extension_lossy b p q name stem ext : b_path b = Some p -> p = q ++ [Normal name] ->
  named name stem ext -> (forall t, valid_text t -> ext <> enc t) ->
  exists t, buf_file_extension b = Some t /\ In REPLACEMENT t.
Proof.
  intros Hp Hq Hn H. exists (decode_lossy ext). split; [exact (extension_of _ _ _ _ _ _ Hp Hq Hn)|].
  destruct (in_dec N.eq_dec REPLACEMENT (decode_lossy ext)) as [|Hi]; [assumption|exfalso].
  apply (H _ (decode_lossy_valid ext)). symmetry. now apply decode_lossy_exact.
Qed.

Lemma extension_none b : buf_file_extension b = None <->
  (forall q name stem ext, b_path b = Some (q ++ [Normal name]) -> ~ named name stem ext).
Proof.
  split.
  - intros H q name stem ext Hp Hn. rewrite (extension_of _ _ _ _ _ _ Hp eq_refl Hn) in H. discriminate.
  - intros H. unfold buf_file_extension, path_extension, path_file_name. destruct (b_path b) as [p|]; [|reflexivity].
    destruct (rev p) as [|[| | |n] r] eqn:E; try reflexivity.
    destruct (list_N_eqb n [DOT; DOT]); [reflexivity|]. destruct (rsplit_dot n) as [a [x|]] eqn:X; [|reflexivity].
    destruct x as [|c x]; [reflexivity|]. destruct a as [|e a]; [reflexivity|]. exfalso.
    apply rsplit_dot_spec in X as [X1 X2]. apply (H (rev r) n (c :: x) (e :: a)).
    + rewrite <- (rev_involutive p), E. reflexivity.
    + repeat split; try assumption; discriminate.
Qed.
