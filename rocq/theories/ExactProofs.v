(** Proofs for Properties_Exact.v: exactly when calls do what one expects. *)
From Verif Require Import Base Utf8 Utf8Proofs Grapheme GraphemeProofs ClusterSpec Position GapBuffer GapBufferProofs
  Cursor PathModel Buffer Spec Calls TextProofs HalvesProofs TextFacts GapProps BufferCalls
  Timeline TimelineProofs BufferSimple BufferFacts SearchSpec SearchProofs MarkSpec MarkProofs.

(** ** Search *)

Lemma one_byte c : len1 c = 1 <-> (c < 128)%N.
Proof.
  unfold len1, enc1. destruct (c <? 128)%N eqn:E1; [apply N.ltb_lt in E1; cbn; tauto|]. apply N.ltb_ge in E1.
  destruct (c <? 2048)%N; [cbn; lia|]. destruct (c <? 65536)%N; cbn; lia.
Qed.

(** As many clusters as bytes: every cluster is one byte. *)
Lemma bytes_clusters gs : Forall (fun g : grapheme => g <> []) gs ->
  length gs <= blen (concat gs) /\
  (length gs = blen (concat gs) -> gs = map (fun c => [c]) (concat gs) /\ ascii (concat gs)).
Proof.
  induction gs as [|g gs IH]; intros H; [split; [apply Nat.le_refl|now split; [|constructor]]|].
  inversion H as [|? ? Hg Hgs]; subst. destruct (IH Hgs) as [L E]. cbn [concat length]. rewrite blen_app.
  destruct g as [|c g]; [easy|]. rewrite blen_cons. pose proof (len1_pos c).
  split; [lia|]. intros X. destruct g as [|d g].
  - change (blen []) with 0 in X. assert (L1 : len1 c = 1) by lia. destruct E as [E1 E2]; [lia|].
    cbn [app map]. split; [now f_equal|]. constructor; [now apply one_byte|exact E2].
  - exfalso. rewrite blen_cons in X. pose proof (len1_pos d). lia.
Qed.

Lemma concat_singles a : concat (map (fun c : char => [c]) a) = a.
Proof. induction a as [|c a IH]; [reflexivity|]. cbn. now rewrite IH. Qed.

Lemma line_read brk t k l o : nth_error (lines_of t) k = Some l ->
  spec_read brk t (Pos k 0) (Pos k o) =
  if o <=? length (graphemes brk l) then Some (concat (firstn o (graphemes brk l))) else None.
Proof.
  intros El. unfold spec_read, first_of, second_of, before. cbn [line offset].
  rewrite Nat.ltb_irrefl, Nat.eqb_refl. cbn [orb andb]. replace (o <? 0) with false by (symmetry; now apply Nat.ltb_ge, Nat.le_0_l).
  unfold split_at, prefix_at. cbn [line offset]. rewrite El. cbn [Nat.leb firstn concat]. rewrite app_nil_r.
  destruct (o <=? _); [|reflexivity]. now rewrite skipn_app, skipn_all, Nat.sub_diag.
Qed.

Lemma column_exactly_when brk b t needle p a l r :
  (forall p q, gb_read brk (b_data b) (range_new p q) = Ok (spec_read brk t p q)) ->
  nth_error (lines_of t) (line p) = Some l -> l = a ++ needle ++ r -> offset p = blen a ->
  (buf_read brk b (range_new (Pos (line p) 0) p) = Ok (Some a) <->
   ascii a /\ firstn (length a) (graphemes brk l) = map (fun c => [c]) a).
Proof.
  intros Hr El E Ho. destruct p as [k o]. cbn [line offset] in *. unfold buf_read.
  rewrite Hr, (line_read _ _ _ l) by exact El. split.
  - destruct (o <=? length (graphemes brk l)) eqn:Hle; [|discriminate]. apply Nat.leb_le in Hle. intros [= X].
    pose proof (bytes_clusters (firstn o (graphemes brk l))) as B.
    destruct B as [_ B]. { apply Forall_forall. intros g Hg. pose proof (graphemes_nonempty brk l) as N.
      rewrite Forall_forall in N. apply N. rewrite <- (firstn_skipn o). apply in_or_app. now left. }
    rewrite X in B. rewrite firstn_length_le in B by exact Hle. destruct (B Ho) as [B1 B2]. split; [exact B2|].
    rewrite <- (ascii_blen _ B2), <- Ho. exact B1.
  - intros [A F]. pose proof (ascii_blen _ A) as La. rewrite La in Ho. subst o.
    assert (L : length a <= length (graphemes brk l)).
    { apply (f_equal (@length _)) in F. rewrite firstn_length, map_length in F. lia. }
    apply Nat.leb_le in L. now rewrite L, F, concat_singles.
Qed.

Lemma search_columns brk b f tl needle ps p : session brk b f tl ->
  valid_text needle -> needle <> [] -> ~ In LF needle -> no_crlf (tl_text tl) \/ ~ In CR needle ->
  buf_search b needle = Ok ps -> In p ps ->
  exists a r, nth_error (lines_of (tl_text tl)) (line p) = Some (a ++ needle ++ r) /\ offset p = blen a /\
    (buf_read brk b (range_new (Pos (line p) 0) p) = Ok (Some a) <->
     ascii a /\ firstn (length a) (graphemes brk (a ++ needle ++ r)) = map (fun c => [c]) a).
Proof.
  intros Hs Vn Hn Hlf Hcr E Hin. pose proof (session_reachable _ _ _ _ Hs) as R. pose proof (session_text _ _ _ _ Hs) as Et.
  destruct (search_spec _ _ _ _ _ R Et Vn Hn Hlf Hcr) as (ps' & E' & _ & H).
  assert (ps' = ps) by congruence. subst ps'.
  pose proof (inv_data _ _ _ (session_inv _ _ _ _ Hs)) as [Hd Hp].
  apply H in Hin as (a & (l & r & El & El') & Ho). exists a, r. subst l. split; [exact El|]. split; [exact Ho|].
  apply (column_exactly_when brk b (tl_text tl) needle p a (a ++ needle ++ r) r); try assumption; [|reflexivity].
  intros q q'. now apply holds_read.
Qed.

(** ** Inserts out of bounds *)

Lemma whole_insert brk al data p m : whole (m_insert brk al data p m) =
  match locate brk (make_room al data m) p with Some (a, b) => a ++ data ++ b | None => whole m end.
Proof.
  unfold m_insert. destruct (locate _ _ p) as [[a b]|]; unfold whole; cbn [ahead behind]; [now rewrite app_assoc|].
  unfold make_room. destruct (_ <? _); [|reflexivity]. cbn [ahead behind]. unfold whole. now rewrite app_nil_r.
Qed.

Lemma msim_text g m : msim g m -> gb_to_string g = Ok (whole m).
Proof. intros [R _]. apply (to_string_ok _ _ _ R). Qed.

Lemma walk_text gs here p a b : walk gs here p = Some (a, b) -> a ++ b = concat gs.
Proof.
  revert here a b. induction gs as [|g gs IH]; intros here a b; cbn [walk concat].
  - destruct (pos_eqb here p); [|discriminate]. now intros [= <- <-].
  - destruct (pos_eqb here p); [now intros [= <- <-]|].
    destruct (walk gs _ p) as [[a' b']|] eqn:E; [|discriminate]. intros [= <- <-].
    rewrite <- app_assoc. f_equal. exact (IH _ _ _ E).
Qed.
Lemma locate_text brk m p a b : locate brk m p = Some (a, b) -> a ++ b = whole m.
Proof. intros E. apply walk_text in E. rewrite E, concat_app, !graphemes_concat. reflexivity. Qed.

Lemma insert_text brk al g data p t : reachable brk g -> alloc_ok al -> valid_text data ->
  gb_to_string g = Ok t ->
  exists g', gb_insert brk al g data p = Ok g' /\
    (gap_length g < length (enc data) ->
     gb_to_string g' = Ok (match locate brk (Marked t [] 0) p with Some (a, b) => a ++ data ++ b | None => t end)).
Proof.
  intros R Ha V Et. apply reachable_rep in R as (a & c & R). pose (m := Marked a c (gap_length g)).
  assert (S : msim g m) by (split; [exact R|reflexivity]).
  destruct (insert_msim brk al g m data p Ha V S) as (g' & E & S'). exists g'. split; [exact E|]. intros L.
  pose proof (msim_text _ _ S) as Et'. assert (whole m = t) by congruence.
  rewrite (msim_text _ _ S'), whole_insert. unfold make_room. cbn [room m]. apply Nat.ltb_lt in L.
  unfold m at 1. cbn [room]. rewrite L. fold m. rewrite H. reflexivity.
Qed.

Lemma longer_text (a data b : text) : a ++ data ++ b = a ++ b -> data = [].
Proof.
  intros H. apply app_inv_head in H. apply (f_equal (@length _)) in H. rewrite app_length in H.
  destruct data; [reflexivity|cbn in H; lia].
Qed.

Lemma out_of_bounds_exactly_when brk al g data p t : reachable brk g -> alloc_ok al -> valid_text data ->
  data <> [] -> gb_to_string g = Ok t -> in_bounds brk g p = Ok false ->
  exists g', gb_insert brk al g data p = Ok g' /\
    (gb_to_string g' = Ok t <-> length (enc data) <= gap_length g \/ locate brk (Marked t [] 0) p = None).
Proof.
  intros R Ha V Hd Et Hb. destruct (le_lt_dec (blen data) (gap_length g)) as [L|L].
  - destruct (fitting_insert brk al g data p t R Ha V L Hb Et) as (g' & E & E').
    exists g'. split; [exact E|]. split; [intros _; now left|intros _; exact E'].
  - destruct (insert_text brk al g data p t R Ha V Et) as (g' & E & E'). exists g'. split; [exact E|].
    specialize (E' L). rewrite E'. destruct (locate brk (Marked t [] 0) p) as [[a b]|] eqn:El.
    + split; [|intros [X|X]; [unfold blen in L; lia|discriminate]]. intros [= X]. exfalso. apply Hd.
      pose proof (locate_text _ _ _ _ _ El) as Ew. unfold whole in Ew. cbn [ahead behind] in Ew. rewrite app_nil_r in Ew.
      rewrite <- Ew in X. exact (longer_text _ _ _ X).
    + split; [intros _; now right|reflexivity].
Qed.
