(** Lemmas behind the gap buffer, position and range properties. *)
From Verif Require Export ClusterSpec.
From Verif Require Import Base Utf8 Utf8Proofs Grapheme GraphemeProofs UnicodeTable Position
  GapBuffer GapBufferProofs Spec Calls TextProofs UaxProofs HalvesProofs TextFacts.

(** ** Families of clusters for the concrete rules *)

Lemma simple_newline_family cls : cls LF = GC_LF -> newline_family (simple_cluster cls).
Proof.
  intros HL u Hu. destruct Hu as [c V Hc|c ms V Hc Hms|a b Va Vb Ha Hb].
  - split; [now repeat constructor|]. intros [->|[]]. reflexivity.
  - split.
    + constructor; [assumption|]. eapply Forall_impl; [|exact Hms]. now intros m [H _].
    + intros [->|H]; [rewrite HL in Hc; discriminate|].
      rewrite Forall_forall in Hms. apply Hms in H as [_ H]. rewrite HL in H. discriminate.
  - split; [now repeat constructor|]. intros [->|[->|[]]]; congruence.
Qed.

Lemma unicode_session cls s cs :
  cls LF = GC_LF -> words (simple_cluster cls) s ->
  Forall (fun ac => alloc_ok (fst ac)) cs ->
  Forall (fun ac => inserts (words (simple_cluster cls)) (snd ac)) cs ->
  clean_session (uax29 cls) s cs.
Proof.
  intros HL Hs Hal Hi.
  pose proof (simple_newline_family cls HL) as HN. pose proof (simple_indep cls) as HI.
  repeat split; try assumption.
  - eapply words_valid; eassumption.
  - eapply words_plain; eassumption.
  - eapply words_clean_calls; try eassumption. now apply Forall_map.
Qed.

Lemma ascii_solo c : (c < 128)%N -> c <> CR -> solo (gcb15 c) = true.
Proof.
  intros H Hn.
  assert (X : forallb (fun n => (N.of_nat n =? CR)%N || solo (gcb15 (N.of_nat n))) (seq 0 128) = true)
    by (vm_compute; reflexivity).
  rewrite forallb_forall in X. specialize (X (N.to_nat c)).
  rewrite N2Nat.id in X. apply orb_true_iff in X as [X|X]; [now apply N.eqb_eq in X|assumption|].
  apply in_seq. lia.
Qed.

Lemma ascii_words t : ascii_no_cr t -> words (simple_cluster gcb15) t.
Proof.
  intros H. exists (map (fun c => [c]) t). split.
  - apply Forall_map. eapply Forall_impl; [|exact H]. intros c [Hc Hn]. apply sc_solo.
    + unfold scalar. apply orb_true_iff. left. apply N.ltb_lt. lia.
    + now apply ascii_solo.
  - clear. induction t; simpl; congruence.
Qed.

Lemma gcb15_LF : gcb15 LF = GC_LF.
Proof. vm_compute. reflexivity. Qed.

(** ** Capacity *)

Lemma capacity_clean brk s al al' cs als :
  clean_session brk s cs -> length als = length cs -> Forall alloc_ok als ->
  outputs (gsession brk al s cs) = outputs (gsession brk al' s (combine als (map snd cs))).
Proof.
  intros H HL Ha.
  assert (Em : map snd (combine als (map snd cs)) = map snd cs).
  { clear -HL. revert als HL. induction cs as [|c cs IH]; intros [|a als] HL; try discriminate; [reflexivity|].
    injection HL as HL. cbn [map combine snd]. f_equal. now apply IH. }
  assert (H' : clean_session brk s (combine als (map snd cs))).
  { destruct H as (V & Hp & Hal & Hc). repeat split; try assumption; [|now rewrite Em].
    clear -HL Ha. revert als HL Ha. induction cs as [|c cs IH]; intros [|a als] HL Ha; try discriminate; [constructor|].
    injection HL as HL. inversion_clear Ha. cbn [map combine]. constructor; [assumption|]. now apply IH. }
  destruct (session_refines brk al s cs H) as (g & -> & _).
  destruct (session_refines brk al' s _ H') as (g' & -> & _).
  cbn [outputs]. now rewrite Em.
Qed.

(** ** Out-of-bounds and clamping on clean text *)

Lemma clean_in_bounds brk g t p : clean_buffer brk g t -> in_bounds brk g p = Ok (exists_at brk t p).
Proof. intros H. apply clean_buffer_holds in H as [H Hp]. now apply holds_in_bounds. Qed.
Lemma clean_read brk g t p q : clean_buffer brk g t ->
  gb_read brk g (range_new p q) = Ok (spec_read brk t p q).
Proof. intros H. apply clean_buffer_holds in H as [H Hp]. now apply holds_read. Qed.

Lemma coherent_in_bounds brk g t p : coherent brk g t -> in_bounds brk g p = Ok (exists_at brk t p).
Proof. intros H. apply coherent_holds in H as [H Hp]. now apply holds_in_bounds. Qed.

Lemma coherent_calls brk g t : coherent brk g t ->
  (forall p, in_bounds brk g p = Ok (exists_at brk t p)) /\
  (forall al data p, alloc_ok al -> valid_text data ->
   exists g', gb_insert brk al g data p = Ok g' /\ gb_to_string g' = Ok (spec_insert brk t data p)) /\
  (forall p q,
   exists g', gb_delete brk g (range_new p q) = Ok g' /\ gb_to_string g' = Ok (spec_delete brk t p q)).
Proof.
  intros H. split; [intros p; now apply coherent_in_bounds|].
  apply coherent_holds in H as [H Hp]. split.
  - intros al data p Hal Hv. now apply insert_text.
  - intros p q. now apply delete_text.
Qed.

Lemma exists_at_split brk t p : exists_at brk t p = false -> split_at brk t p = None.
Proof. unfold exists_at. now destruct (split_at brk t p). Qed.
Lemma exists_at_true brk t p : exists_at brk t p = true -> exists a b, split_at brk t p = Some (a, b).
Proof. unfold exists_at. destruct (split_at brk t p) as [[a b]|]; [eauto|discriminate]. Qed.

Lemma coherent_insert_oob brk g t al data p :
  coherent brk g t -> alloc_ok al -> valid_text data -> in_bounds brk g p = Ok false ->
  exists g', gb_insert brk al g data p = Ok g' /\ gb_to_string g' = Ok t.
Proof.
  intros Hc Hal Hv Hb. rewrite (coherent_in_bounds _ _ _ _ Hc) in Hb. injection Hb as Hb.
  apply coherent_holds in Hc as [H Hp].
  destruct (insert_text brk al g t data p Hal Hv H Hp) as (g' & E & Et). exists g'.
  split; [assumption|]. unfold spec_insert in Et. now rewrite (exists_at_split _ _ _ Hb) in Et.
Qed.

Lemma clamp brk g t p q a b :
  coherent brk g t -> before p q = true ->
  split_at brk t p = Some (a, b) -> exists_at brk t q = false ->
  exists g', gb_delete brk g (range_new p q) = Ok g'
    /\ gb_to_string g' =
       Ok (if line q + 1 <? length (lines_of t)
           then a ++ join (skipn (line q + 1) (lines_of t)) else a).
Proof.
  intros Hc Hb Ea Eq. apply coherent_holds in Hc as [H Hp].
  destruct (delete_text brk g t p q H Hp) as (g' & E & Et). exists g'. split; [assumption|].
  rewrite Et. f_equal. unfold spec_delete, spec_cut.
  assert (Hn : before q p = false).
  { unfold before in *. destruct (Nat.ltb_spec (line p) (line q)), (Nat.ltb_spec (line q) (line p)),
      (Nat.eqb_spec (line p) (line q)), (Nat.eqb_spec (line q) (line p)), (Nat.ltb_spec (offset p) (offset q)),
      (Nat.ltb_spec (offset q) (offset p)); try reflexivity; try lia; discriminate. }
  unfold first_of, second_of. rewrite Hn, Ea, (exists_at_split _ _ _ Eq), split_line_start.
  destruct (_ <? _); [reflexivity|apply app_nil_r].
Qed.

Lemma same_text_same_answers brk g g' t p q :
  clean_buffer brk g t -> clean_buffer brk g' t ->
  in_bounds brk g p = in_bounds brk g' p /\
  gb_read brk g (range_new p q) = gb_read brk g' (range_new p q).
Proof.
  intros H H'. rewrite !(clean_in_bounds brk _ t), !(clean_read brk _ t) by assumption. now split.
Qed.

(** ** Positions and ranges *)

Lemma pos_ext p q : line p = line q -> offset p = offset q -> p = q.
Proof. destruct p, q; simpl; congruence. Qed.

Lemma pos_cmp_spec p q :
  match pos_cmp p q with Lt => lex_lt p q | Eq => p = q | Gt => lex_lt q p end.
Proof.
  unfold pos_cmp, lex_lt.
  destruct (Nat.ltb_spec (line p) (line q)); [lia|].
  destruct (Nat.ltb_spec (line q) (line p)); [lia|].
  destruct (Nat.ltb_spec (offset p) (offset q)); [lia|].
  destruct (Nat.ltb_spec (offset q) (offset p)); [lia|].
  apply pos_ext; lia.
Qed.

Lemma lex_lt_irrefl p : ~ lex_lt p p.
Proof. unfold lex_lt. lia. Qed.
Lemma lex_lt_trans p q r : lex_lt p q -> lex_lt q r -> lex_lt p r.
Proof. unfold lex_lt. lia. Qed.

Lemma position_order p q :
  (pos_cmp p q = Lt <-> lex_lt p q) /\ (pos_cmp p q = Eq <-> p = q) /\
  (pos_cmp p q = Gt <-> lex_lt q p).
Proof.
  pose proof (pos_cmp_spec p q) as H.
  assert (I : forall a, ~ lex_lt a a) by apply lex_lt_irrefl.
  assert (A : ~ (lex_lt p q /\ lex_lt q p)) by (unfold lex_lt; lia).
  destruct (pos_cmp p q); repeat split; intros X; try discriminate; try reflexivity; try assumption;
    subst; try (exfalso; eapply I; eassumption); exfalso; auto.
Qed.

Lemma range_new_props p q :
  lex_le (r_start (range_new p q)) (r_end (range_new p q)) /\
  ((r_start (range_new p q) = p /\ r_end (range_new p q) = q) \/
   (r_start (range_new p q) = q /\ r_end (range_new p q) = p)).
Proof.
  unfold range_new, pos_gtb. pose proof (pos_cmp_spec p q) as H. unfold lex_le.
  destruct (pos_cmp p q); simpl; auto.
Qed.

Lemma range_includes_spec r p :
  range_includes r p = true <-> lex_le (r_start r) p /\ lex_lt p (r_end r).
Proof.
  destruct r as [[a b] [c d]], p as [x y].
  unfold range_includes, pos_geb, pos_ltb, pos_cmp, lex_le, lex_lt.
  cbn [r_start r_end line offset]. rewrite andb_true_iff.
  assert (P : forall u v u' v', Pos u v = Pos u' v' <-> u = u' /\ v = v').
  { intros. split; [intros H; injection H; auto|now intros [-> ->]]. }
  rewrite P.
  destruct (Nat.ltb_spec x a), (Nat.ltb_spec a x), (Nat.ltb_spec y b), (Nat.ltb_spec b y),
    (Nat.ltb_spec x c), (Nat.ltb_spec c x), (Nat.ltb_spec y d), (Nat.ltb_spec d y);
    split; intros HH; try (split; reflexivity); try (exfalso; lia);
    try (exfalso; now destruct HH); try lia.
Qed.

Lemma range_includes_new p q x :
  range_includes (range_new p q) x = true <->
  lex_le (first_of p q) x /\ lex_lt x (second_of p q).
Proof. rewrite range_new_ordered. apply range_includes_spec. Qed.

(** ** Line ranges *)

Lemma line_range_new_props a b :
  lr_start (line_range_new a b) = Nat.min a b /\ lr_end (line_range_new a b) = Nat.max a b.
Proof. unfold line_range_new. destruct (Nat.ltb_spec a b); simpl; lia. Qed.

Lemma to_range_eq a b : a <= b -> range_new (Pos a 0) (Pos b 0) = Rng (Pos a 0) (Pos b 0).
Proof.
  intros H. unfold range_new, pos_gtb. pose proof (pos_cmp_spec (Pos a 0) (Pos b 0)) as X.
  destruct (pos_cmp _ _); try reflexivity. unfold lex_lt in X. simpl in X. lia.
Qed.

Lemma line_range_char a b l o :
  line_range_includes (line_range_new a b) l =
  range_includes (to_range (line_range_new a b)) (Pos l o).
Proof.
  destruct (line_range_new_props a b) as [E1 E2]. unfold to_range, line_range_includes.
  rewrite to_range_eq by lia.
  apply eq_true_iff_eq. rewrite range_includes_spec, andb_true_iff, Nat.leb_le, Nat.ltb_lt.
  unfold lex_le, lex_lt. cbn [r_start r_end line offset].
  split.
  - intros [H1 H2]. split; [|lia]. destruct (Nat.eq_dec (lr_start (line_range_new a b)) l) as [->|];
      destruct o as [|o]; auto; right; lia.
  - intros [[H|H] H2]; [injection H as H H'|]; lia.
Qed.

Lemma line_range_inclusive a b l o :
  range_includes (to_inclusive_range (line_range_new a b)) (Pos l o) = true <->
  Nat.min a b <= l <= Nat.max a b.
Proof.
  destruct (line_range_new_props a b) as [E1 E2]. unfold to_inclusive_range.
  rewrite to_range_eq by lia. rewrite range_includes_spec.
  unfold lex_le, lex_lt. cbn [r_start r_end line offset]. rewrite E1, E2.
  split.
  - intros [[H|H] H2]; [injection H as H H'|]; lia.
  - intros H. split; [|lia]. destruct (Nat.eq_dec (Nat.min a b) l) as [->|]; destruct o as [|o]; auto; right; lia.
Qed.

Lemma delete_lines brk g t a b : coherent brk g t -> a <= b ->
  exists g', gb_delete brk g (range_new (Pos a 0) (Pos b 0)) = Ok g'
    /\ gb_to_string g' = Ok (without_lines t a b).
Proof.
  intros Hc Hab. apply coherent_holds in Hc as [H Hp].
  destruct (delete_text brk g t (Pos a 0) (Pos b 0) H Hp) as (g' & E & Et). exists g'.
  split; [assumption|]. rewrite Et. f_equal. unfold spec_delete, spec_cut, without_lines.
  assert (Hn : before (Pos b 0) (Pos a 0) = false).
  { unfold before; simpl. rewrite (proj2 (Nat.ltb_ge _ _)) by lia. now rewrite andb_false_r. }
  unfold first_of, second_of. rewrite Hn, !split_line_start. cbn [line].
  destruct (Nat.ltb_spec a (length (lines_of t))) as [Ha|Ha].
  - destruct (Nat.ltb_spec b (length (lines_of t))) as [Hb|Hb].
    + rewrite join_app; [reflexivity|]. intros X. apply (f_equal (@length _)) in X.
      rewrite skipn_length in X. simpl in X. lia.
    + rewrite (proj2 (Nat.ltb_ge _ _)) by lia.
      rewrite join_app by discriminate. reflexivity.
  - rewrite (proj2 (Nat.ltb_ge b _)) by lia. reflexivity.
Qed.

Lemma delete_line_range brk g t a b : coherent brk g t ->
  exists g', gb_delete brk g (to_range (line_range_new a b)) = Ok g'
    /\ gb_to_string g' = Ok (without_lines t (Nat.min a b) (Nat.max a b)).
Proof.
  intros Hc. destruct (line_range_new_props a b) as [E1 E2]. unfold to_range. rewrite E1, E2.
  apply delete_lines; [assumption|lia].
Qed.
Lemma delete_inclusive_range brk g t a b : coherent brk g t ->
  exists g', gb_delete brk g (to_inclusive_range (line_range_new a b)) = Ok g'
    /\ gb_to_string g' = Ok (without_lines t (Nat.min a b) (Nat.max a b + 1)).
Proof.
  intros Hc. destruct (line_range_new_props a b) as [E1 E2]. unfold to_inclusive_range. rewrite E1, E2.
  apply delete_lines; [assumption|lia].
Qed.

(** ** Distances *)

Lemma singles_plain brk d : singles brk d -> plain_newlines brk d.
Proof.
  intros H g Hg Hl. rewrite H in Hg. apply in_map_iff in Hg as (c & <- & _).
  destruct Hl as [->|[]]. reflexivity.
Qed.

Lemma singles_split brk l t : singles brk (l ++ LF :: t) -> ~ In LF l -> singles brk l /\ singles brk t.
Proof.
  intros H Hl. pose proof (singles_plain _ _ H) as Hp.
  destruct (plain_newlines_split _ _ _ Hp Hl) as [E _]. unfold singles in *. rewrite E in H.
  rewrite map_app in H. cbn [map] in H.
  assert (X : forall (x y x' y' : list (list N)), (forall u, In u x -> u <> [LF]) -> (forall u, In u x' -> u <> [LF]) ->
     x ++ [LF] :: y = x' ++ [LF] :: y' -> x = x' /\ y = y').
  { clear. induction x as [|u x IH]; intros y x' y' H1 H2 E; destruct x' as [|u' x']; simpl in E.
    - injection E as ->. now split.
    - injection E as E _. exfalso. apply (H2 u'); [now left|now symmetry].
    - injection E as E _. exfalso. apply (H1 u); [now left|assumption].
    - injection E as -> E. destruct (IH y x' y') as [-> ->]; [intros; apply H1; now right|intros; apply H2; now right|assumption|].
      now split. }
  apply X in H as [H1 H2]; [now split| |].
  - intros u Hu ->. apply (no_lf_clusters brk l Hl) in Hu. rewrite (proj2 (is_lf_iff [LF]) eq_refl) in Hu. discriminate.
  - intros u Hu ->. apply in_map_iff in Hu as (c & E' & Hc). injection E' as ->. contradiction.
Qed.

Lemma ascii_blen d : Forall (fun c => (c < 128)%N) d -> blen d = length d.
Proof.
  induction 1 as [|c d Hc Hd IH]; [reflexivity|]. rewrite blen_cons. unfold len1, enc1.
  rewrite (proj2 (N.ltb_lt _ _) Hc). simpl. now rewrite IH.
Qed.

Lemma singles_last brk d : singles brk d -> singles brk (last (lines_of d) []).
Proof.
  induction d as [l Hl|l t Hl IH] using text_line_ind; intros H.
  - now rewrite lines_of_one.
  - rewrite lines_of_app, last_cons by (assumption || apply lines_of_ne).
    apply IH. now apply (singles_split brk l t).
Qed.

Lemma last_line_In d c : In c (last (lines_of d) []) -> In c d.
Proof.
  induction d as [l Hl|l t Hl IH] using text_line_ind.
  - now rewrite lines_of_one.
  - rewrite lines_of_app, last_cons by (assumption || apply lines_of_ne).
    intros H. apply in_or_app. right. right. now apply IH.
Qed.

Lemma distance_end brk p d : singles brk d -> Forall (fun c => (c < 128)%N) d ->
  pos_add p (of_str d) = end_from brk p d.
Proof.
  intros Hs Ha. unfold pos_add, of_str, end_from. cbn [d_lines d_offset].
  rewrite last_line_last. f_equal.
  assert (Hl : blen (last (lines_of d) []) = length (graphemes brk (last (lines_of d) []))).
  { rewrite (singles_last _ _ Hs), map_length. apply ascii_blen. rewrite Forall_forall in *.
    intros c Hc. apply Ha. now apply last_line_In. }
  destruct (Nat.eqb_spec (count_lf d) 0) as [H0|H0].
  - rewrite H0. cbn [Nat.ltb Nat.leb]. rewrite Hl.
    rewrite lines_of_one by now apply count_lf_zero. reflexivity.
  - rewrite (proj2 (Nat.ltb_lt _ _)) by lia. exact Hl.
Qed.

Lemma of_str_lines d : of_str d = Dist (length (lines_of d) - 1) (blen (last (lines_of d) [])).
Proof. unfold of_str. rewrite last_line_last, lines_count. f_equal. lia. Qed.

Lemma last_line_app a b : last (lines_of (a ++ b)) [] =
  if count_lf b =? 0 then last (lines_of a) [] ++ b else last (lines_of b) [].
Proof.
  induction a as [l Hl|l t Hl IH] using text_line_ind.
  - rewrite (lines_of_one l) by assumption. cbn [last].
    destruct b as [m Hm|m u Hm _] using text_line_ind.
    + rewrite count_lf_none by assumption. cbn [Nat.eqb].
      rewrite lines_of_one; [reflexivity|]. intros H. apply in_app_or in H as [H|H]; contradiction.
    + rewrite (proj2 (Nat.eqb_neq _ _)).
      2:{ intros H. apply count_lf_zero in H. apply H. apply in_or_app. right. now left. }
      rewrite app_assoc, !lines_of_app, !last_cons by (try apply lines_of_ne; try assumption; intros H; apply in_app_or in H as [H|H]; contradiction).
      reflexivity.
  - rewrite <- app_assoc. cbn [app]. rewrite !lines_of_app, !last_cons by (assumption || apply lines_of_ne).
    exact IH.
Qed.

Lemma distances_add p a b : pos_add (pos_add p (of_str a)) (of_str b) = pos_add p (of_str (a ++ b)).
Proof.
  rewrite !of_str_lines, !lines_count, last_line_app, count_lf_app. unfold pos_add. cbn [d_lines d_offset line offset].
  rewrite !Nat.add_sub, Nat.add_assoc. f_equal.
  destruct (Nat.eqb_spec (count_lf b) 0) as [Hb|Hb].
  - rewrite Hb, Nat.add_0_r. cbn [Nat.ltb Nat.leb]. rewrite blen_app.
    rewrite (lines_of_one b) by now apply count_lf_zero. cbn [last].
    destruct (count_lf a); lia.
  - rewrite (proj2 (Nat.ltb_lt 0 (count_lf b))), (proj2 (Nat.ltb_lt 0 (count_lf a + count_lf b))) by lia.
    reflexivity.
Qed.

Lemma add_assign_is_add p d : pos_add_assign p d = pos_add p d.
Proof. reflexivity. Qed.

Lemma end_from_ple brk p d : plain_newlines brk d -> ple p (end_from brk p d).
Proof. intros H. rewrite <- pos_after_text by assumption. apply pos_after_ple. Qed.

Lemma first_of_le p q : ple p q -> first_of p q = p /\ second_of p q = q.
Proof.
  intros H. unfold first_of, second_of. destruct (before q p) eqn:E; [|now split].
  apply before_plt in E. exfalso. eapply plt_not_ple; eassumption.
Qed.

Lemma distance_reads_back brk al g t p d :
  coherent brk g t -> alloc_ok al -> valid_text d -> singles brk d ->
  Forall (fun c => (c < 128)%N) d -> in_bounds brk g p = Ok true ->
  clean_call brk (GInsert d p) t ->
  exists g', gb_insert brk al g d p = Ok g'
    /\ gb_read brk g' (range_new p (pos_add p (of_str d))) = Ok (Some d).
Proof.
  intros Hc Hal Hv Hs Ha Hb Hcl. rewrite (coherent_in_bounds _ _ _ _ Hc) in Hb. injection Hb as Hb.
  apply coherent_holds in Hc as [H Hp].
  destruct (holds_insert brk al g t d p Hal H Hp Hcl) as (g' & E & H' & Hp'). exists g'.
  split; [assumption|]. rewrite (holds_read _ _ _ _ _ H' Hp'). f_equal.
  destruct (exists_at_true _ _ _ Hb) as (a & b & Es). unfold spec_insert in *. rewrite Es in *.
  pose proof (singles_plain _ _ Hs) as Hpd.
  destruct Hcl as (_ & _ & Hcl). rewrite Es in Hcl.
  destruct (split_at_inserted _ _ _ _ _ _ Hp Hpd Es Hcl) as [S1 S2].
  rewrite (distance_end brk) by assumption.
  unfold spec_read. destruct (first_of_le _ _ (end_from_ple brk p d Hpd)) as [-> ->].
  rewrite S1, S2. now rewrite skipn_app, skipn_all, Nat.sub_diag.
Qed.

(** ** The distance of a text against where it ends *)

Lemma text_end_from brk p d : text_end brk p d = end_from brk p d.
Proof.
  unfold text_end, end_from. pose proof (lines_count d) as L. pose proof (lines_of_ne d) as Ne.
  destruct (lines_of d) as [|l [|m ls]] eqn:E; [contradiction| |].
  - cbn [length] in L. assert (count_lf d = 0) as Z by lia. rewrite Z. cbn [Nat.eqb last].
    assert (d = l) as ->; [|f_equal; lia].
    apply count_lf_zero in Z. rewrite lines_of_one in E by assumption. congruence.
  - cbn [length] in L |- *. rewrite (proj2 (Nat.eqb_neq (count_lf d) 0)) by lia. f_equal. lia.
Qed.

Lemma distance_end_iff brk p d :
  pos_add p (of_str d) = end_from brk p d <-> length (enc (last (lines_of d) [])) = length (graphemes brk (last (lines_of d) [])).
Proof.
  unfold pos_add, of_str, end_from. cbn [d_lines d_offset]. rewrite last_line_last. fold (blen (last (lines_of d) [])).
  destruct (Nat.eqb_spec (count_lf d) 0) as [H0|H0].
  - rewrite H0. cbn [Nat.ltb Nat.leb]. rewrite lines_of_one by now apply count_lf_zero. cbn [last]. split.
    + intros X. injection X. lia.
    + intros ->. reflexivity.
  - rewrite (proj2 (Nat.ltb_lt _ _)) by lia. split; [intros X; now injection X|intros ->; reflexivity].
Qed.

Lemma read_back_iff brk al g t p d q :
  coherent brk g t -> alloc_ok al -> in_bounds brk g p = Ok true -> clean_call brk (GInsert d p) t ->
  lex_le p q ->
  exists g', gb_insert brk al g d p = Ok g'
    /\ (gb_read brk g' (range_new p q) = Ok (Some d) <-> q = text_end brk p d).
Proof.
  intros Hc Hal Hb Hcl Hq. rewrite (coherent_in_bounds _ _ _ _ Hc) in Hb. injection Hb as Hb.
  apply coherent_holds in Hc as [H Hp].
  destruct (holds_insert brk al g t d p Hal H Hp Hcl) as (g' & E & H' & Hp'). exists g'.
  split; [assumption|]. rewrite (holds_read _ _ _ _ _ H' Hp'), text_end_from.
  destruct (exists_at_true _ _ _ Hb) as (a & b & Es). unfold spec_insert in *. rewrite Es in *.
  destruct Hcl as (_ & Hpd & Hcl). rewrite Es in Hcl.
  destruct (split_at_inserted _ _ _ _ _ _ Hp Hpd Es Hcl) as [S1 S2].
  assert (Hle : ple p q) by exact Hq.
  unfold spec_read. destruct (first_of_le _ _ Hle) as [-> ->]. rewrite S1. split.
  - destruct (split_at brk (a ++ d ++ b) q) as [[a' b']|] eqn:S3; [|discriminate]. intros X. injection X as X.
    destruct (split_at_mono _ _ _ _ _ _ _ _ Hp' S1 S3 Hle) as (m & -> & _). rewrite skipn_app, skipn_all, Nat.sub_diag in X.
    cbn [skipn app] in X. subst m.
    destruct (split_at_inv _ _ _ _ _ Hp' S3) as (_ & -> & _). destruct (split_at_inv _ _ _ _ _ Hp' S2) as (_ & -> & _). reflexivity.
  - intros ->. rewrite S2, skipn_app, skipn_all, Nat.sub_diag. reflexivity.
Qed.

Lemma pos_add_le p d : lex_le p (pos_add p d).
Proof.
  unfold lex_le, lex_lt, pos_add. destruct p as [l o], d as [dl dof]. cbn [line offset d_lines d_offset].
  destruct dl as [|dl]; cbn [Nat.ltb Nat.leb]; [|right; left; lia].
  destruct dof as [|dof]; [left; f_equal; lia|right; right; split; lia].
Qed.

Lemma distance_reads_iff brk al g t p d :
  coherent brk g t -> alloc_ok al -> in_bounds brk g p = Ok true -> clean_call brk (GInsert d p) t ->
  exists g', gb_insert brk al g d p = Ok g'
    /\ (gb_read brk g' (range_new p (pos_add p (of_str d))) = Ok (Some d) <->
        length (enc (last (lines_of d) [])) = length (graphemes brk (last (lines_of d) []))).
Proof.
  intros Hc Hal Hb Hcl. destruct (read_back_iff brk al g t p d _ Hc Hal Hb Hcl (pos_add_le p (of_str d))) as (g' & E & X).
  exists g'. split; [exact E|]. rewrite X, text_end_from. apply distance_end_iff.
Qed.
