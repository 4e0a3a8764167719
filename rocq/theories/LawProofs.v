(** Laws of edits. *)
From Verif Require Import Base Utf8 Utf8Proofs Grapheme GraphemeProofs UnicodeTable Position
  GapBuffer GapBufferProofs Spec Calls ClusterSpec TextProofs UaxProofs HalvesProofs TextFacts GapProps LawSpec.

Lemma shifted_end brk p d m : shifted brk p d (end_from brk p m) = end_from brk (end_from brk p d) m.
Proof.
  unfold shifted. rewrite text_end_from. unfold end_from. cbn [line offset].
  destruct (Nat.eqb_spec (count_lf m) 0) as [E|E].
  - rewrite E, Nat.add_0_r, Nat.eqb_refl. f_equal; lia.
  - replace (line p + count_lf m =? line p) with false by (symmetry; apply Nat.eqb_neq; lia). f_equal. lia.
Qed.
Lemma pulled_end brk p m k : pulled p (end_from brk p m) (end_from brk (end_from brk p m) k) = end_from brk p k.
Proof.
  unfold pulled, end_from. cbn [line offset]. destruct (Nat.eqb_spec (count_lf k) 0) as [E|E].
  - rewrite E, !Nat.add_0_r, Nat.eqb_refl. f_equal. lia.
  - replace (line p + count_lf m + count_lf k =? line p + count_lf m) with false by (symmetry; apply Nat.eqb_neq; lia). f_equal. lia.
Qed.

Section Laws.
Variable cls : char -> gcb.
Hypothesis HL : cls LF = GC_LF.
Let brk := uax29 cls.
Let W := words (simple_cluster cls).
Let HI := simple_indep cls.
Let HN := simple_newline_family cls HL.

Lemma w_plain t : W t -> plain_newlines brk t.
Proof. apply words_plain; [exact HI|exact HN]. Qed.
Lemma w_seam a b : W a -> W b -> seam brk a b.
Proof. apply words_seam, HI. Qed.
Lemma w_app a b : W a -> W b -> W (a ++ b).
Proof. apply words_app. Qed.

Lemma split_end a b : W a -> W b -> split_at brk (a ++ b) (end_from brk (Pos 0 0) a) = Some (a, b).
Proof. intros Ha Hb. apply split_at_end; [now apply w_seam|now apply w_plain, w_app]. Qed.
Lemma end_app p a b : W a -> W b -> end_from brk p (a ++ b) = end_from brk (end_from brk p a) b.
Proof. intros Ha Hb. apply end_from_app; [now apply w_plain, w_app|now apply w_seam]. Qed.

(** A position of a text, and two, as pieces of it. *)
Lemma piece s p : W s -> exists_at brk s p = true ->
  exists a b, s = a ++ b /\ W a /\ W b /\ p = end_from brk (Pos 0 0) a.
Proof.
  intros Hs Hp. destruct (exists_at_true _ _ _ Hp) as (a & b & E).
  destruct (words_split_at brk _ s p a b HI HN Hs E) as [Wa Wb].
  destruct (split_at_inv brk s p a b (w_plain s Hs) E) as (_ & Ep & _ & _ & Es). now exists a, b.
Qed.
Lemma pieces s p q : W s -> exists_at brk s p = true -> exists_at brk s q = true -> lex_le p q ->
  exists a m b, s = a ++ m ++ b /\ W a /\ W m /\ W b /\ p = end_from brk (Pos 0 0) a /\ q = end_from brk p m.
Proof.
  intros Hs Hp Hq Hl. destruct (exists_at_true _ _ _ Hp) as (a & b & E). destruct (exists_at_true _ _ _ Hq) as (a' & b' & E').
  assert (Hle : ple p q).
  { destruct Hl as [->|Hl]; [now left|]. right. exact Hl. }
  destruct (split_at_mono brk s p q a b a' b' (w_plain s Hs) E E' Hle) as (m & Ea & Eb & _ & _).
  destruct (words_split_at brk _ s p a b HI HN Hs E) as [Wa Wb].
  destruct (words_split_at brk _ s q a' b' HI HN Hs E') as [Wa' Wb'].
  destruct (split_at_inv brk s p a b (w_plain s Hs) E) as (_ & Ep & _ & _ & Es).
  destruct (split_at_inv brk s q a' b' (w_plain s Hs) E') as (_ & Eq & _ & _ & Es').
  assert (Wm : W m).
  { subst b. assert (X : split_at brk (m ++ b') (end_from brk (Pos 0 0) m) = Some (m, b')).
    { apply split_at_end; [|now apply w_plain]. 
      destruct (split_at_mono brk s p q a (m ++ b') a' b' (w_plain s Hs) E E' Hle) as (m' & Ea2 & Eb2 & S & _).
      apply app_inv_tail in Eb2. now subst m'. }
    now destruct (words_split_at brk _ (m ++ b') _ m b' HI HN Wb X). }
  exists a, m, b'. subst b a'. split; [assumption|]. repeat (split; [assumption|]). now rewrite Eq, Ep, end_app.
Qed.

Lemma ple_refl p : ple p p.
Proof. now left. Qed.
Lemma ple_end p m : W m -> ple p (end_from brk p m).
Proof. intros Hm. apply end_from_ple. now apply w_plain. Qed.
Lemma ple_end' p m : W m -> first_of p (end_from brk p m) = p /\ second_of p (end_from brk p m) = end_from brk p m.
Proof. intros Hm. now apply first_of_le, ple_end. Qed.

(** Edits at the ends of pieces. *)
Lemma do_insert a b d : W a -> W b -> spec_insert brk (a ++ b) d (end_from brk (Pos 0 0) a) = a ++ d ++ b.
Proof. intros Ha Hb. unfold spec_insert. now rewrite split_end. Qed.
Lemma do_delete a m b : W a -> W m -> W b ->
  spec_delete brk (a ++ m ++ b) (end_from brk (Pos 0 0) a) (end_from brk (Pos 0 0) (a ++ m)) = a ++ b.
Proof.
  intros Ha Hm Hb. unfold spec_delete, spec_cut. rewrite (end_app _ a m) by assumption.
  destruct (ple_end' (end_from brk (Pos 0 0) a) m Hm) as [-> ->].
  rewrite split_end by (try assumption; now apply w_app). rewrite <- end_app by assumption. rewrite app_assoc.
  now rewrite split_end by (try assumption; now apply w_app).
Qed.
Lemma do_read a m b : W a -> W m -> W b ->
  spec_read brk (a ++ m ++ b) (end_from brk (Pos 0 0) a) (end_from brk (Pos 0 0) (a ++ m)) = Some m.
Proof.
  intros Ha Hm Hb. unfold spec_read. rewrite (end_app _ a m) by assumption.
  destruct (ple_end' (end_from brk (Pos 0 0) a) m Hm) as [-> ->].
  rewrite split_end by (try assumption; now apply w_app). rewrite <- end_app by assumption. rewrite app_assoc.
  rewrite split_end by (try assumption; now apply w_app). f_equal.
  rewrite skipn_app, skipn_all, Nat.sub_diag. reflexivity.
Qed.

(** From texts to buffers. *)
Lemma run_text s acs : W s -> Forall (inserts W) (map snd acs) -> Forall (fun ac => alloc_ok (fst ac)) acs -> forall al,
  exists g, gsession brk al s acs = Ok (fst (spec_calls brk (map snd acs) s), g) /\
    gb_to_string g = Ok (snd (spec_calls brk (map snd acs) s)).
Proof.
  intros Hs Hi Ha al. apply session_refines_text. apply unicode_session; [exact HL|exact Hs|exact Ha|]. exact (proj1 (Forall_map snd (inserts W) acs) Hi).
Qed.
Lemma agree_text s cs cs' : W s -> Forall (inserts W) cs -> Forall (inserts W) cs' ->
  snd (spec_calls brk cs s) = snd (spec_calls brk cs' s) -> agree brk s cs cs'.
Proof.
  intros Hs Hi Hi' E al al' acs acs' <- <- Ha Ha'.
  destruct (run_text s acs Hs Hi Ha al) as (g & E1 & T1). destruct (run_text s acs' Hs Hi' Ha' al') as (g' & E2 & T2).
  do 4 eexists. exists (snd (spec_calls brk (map snd acs) s)). split; [exact E1|]. split; [exact E2|]. split; [exact T1|].
  now rewrite E.
Qed.
Lemma returns_text s cs os : W s -> Forall (inserts W) cs -> fst (spec_calls brk cs s) = os -> returns brk s cs os.
Proof.
  intros Hs Hi E al acs <- Ha. destruct (run_text s acs Hs Hi Ha al) as (g & E1 & _). exists g. now rewrite E1, E.
Qed.

Ltac ins := repeat (constructor; cbn [inserts]); try assumption; try exact I; try (apply w_app; assumption).

Theorem inserts_join : forall s p d e, W s -> W d -> W e -> exists_at brk s p = true ->
  agree brk s [GInsert d p; GInsert e (text_end brk p d)] [GInsert (d ++ e) p].
Proof.
  intros s p d e Hs Hd He Hp. destruct (piece s p Hs Hp) as (a & b & -> & Wa & Wb & ->).
  apply agree_text; [assumption|ins|ins|]. cbn [spec_calls spec_call snd]. rewrite text_end_from, <- end_app by assumption.
  rewrite (do_insert a b d) by assumption. rewrite app_assoc. rewrite (do_insert (a ++ d) b e) by (try assumption; now apply w_app).
  rewrite (do_insert a b (d ++ e)) by assumption. now rewrite <- !app_assoc.
Qed.

Theorem insert_delete : forall s p d, W s -> W d -> exists_at brk s p = true ->
  agree brk s [GInsert d p; GDelete p (text_end brk p d)] [].
Proof.
  intros s p d Hs Hd Hp. destruct (piece s p Hs Hp) as (a & b & -> & Wa & Wb & ->).
  apply agree_text; [assumption|ins|ins|]. cbn [spec_calls spec_call snd]. rewrite text_end_from, <- end_app by assumption.
  rewrite (do_insert a b d) by assumption. now rewrite do_delete.
Qed.

Theorem cut_paste : forall s p q u, W s -> exists_at brk s p = true -> exists_at brk s q = true -> lex_le p q ->
  spec_read brk s p q = Some u -> agree brk s [GDelete p q; GInsert u p] [].
Proof.
  intros s p q u Hs Hp Hq Hl Hu. destruct (pieces s p q Hs Hp Hq Hl) as (a & m & b & -> & Wa & Wm & Wb & -> & ->).
  rewrite <- end_app in * by assumption. rewrite do_read in Hu by assumption. injection Hu as <-.
  apply agree_text; [assumption|ins|ins|]. cbn [spec_calls spec_call snd].
  rewrite do_delete by assumption. now rewrite do_insert.
Qed.

Theorem inserts_commute : forall s p q d e, W s -> W d -> W e -> exists_at brk s p = true -> exists_at brk s q = true -> lex_le p q ->
  agree brk s [GInsert e q; GInsert d p] [GInsert d p; GInsert e (shifted brk p d q)].
Proof.
  intros s p q d e Hs Hd He Hp Hq Hl. destruct (pieces s p q Hs Hp Hq Hl) as (a & m & b & -> & Wa & Wm & Wb & -> & ->).
  assert (Wam : W (a ++ m)) by now apply w_app. assert (Wmb : W (m ++ b)) by now apply w_app. assert (Web : W (e ++ b)) by now apply w_app.
  assert (Wdm : W (d ++ m)) by now apply w_app. assert (Wad : W (a ++ d)) by now apply w_app.
  apply agree_text; [assumption|ins|ins|]. cbn [spec_calls spec_call snd]. rewrite shifted_end.
  rewrite <- (end_app _ a d), <- (end_app _ a m), <- (end_app _ (a ++ d) m) by assumption.
  rewrite (do_insert a (m ++ b) d) by assumption.
  replace (a ++ m ++ b) with ((a ++ m) ++ b) by now rewrite app_assoc. rewrite (do_insert (a ++ m) b e) by assumption.
  replace ((a ++ m) ++ e ++ b) with (a ++ m ++ e ++ b) by now rewrite app_assoc.
  rewrite (do_insert a (m ++ e ++ b) d) by (try assumption; now apply w_app).
  replace (a ++ d ++ m ++ b) with (((a ++ d) ++ m) ++ b) by now rewrite !app_assoc.
  rewrite (do_insert ((a ++ d) ++ m) b e) by (try assumption; now apply w_app). now rewrite <- !app_assoc.
Qed.

Lemma pieces3 s p q r : W s -> exists_at brk s p = true -> exists_at brk s q = true -> exists_at brk s r = true ->
  lex_le p q -> lex_le q r ->
  exists a m k b, s = a ++ m ++ k ++ b /\ W a /\ W m /\ W k /\ W b /\ p = end_from brk (Pos 0 0) a /\
    q = end_from brk p m /\ r = end_from brk q k.
Proof.
  intros Hs Hp Hq Hr H1 H2. destruct (pieces s q r Hs Hq Hr H2) as (a1 & k & b & Es & Wa1 & Wk & Wb & Eq & Er).
  destruct (pieces s p q Hs Hp Hq H1) as (a & m & b1 & Es1 & Wa & Wm & Wb1 & Ep & Eq1).
  assert (X : split_at brk s q = Some (a1, k ++ b)) by (rewrite Es, Eq; apply split_end; [assumption|now apply w_app]).
  assert (X1 : split_at brk s q = Some (a ++ m, b1)).
  { rewrite Es1, Eq1, Ep, app_assoc, <- end_app by assumption. apply split_end; [now apply w_app|assumption]. }
  rewrite X in X1. injection X1 as -> <-. exists a, m, k, b. split; [now rewrite Es, <- app_assoc|]. repeat (split; [assumption|]). assumption.
Qed.

Theorem deletes_join : forall s p q r, W s -> exists_at brk s p = true -> exists_at brk s q = true -> exists_at brk s r = true ->
  lex_le p q -> lex_le q r ->
  agree brk s [GDelete q r; GDelete p q] [GDelete p r] /\ agree brk s [GDelete p q; GDelete p (pulled p q r)] [GDelete p r].
Proof.
  intros s p q r Hs Hp Hq Hr H1 H2. destruct (pieces3 s p q r Hs Hp Hq Hr H1 H2) as (a & m & k & b & -> & Wa & Wm & Wk & Wb & -> & -> & ->).
  assert (Wam : W (a ++ m)) by now apply w_app. assert (Wmk : W (m ++ k)) by now apply w_app. assert (Wkb : W (k ++ b)) by now apply w_app.
  assert (E1 : spec_delete brk (a ++ m ++ k ++ b) (end_from brk (Pos 0 0) a) (end_from brk (end_from brk (end_from brk (Pos 0 0) a) m) k) = a ++ b).
  { rewrite <- !end_app by assumption. replace ((a ++ m) ++ k) with (a ++ m ++ k) by now rewrite app_assoc.
    replace (a ++ m ++ k ++ b) with (a ++ (m ++ k) ++ b) by now rewrite <- app_assoc. now apply do_delete. }
  split; (apply agree_text; [assumption|ins|ins|]); cbn [spec_calls spec_call snd]; rewrite E1.
  - rewrite <- !end_app by assumption. replace (a ++ m ++ k ++ b) with ((a ++ m) ++ k ++ b) by now rewrite <- app_assoc.
    rewrite do_delete by assumption. rewrite <- app_assoc. now rewrite do_delete.
  - rewrite pulled_end. rewrite <- !end_app by assumption. rewrite (do_delete a m (k ++ b)) by assumption. now rewrite do_delete.
Qed.

Theorem deletes_commute : forall s p q r u, W s -> exists_at brk s p = true -> exists_at brk s q = true ->
  exists_at brk s r = true -> exists_at brk s u = true -> lex_le p q -> lex_le q r -> lex_le r u ->
  agree brk s [GDelete r u; GDelete p q] [GDelete p q; GDelete (pulled p q r) (pulled p q u)].
Proof.
  intros s p q r u Hs Hp Hq Hr Hu H1 H2 H3.
  destruct (pieces3 s q r u Hs Hq Hr Hu H2 H3) as (a1 & k & n & b & Es & Wa1 & Wk & Wn & Wb & Eq & Er & Eu).
  destruct (pieces s p q Hs Hp Hq H1) as (a & m & b1 & Es1 & Wa & Wm & Wb1 & Ep & Eq1).
  assert (Wam : W (a ++ m)) by now apply w_app. assert (Wnb : W (n ++ b)) by now apply w_app. assert (Wkn : W (k ++ n)) by now apply w_app.
  assert (Wknb : W (k ++ n ++ b)) by now apply w_app. assert (Wkb : W (k ++ b)) by now apply w_app. assert (Wak : W (a ++ k)) by now apply w_app.
  assert (X : split_at brk s q = Some (a1, k ++ n ++ b)) by (rewrite Es, Eq; now apply split_end).
  assert (X1 : split_at brk s q = Some (a ++ m, b1)).
  { rewrite Es1, Eq1, Ep, app_assoc, <- end_app by assumption. now apply split_end. }
  rewrite X in X1. injection X1 as -> <-. subst s u r. rewrite Eq1. clear X.
  assert (Eu : end_from brk (end_from brk q k) n = end_from brk q (k ++ n)) by now rewrite end_app.
  rewrite <- Eq1, Eu. apply agree_text; [exact Hs|ins|ins|]. cbn [spec_calls spec_call snd].
  rewrite Eq1, !pulled_end, Ep.
  rewrite <- (end_app _ a m), <- (end_app _ (a ++ m) k), <- (end_app _ (a ++ m) (k ++ n)), <- (end_app _ a k), <- (end_app _ a (k ++ n)) by assumption.
  rewrite (app_assoc (a ++ m) k n).
  replace ((a ++ m) ++ k ++ n ++ b) with (((a ++ m) ++ k) ++ n ++ b) by now rewrite <- !app_assoc.
  assert (Wamk : W ((a ++ m) ++ k)) by now apply w_app.
  rewrite (do_delete ((a ++ m) ++ k) n b) by assumption.
  replace (((a ++ m) ++ k) ++ b) with (a ++ m ++ k ++ b) by now rewrite <- !app_assoc.
  replace (((a ++ m) ++ k) ++ n ++ b) with (a ++ m ++ k ++ n ++ b) by now rewrite <- !app_assoc.
  rewrite !(do_delete a m) by assumption. rewrite (app_assoc a k n).
  replace (a ++ k ++ n ++ b) with ((a ++ k) ++ n ++ b) by now rewrite <- !app_assoc.
  rewrite do_delete by assumption. now rewrite <- app_assoc.
Qed.

(** What is elsewhere stays. *)
Theorem insert_elsewhere : forall s p q r d x, W s -> W d -> exists_at brk s p = true -> exists_at brk s q = true ->
  exists_at brk s r = true -> lex_le q r -> spec_read brk s q r = Some x ->
  (lex_le r p -> returns brk s [GInsert d p; GRead q r] [OUnit; ORead (Some x)]) /\
  (lex_le p q -> returns brk s [GInsert d p; GRead (shifted brk p d q) (shifted brk p d r)] [OUnit; ORead (Some x)]).
Proof.
  intros s p q r d x Hs Hd Hp Hq Hr Hqr Hx. split; intros Hl.
  - destruct (pieces3 s q r p Hs Hq Hr Hp Hqr Hl) as (a & m & k & b & -> & Wa & Wm & Wk & Wb & -> & -> & ->).
    assert (Wam : W (a ++ m)) by now apply w_app. assert (Wkb : W (k ++ b)) by now apply w_app. assert (Wdb : W (d ++ b)) by now apply w_app.
    assert (Wamk : W ((a ++ m) ++ k)) by now apply w_app. assert (Wkdb : W (k ++ d ++ b)) by now apply w_app.
    apply returns_text; [assumption|ins|]. rewrite <- (end_app _ a m) in * by assumption. rewrite <- (end_app _ (a ++ m) k) by assumption.
    rewrite do_read in Hx by assumption. injection Hx as <-.
    cbn [spec_calls spec_call fst snd]. replace (a ++ m ++ k ++ b) with (((a ++ m) ++ k) ++ b) by now rewrite <- !app_assoc.
    rewrite do_insert by assumption. replace (((a ++ m) ++ k) ++ d ++ b) with (a ++ m ++ k ++ d ++ b) by now rewrite <- !app_assoc.
    now rewrite do_read.
  - destruct (pieces3 s p q r Hs Hp Hq Hr Hl Hqr) as (a & m & k & b & -> & Wa & Wm & Wk & Wb & -> & -> & ->).
    assert (Wam : W (a ++ m)) by now apply w_app. assert (Wkb : W (k ++ b)) by now apply w_app. assert (Wmk : W (m ++ k)) by now apply w_app.
    assert (Wmkb : W (m ++ k ++ b)) by now apply w_app. assert (Wad : W (a ++ d)) by now apply w_app. assert (Wadm : W ((a ++ d) ++ m)) by now apply w_app.
    apply returns_text; [assumption|ins|]. cbn [spec_calls spec_call fst snd].
    replace (end_from brk (end_from brk (end_from brk (Pos 0 0) a) m) k) with (end_from brk (end_from brk (Pos 0 0) a) (m ++ k)) by (now rewrite end_app).
    rewrite !shifted_end. rewrite do_insert by assumption.
    rewrite <- (end_app _ a d), <- (end_app _ (a ++ d) m), <- (end_app _ (a ++ d) (m ++ k)) by assumption. rewrite (app_assoc (a ++ d) m k).
    replace (a ++ d ++ m ++ k ++ b) with (((a ++ d) ++ m) ++ k ++ b) by now rewrite <- !app_assoc. rewrite do_read by assumption.
    rewrite <- (end_app _ a m), <- (end_app _ (a ++ m) k) in Hx by assumption. replace (a ++ m ++ k ++ b) with ((a ++ m) ++ k ++ b) in Hx by now rewrite <- !app_assoc.
    rewrite do_read in Hx by assumption. now injection Hx as <-.
Qed.

Theorem delete_elsewhere : forall s p q r u x, W s -> exists_at brk s p = true -> exists_at brk s q = true ->
  exists_at brk s r = true -> exists_at brk s u = true -> lex_le p q -> lex_le r u -> spec_read brk s r u = Some x ->
  (lex_le u p -> returns brk s [GDelete p q; GRead r u] [OUnit; ORead (Some x)]) /\
  (lex_le q r -> returns brk s [GDelete p q; GRead (pulled p q r) (pulled p q u)] [OUnit; ORead (Some x)]).
Proof.
  intros s p q r u x Hs Hp Hq Hr Hu H1 H3 Hx. split; intros H2.
  - destruct (pieces3 s u p q Hs Hu Hp Hq H2 H1) as (a1 & k & n & b & Es & Wa1 & Wk & Wn & Wb & Eq & Er & Eu).
    destruct (pieces s r u Hs Hr Hu H3) as (a & m & b1 & Es1 & Wa & Wm & Wb1 & Ep & Eq1).
    assert (Wam : W (a ++ m)) by now apply w_app. assert (Wnb : W (n ++ b)) by now apply w_app.
    assert (Wknb : W (k ++ n ++ b)) by now apply w_app. assert (Wkb : W (k ++ b)) by now apply w_app.
    assert (X : split_at brk s u = Some (a1, k ++ n ++ b)) by (rewrite Es, Eq; now apply split_end).
    assert (X1 : split_at brk s u = Some (a ++ m, b1)).
    { rewrite Es1, Eq1, Ep, app_assoc, <- end_app by assumption. now apply split_end. }
    rewrite X in X1. injection X1 as -> <-. assert (Wamk : W ((a ++ m) ++ k)) by now apply w_app.
    apply returns_text; [assumption|ins|]. cbn [spec_calls spec_call fst snd].
    rewrite Es1 in Hx. rewrite Eq1, Ep in Hx. rewrite <- end_app in Hx by assumption. rewrite do_read in Hx by assumption. injection Hx as <-.
    rewrite Es, Eu, Er, Eq, Ep. rewrite <- (end_app _ (a ++ m) k) by assumption. rewrite <- (end_app _ ((a ++ m) ++ k) n) by assumption.
    replace ((a ++ m) ++ k ++ n ++ b) with (((a ++ m) ++ k) ++ n ++ b) by now rewrite <- !app_assoc.
    rewrite do_delete by assumption. replace (((a ++ m) ++ k) ++ b) with (a ++ m ++ k ++ b) by now rewrite <- !app_assoc.
    now rewrite do_read.
  - destruct (pieces3 s q r u Hs Hq Hr Hu H2 H3) as (a1 & k & n & b & Es & Wa1 & Wk & Wn & Wb & Eq & Er & Eu).
    destruct (pieces s p q Hs Hp Hq H1) as (a & m & b1 & Es1 & Wa & Wm & Wb1 & Ep & Eq1).
    assert (Wam : W (a ++ m)) by now apply w_app. assert (Wnb : W (n ++ b)) by now apply w_app. assert (Wkn : W (k ++ n)) by now apply w_app.
    assert (Wknb : W (k ++ n ++ b)) by now apply w_app. assert (Wak : W (a ++ k)) by now apply w_app.
    assert (X : split_at brk s q = Some (a1, k ++ n ++ b)) by (rewrite Es, Eq; now apply split_end).
    assert (X1 : split_at brk s q = Some (a ++ m, b1)).
    { rewrite Es1, Eq1, Ep, app_assoc, <- end_app by assumption. now apply split_end. }
    rewrite X in X1. injection X1 as -> <-. assert (Wamk : W ((a ++ m) ++ k)) by now apply w_app.
    apply returns_text; [assumption|ins|]. cbn [spec_calls spec_call fst snd].
    assert (Hu' : u = end_from brk q (k ++ n)) by (rewrite end_app by assumption; congruence).
    rewrite Hu', Er, Eq1, !pulled_end, Ep, Es.
    rewrite <- (end_app _ a m), <- (end_app _ a k), <- (end_app _ a (k ++ n)) by assumption. rewrite (app_assoc a k n).
    replace ((a ++ m) ++ k ++ n ++ b) with (a ++ m ++ k ++ n ++ b) by now rewrite <- !app_assoc.
    rewrite do_delete by assumption. replace (a ++ k ++ n ++ b) with ((a ++ k) ++ n ++ b) by now rewrite <- !app_assoc.
    rewrite do_read by assumption.
    rewrite Es, Eu, Er, Eq in Hx. rewrite <- (end_app _ (a ++ m) k) in Hx by assumption. rewrite <- (end_app _ ((a ++ m) ++ k) n) in Hx by assumption.
    replace ((a ++ m) ++ k ++ n ++ b) with (((a ++ m) ++ k) ++ n ++ b) in Hx by now rewrite <- !app_assoc.
    rewrite do_read in Hx by assumption. now injection Hx as <-.
Qed.

(** The same, said with calls only. *)
Lemma plain_alloc : alloc_ok (fun _ n => repeat 0%N n).
Proof. intros l n. now rewrite repeat_length. Qed.
Lemma returned s c o : W s -> inserts W c -> returns brk s [c] [o] -> fst (spec_call brk c s) = o.
Proof.
  intros Hs Hc R. assert (HF : Forall (fun ac => alloc_ok (fst ac)) [(fun _ n => repeat 0%N n, c)]).
  { constructor; [exact plain_alloc|constructor]. }
  destruct (R (fun _ n => repeat 0%N n) [(fun _ n => repeat 0%N n, c)] eq_refl HF) as (g & E).
  destruct (run_text s [(fun _ n => repeat 0%N n, c)] Hs ltac:(cbn; ins) HF (fun _ n => repeat 0%N n)) as (g' & E' & _).
  rewrite E in E'. cbn [map snd spec_calls] in E'. destruct (spec_call brk c s) as [o' t']. cbn [fst snd] in *. injection E' as <- _. reflexivity.
Qed.
Lemma present_at s p : W s -> returns brk s [GInBounds p] [OBool true] -> exists_at brk s p = true.
Proof. intros Hs R. apply returned in R; [|assumption|exact I]. cbn in R. congruence. Qed.
Lemma read_at s p q x : W s -> returns brk s [GRead p q] [ORead (Some x)] -> spec_read brk s p q = Some x.
Proof. intros Hs R. apply returned in R; [|assumption|exact I]. cbn in R. congruence. Qed.

Theorem law_inserts : forall s p d e, W s -> W d -> W e -> returns brk s [GInBounds p] [OBool true] ->
  agree brk s [GInsert d p; GInsert e (text_end brk p d)] [GInsert (d ++ e) p] /\
  agree brk s [GInsert d p; GDelete p (text_end brk p d)] [] /\
  returns brk s [GInsert d p; GRead p (text_end brk p d)] [OUnit; ORead (Some d)].
Proof.
  intros s p d e Hs Hd He Hp. apply present_at in Hp; [|assumption]. split; [now apply inserts_join|]. split; [now apply insert_delete|].
  destruct (piece s p Hs Hp) as (a & b & -> & Wa & Wb & ->).
  apply returns_text; [assumption|ins|]. cbn [spec_calls spec_call fst snd]. rewrite text_end_from, <- end_app by assumption.
  rewrite (do_insert a b d) by assumption. now rewrite do_read.
Qed.
Theorem law_cut_paste : forall s p q u, W s -> lex_le p q -> returns brk s [GRead p q] [ORead (Some u)] ->
  agree brk s [GDelete p q; GInsert u p] [].
Proof.
  intros s p q u Hs Hl Hr. apply read_at in Hr; [|assumption].
  assert (X : exists_at brk s p = true /\ exists_at brk s q = true).
  { assert (F : first_of p q = p /\ second_of p q = q).
    { apply first_of_le. destruct Hl as [->|Hl]; [now left|now right]. }
    destruct F as [F1 F2]. unfold spec_read in Hr. rewrite F1, F2 in Hr. unfold exists_at.
    destruct (split_at brk s p) as [[? ?]|]; [|discriminate]. destruct (split_at brk s q) as [[? ?]|]; [now split|discriminate]. }
  now apply (cut_paste s p q u Hs).
Qed.
Theorem law_commute : forall s p q d e, W s -> W d -> W e -> returns brk s [GInBounds p] [OBool true] ->
  returns brk s [GInBounds q] [OBool true] -> lex_le p q ->
  agree brk s [GInsert e q; GInsert d p] [GInsert d p; GInsert e (shifted brk p d q)].
Proof. intros s p q d e Hs Hd He Hp Hq Hl. apply present_at in Hp, Hq; try assumption. now apply inserts_commute. Qed.
Theorem law_deletes : forall s p q r, W s -> returns brk s [GInBounds p] [OBool true] ->
  returns brk s [GInBounds q] [OBool true] -> returns brk s [GInBounds r] [OBool true] -> lex_le p q -> lex_le q r ->
  agree brk s [GDelete q r; GDelete p q] [GDelete p r] /\ agree brk s [GDelete p q; GDelete p (pulled p q r)] [GDelete p r].
Proof. intros s p q r Hs Hp Hq Hr. apply present_at in Hp, Hq, Hr; try assumption. now apply deletes_join. Qed.
Theorem law_deletes_commute : forall s p q r u, W s -> returns brk s [GInBounds p] [OBool true] ->
  returns brk s [GInBounds q] [OBool true] -> returns brk s [GInBounds r] [OBool true] ->
  returns brk s [GInBounds u] [OBool true] -> lex_le p q -> lex_le q r -> lex_le r u ->
  agree brk s [GDelete r u; GDelete p q] [GDelete p q; GDelete (pulled p q r) (pulled p q u)].
Proof. intros s p q r u Hs Hp Hq Hr Hu. apply present_at in Hp, Hq, Hr, Hu; try assumption. now apply deletes_commute. Qed.
Theorem law_mixed : forall s p q r d, W s -> W d -> returns brk s [GInBounds p] [OBool true] ->
  returns brk s [GInBounds q] [OBool true] -> returns brk s [GInBounds r] [OBool true] -> lex_le p q -> lex_le q r ->
  agree brk s [GDelete q r; GInsert d p] [GInsert d p; GDelete (shifted brk p d q) (shifted brk p d r)] /\
  agree brk s [GInsert d r; GDelete p q] [GDelete p q; GInsert d (pulled p q r)].
Proof.
  intros s p q r d Hs Hd Hp Hq Hr H1 H2. apply present_at in Hp, Hq, Hr; try assumption.
  destruct (pieces3 s p q r Hs Hp Hq Hr H1 H2) as (a & m & k & b & -> & Wa & Wm & Wk & Wb & -> & -> & ->).
  assert (Wam : W (a ++ m)) by now apply w_app. assert (Wkb : W (k ++ b)) by now apply w_app. assert (Wmk : W (m ++ k)) by now apply w_app.
  assert (Wmkb : W (m ++ k ++ b)) by now apply w_app. assert (Wad : W (a ++ d)) by now apply w_app. assert (Wmb : W (m ++ b)) by now apply w_app.
  assert (Wadm : W ((a ++ d) ++ m)) by now apply w_app. assert (Wamk : W ((a ++ m) ++ k)) by now apply w_app.
  assert (Wak : W (a ++ k)) by now apply w_app. assert (Wkdb : W (k ++ d ++ b)) by (apply w_app; [assumption|now apply w_app]).
  split; (apply agree_text; [assumption|ins|ins|]); cbn [spec_calls spec_call snd].
  - replace (end_from brk (end_from brk (end_from brk (Pos 0 0) a) m) k) with (end_from brk (end_from brk (Pos 0 0) a) (m ++ k)) by (now rewrite end_app).
    rewrite !shifted_end. rewrite (do_insert a (m ++ k ++ b) d) by assumption.
    rewrite <- (end_app _ a d), <- (end_app _ (a ++ d) m), <- (end_app _ (a ++ d) (m ++ k)), <- (end_app _ a m), <- (end_app _ a (m ++ k)) by assumption.
    rewrite (app_assoc (a ++ d) m k), (app_assoc a m k).
    replace (a ++ d ++ m ++ k ++ b) with (((a ++ d) ++ m) ++ k ++ b) by now rewrite <- !app_assoc. rewrite do_delete by assumption.
    replace (a ++ m ++ k ++ b) with ((a ++ m) ++ k ++ b) by now rewrite <- !app_assoc. rewrite do_delete by assumption.
    replace ((a ++ m) ++ b) with (a ++ m ++ b) by now rewrite <- !app_assoc. rewrite do_insert by assumption. now rewrite <- !app_assoc.
  - rewrite pulled_end. rewrite <- (end_app _ a m), <- (end_app _ (a ++ m) k), <- (end_app _ a k) by assumption.
    rewrite (do_delete a m (k ++ b)) by assumption.
    replace (a ++ k ++ b) with ((a ++ k) ++ b) by now rewrite <- !app_assoc. rewrite do_insert by assumption.
    replace (a ++ m ++ k ++ b) with (((a ++ m) ++ k) ++ b) by now rewrite <- !app_assoc. rewrite do_insert by assumption.
    replace (((a ++ m) ++ k) ++ d ++ b) with (a ++ m ++ k ++ d ++ b) by now rewrite <- !app_assoc. rewrite do_delete by assumption. now rewrite <- !app_assoc.
Qed.
Lemma read_present s p q x : W s -> lex_le p q -> spec_read brk s p q = Some x -> exists_at brk s p = true /\ exists_at brk s q = true.
Proof.
  intros Hs Hl Hr. assert (F : first_of p q = p /\ second_of p q = q).
  { apply first_of_le. destruct Hl as [->|Hl]; [now left|now right]. }
  destruct F as [F1 F2]. unfold spec_read in Hr. rewrite F1, F2 in Hr. unfold exists_at.
  destruct (split_at brk s p) as [[? ?]|]; [|discriminate]. destruct (split_at brk s q) as [[? ?]|]; [now split|discriminate].
Qed.
Theorem law_insert_elsewhere : forall s p q r d x, W s -> W d -> returns brk s [GInBounds p] [OBool true] ->
  lex_le q r -> returns brk s [GRead q r] [ORead (Some x)] ->
  (lex_le r p -> returns brk s [GInsert d p; GRead q r] [OUnit; ORead (Some x)]) /\
  (lex_le p q -> returns brk s [GInsert d p; GRead (shifted brk p d q) (shifted brk p d r)] [OUnit; ORead (Some x)]).
Proof.
  intros s p q r d x Hs Hd Hp Hl Hx. apply present_at in Hp; [|assumption]. apply read_at in Hx; [|assumption].
  destruct (read_present s q r x Hs Hl Hx) as [Hq Hr]. now apply insert_elsewhere.
Qed.
Theorem law_delete_elsewhere : forall s p q r u x, W s -> returns brk s [GInBounds p] [OBool true] ->
  returns brk s [GInBounds q] [OBool true] -> lex_le p q -> lex_le r u -> returns brk s [GRead r u] [ORead (Some x)] ->
  (lex_le u p -> returns brk s [GDelete p q; GRead r u] [OUnit; ORead (Some x)]) /\
  (lex_le q r -> returns brk s [GDelete p q; GRead (pulled p q r) (pulled p q u)] [OUnit; ORead (Some x)]).
Proof.
  intros s p q r u x Hs Hp Hq Hl Hl' Hx. apply present_at in Hp, Hq; try assumption. apply read_at in Hx; [|assumption].
  destruct (read_present s r u x Hs Hl' Hx) as [Hr Hu]. now apply delete_elsewhere.
Qed.

End Laws.
