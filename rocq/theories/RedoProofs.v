(** Redo in an open group, on other lines. *)
From Verif Require Import Base Utf8 Utf8Proofs Grapheme GraphemeProofs UnicodeTable Position GapBuffer
  GapBufferProofs Cursor PathModel Buffer Spec ClusterSpec CursorSpec CursorCalls Calls TextProofs HalvesProofs TextFacts GapProps
  CursorProofs UaxProofs OpProofs BufferCalls AnyTextProofs SearchProofs Witness MarkSpec MarkProofs Editor MarkEditor
  MarkEditorProofs EveryTextProofs LawSpec LawProofs RedoSpec.

Section Simple.
Variable cls : char -> gcb.
Hypothesis HL : cls LF = GC_LF.
Let brk := uax29 cls.
Let W := words (simple_cluster cls).
Let HI := simple_indep cls.
Let HN := simple_newline_family cls HL.

Lemma w_nil : W [].
Proof. exists []. now split. Qed.

Definition aligned (m : marked) : Prop := W (ahead m) /\ W (behind m).
Lemma aligned_whole m : aligned m -> W (whole m).
Proof. intros [H1 H2]. now apply w_app. Qed.
Lemma locate_aligned m p : aligned m -> locate brk m p = split_at brk (whole m) p.
Proof.
  intros A. pose proof (aligned_whole m A) as Hw. destruct A as [H1 H2].
  rewrite locate_hsplit. unfold whole in *. rewrite gsplit_split_at by now apply w_plain.
  pose proof (w_seam cls (ahead m) (behind m) H1 H2) as S. unfold seam in S. fold brk in S. unfold hsplit, hgs. now rewrite <- S.
Qed.
Lemma located m p a b : aligned m -> locate brk m p = Some (a, b) -> whole m = a ++ b /\ W a /\ W b.
Proof.
  intros A E. rewrite locate_aligned in E by assumption. pose proof (aligned_whole m A) as Hw.
  split; [|exact (words_split_at brk _ _ p a b HI HN Hw E)].
  now destruct (split_at_inv brk _ p a b (w_plain cls HL _ Hw) E) as (_ & _ & _ & _ & Es).
Qed.

Lemma has_aligned m p : aligned m -> has brk m p = exists_at brk (whole m) p.
Proof. intros A. unfold has, exists_at. now rewrite locate_aligned. Qed.
Lemma room_aligned al d m : aligned m -> aligned (make_room al d m) /\ whole (make_room al d m) = whole m.
Proof.
  intros A. unfold make_room. destruct (_ <? _); [|now split]. split; [split; [now apply aligned_whole|exact w_nil]|].
  unfold whole. cbn. now rewrite app_nil_r.
Qed.
Lemma insert_aligned al d p m : aligned m -> W d ->
  aligned (m_insert brk al d p m) /\ whole (m_insert brk al d p m) = spec_insert brk (whole m) d p.
Proof.
  intros A Hd. destruct (room_aligned al d m A) as [A' E]. unfold m_insert, spec_insert. rewrite <- E.
  rewrite <- locate_aligned by assumption. destruct (locate brk _ p) as [[a b]|] eqn:El; [|now split].
  destruct (located _ _ _ _ A' El) as (Ew & Wa & Wb). split; [split; [now apply w_app|assumption]|].
  unfold whole. cbn. now rewrite <- app_assoc.
Qed.
Lemma delete_aligned p q m : aligned m ->
  aligned (m_delete brk p q m) /\ whole (m_delete brk p q m) = spec_delete brk (whole m) p q.
Proof.
  intros A. unfold m_delete, spec_delete, spec_cut. rewrite <- !(locate_aligned m) by assumption.
  destruct (locate brk m (first_of p q)) as [[a b]|] eqn:El; [|now split].
  destruct (located _ _ _ _ A El) as (Ew & Wa & Wb).
  assert (A1 : aligned (Marked a b (room m))) by now split.
  assert (E1 : forall x, locate brk (Marked a b (room m)) x = locate brk m x).
  { intros x. rewrite !locate_aligned by assumption. now rewrite Ew. }
  rewrite !E1. destruct (locate brk m (second_of p q)) as [[a1 b1]|] eqn:E2.
  - destruct (located _ _ _ _ A E2) as (_ & _ & Wb1). now split; [split|].
  - destruct (locate brk m (Pos (line (second_of p q) + 1) 0)) as [[a1 b1]|] eqn:E3.
    + destruct (located _ _ _ _ A E3) as (_ & _ & Wb1). now split; [split|].
    + split; [split; [assumption|exact w_nil]|reflexivity].
Qed.
Lemma read_aligned p q m : aligned m -> m_read brk p q m = spec_read brk (whole m) p q.
Proof. intros A. unfold m_read, spec_read. now rewrite !locate_aligned. Qed.
Lemma read_simple p q t s : W t -> spec_read brk t p q = Some s -> W s.
Proof.
  intros Ht E. assert (X : exists x y, lex_le x y /\ spec_read brk t x y = Some s).
  { exists (first_of p q), (second_of p q).
    assert (O : lex_le (first_of p q) (second_of p q)).
    { unfold first_of, second_of. destruct (before q p) eqn:B.
      - right. now apply before_plt in B.
      - destruct (ple_total p q) as [H|H]; [exact H|]. right. exfalso. apply before_plt in H. congruence. }
    split; [exact O|]. unfold spec_read. destruct (first_of_le (first_of p q) (second_of p q) O) as [-> ->]. exact E. }
  clear E p q. destruct X as (p & q & Hl & E). destruct (read_present cls t p q s Ht Hl E) as [Hp Hq].
  destruct (pieces cls HL t p q Ht Hp Hq Hl) as (a & m & b & -> & Wa & Wm & Wb & -> & ->).
  rewrite <- (end_app cls HL) in E by assumption. unfold brk in E. rewrite (do_read cls HL) in E by assumption. now injection E as <-.
Qed.

(** ** Every history of simple texts *)

Definition sedit (x : edit) : Prop :=
  match x with
  | Put d _ => W d
  | Cut _ _ (Some s) => W s
  | Cut _ _ None => True
  | Swap o n => W o /\ W n
  end.
Record sinv (e : meditor) : Prop := SInv {
  si_text : aligned (me_text e);
  si_past : Forall (Forall sedit) (me_past e);
  si_future : Forall (Forall sedit) (me_future e);
  si_group : match me_group e with Some xs => Forall sedit xs | None => True end }.

Lemma new_aligned al s : W s -> aligned (m_new al s).
Proof. intros H. split; [exact H|exact w_nil]. Qed.
Lemma make_aligned al d x : aligned (d_text d) -> sedit x -> aligned (d_text (make brk al d x)).
Proof.
  intros A Hx. destruct x as [s p|p q w|o n]; cbn [make d_text swapped].
  - now apply insert_aligned.
  - now apply delete_aligned.
  - now apply new_aligned, Hx.
Qed.
Lemma take_aligned al x d : aligned (d_text d) -> sedit x -> aligned (d_text (take brk al x d)).
Proof.
  intros A Hx. destruct x as [s p|p q [w|]|o n]; cbn [take d_text swapped].
  - now apply delete_aligned.
  - now apply insert_aligned.
  - exact A.
  - now apply new_aligned, Hx.
Qed.
Lemma makes_aligned al xs : forall d, aligned (d_text d) -> Forall sedit xs -> aligned (d_text (fold_left (make brk al) xs d)).
Proof.
  induction xs as [|x xs IH]; intros d A H; [exact A|]. inversion_clear H. cbn [fold_left]. apply IH; [|assumption].
  now apply make_aligned.
Qed.
Lemma takes_aligned al xs d : aligned (d_text d) -> Forall sedit xs -> aligned (d_text (fold_right (take brk al) d xs)).
Proof.
  intros A H. induction H as [|x xs Hx H IH]; [exact A|]. cbn [fold_right]. now apply take_aligned.
Qed.

Lemma edit_sinv al e x : sinv e -> sedit x -> sinv (m_edit brk al e x).
Proof.
  intros [A P F G] Hx. unfold m_edit. pose proof (make_aligned al (on_desk e) x A Hx) as A1.
  destruct (me_group e) as [xs|] eqn:Eg; split; cbn; try assumption; try exact I.
  - apply Forall_app. split; [assumption|]. now constructor.
  - constructor; [|assumption]. now constructor.
  - constructor.
Qed.
Lemma cut_sinv al e p q : sinv e -> sinv (m_cut brk al e p q).
Proof.
  intros S. apply edit_sinv; [assumption|]. cbn. rewrite read_aligned by apply S.
  destruct (spec_read brk _ p q) as [s|] eqn:E; [|exact I]. eapply read_simple; [|exact E]. now apply aligned_whole, S.
Qed.
Lemma call_sinv al c e : sinv e -> simple_input cls c -> sinv (snd (me_call brk al c e)).
Proof.
  intros S Hc. pose proof S as [A P F G]. destruct c; cbn [me_call snd].
  - now apply edit_sinv.
  - now apply cut_sinv.
  - now apply cut_sinv.
  - unfold m_swap. destruct (list_eq_dec _ _ _); [assumption|]. apply edit_sinv; [assumption|]. split; [now apply aligned_whole|exact Hc].
  - unfold m_undo. destruct (me_group e) as [[|x xs]|] eqn:Eg; [|split; cbn; try assumption; try exact I; now apply (takes_aligned al (x :: xs) (on_desk e))|].
    all: destruct (me_past e) as [|s past] eqn:Ep; [split; cbn; try assumption; try exact I; constructor|].
    all: inversion_clear P as [|? ? P1 P2]; split; cbn; try assumption; try exact I; [now apply takes_aligned|now constructor].
  - unfold m_redo. destruct (me_future e) as [|s future] eqn:Ef; [exact S|]. inversion_clear F as [|? ? F1 F2].
    split; cbn; try assumption; [now apply makes_aligned|now constructor].
  - split; cbn; try assumption. destruct (me_group e); [assumption|constructor].
  - destruct (me_group e) as [[|x xs]|] eqn:Eg; split; cbn; try assumption; try exact I; constructor; assumption.
  - split; cbn; assumption.
  - split; cbn; assumption.
  - destruct (me_path e); [|exact S]. destruct (outcome _ _ _); cbn [snd]; [exact S| |]; split; cbn; assumption.
  - contradiction.
  - split; cbn; assumption.
  - split; cbn; assumption.
  - split; cbn; assumption.
  - split; cbn; assumption.
  - split; cbn; assumption.
Qed.
Lemma simple_call_ok c : simple_input cls c -> call_ok c.
Proof. destruct c; cbn; try easy; intros H; eapply words_valid; [exact HN|exact H|exact HN|exact H]. Qed.
Lemma simple_calls_ok cs : Forall (fun ac : allocator * bcall => alloc_ok (fst ac) /\ simple_input cls (snd ac)) cs ->
  Forall (fun ac => alloc_ok (fst ac) /\ call_ok (snd ac)) cs.
Proof. intros H. eapply Forall_impl; [|exact H]. intros ac [H1 H2]. split; [exact H1|now apply simple_call_ok]. Qed.
Lemma calls_sinv cs : forall e, sinv e -> Forall (fun ac => alloc_ok (fst ac) /\ simple_input cls (snd ac)) cs ->
  sinv (snd (me_calls brk cs e)).
Proof.
  induction cs as [|[al c] cs IH]; intros e S H; [exact S|]. inversion_clear H as [|? ? [_ Hc] H']. cbn [fst snd] in *.
  cbn [me_calls]. pose proof (call_sinv al c e S Hc) as S1. destruct (me_call brk al c e) as [o e1]. cbn [snd] in S1.
  specialize (IH e1 S1 H'). now destruct (me_calls brk cs e1).
Qed.
Lemma history_sim b f : simple_history cls b f -> exists e, sim b e /\ sinv e /\ me_disk e = f.
Proof.
  intros (b0 & f0 & t0 & cs & os & Fr & E0 & H0 & Hcs & E). destruct (fresh_start f0 b0 Fr) as (e & St & Ed).
  pose proof (start_sim _ _ St) as S0.
  assert (I0 : sinv e).
  { pose proof (sim_whole _ _ S0) as Ew. rewrite Ew in E0. injection E0 as E0.
    destruct St as [(al & f1 & _ & ->)|(al & f1 & p & cp & t & _ & _ & _ & ->)]; split; cbn; try constructor; try exact w_nil; cbn.
    unfold whole in E0. cbn in E0. rewrite app_nil_r in E0. now subst t0. }
  subst f0. destruct (calls_sim brk cs (uax29_order_safe cls HL) b0 e S0 (simple_calls_ok cs Hcs)) as (b' & E' & S').
  unfold brk in E'. rewrite E in E'. injection E' as _ <- ->. exists (snd (me_calls brk cs e)). split; [exact S'|]. split; [|reflexivity].
  now apply calls_sinv.
Qed.

(** After any history of simple texts the answers are those of the text. *)
Lemma simple_answers b f : simple_history cls b f -> exists t, buf_data b = Ok t /\ W t /\
  (forall p q, buf_read brk b (range_new p q) = Ok (spec_read brk t p q)) /\
  (forall p, in_bounds brk (b_data b) p = Ok (exists_at brk t p)).
Proof.
  intros H. destruct (history_sim b f H) as (e & S & I & _). pose proof (sim_shows brk b e S) as Sh. pose proof (si_text e I) as A.
  exists (whole (me_text e)). split; [apply Sh|]. split; [now apply aligned_whole|]. split.
  - intros p q. rewrite (shows_read _ _ _ Sh). now rewrite read_aligned.
  - intros p. rewrite (shows_in_bounds _ _ _ Sh). now rewrite has_aligned.
Qed.

(** ** Edits within lines *)

Definition upd (l : nat) (y : text) (ls : list text) : list text := firstn l ls ++ y :: skipn (S l) ls.
Lemma nth_split_at (ls : list text) l x : nth_error ls l = Some x -> ls = firstn l ls ++ x :: skipn (S l) ls /\ length (firstn l ls) = l.
Proof.
  intros E. split.
  - revert l E. induction ls as [|y ls IH]; intros [|l] E; try discriminate.
    + now injection E as ->.
    + cbn [firstn skipn app]. f_equal. now apply IH.
  - apply firstn_length_le. apply Nat.lt_le_incl, nth_error_Some. congruence.
Qed.
Lemma nth_error_ext {T} (a b : list T) : (forall n, nth_error a n = nth_error b n) -> a = b.
Proof.
  revert b. induction a as [|x a IH]; intros [|y b] H; [reflexivity|discriminate (H 0)|discriminate (H 0)|].
  pose proof (H 0) as H0. injection H0 as ->. f_equal. apply IH. intros n. exact (H (S n)).
Qed.
Lemma upd_app A x y B : upd (length A) y (A ++ x :: B) = A ++ y :: B.
Proof.
  unfold upd. rewrite firstn_app, Nat.sub_diag, firstn_all, app_nil_r. f_equal. f_equal.
  rewrite skipn_app, skipn_all2 by lia. replace (S (length A) - length A) with 1 by lia. reflexivity.
Qed.
Lemma nth_upd l x y ls k : nth_error ls l = Some x -> nth_error (upd l y ls) k = if k =? l then Some y else nth_error ls k.
Proof.
  intros E. destruct (nth_split_at ls l x E) as [E1 E2]. set (A := firstn l ls) in *. set (B := skipn (S l) ls) in *.
  unfold upd. fold A B. rewrite E1 at 1. clearbody A B. subst l. destruct (Nat.eqb_spec k (length A)) as [->|N].
  - rewrite nth_error_app2, Nat.sub_diag by lia. reflexivity.
  - destruct (Nat.lt_ge_cases k (length A)).
    + now rewrite !nth_error_app1.
    + rewrite !nth_error_app2 by lia. now destruct (k - length A) as [|n] eqn:X; [lia|].
Qed.

(** The text before a line, and behind it. *)
Definition above (A : list text) : text := concat (map (fun l => l ++ [LF]) A).
Definition below (B : list text) : text := match B with [] => [] | _ => LF :: join B end.
Lemma join_app A x B : join (A ++ x :: B) = above A ++ x ++ below B.
Proof.
  induction A as [|a A IH].
  - cbn. destruct B; cbn; [now rewrite app_nil_r|reflexivity].
  - change ((a :: A) ++ x :: B) with (a :: (A ++ x :: B)). unfold above in *. cbn [map concat]. rewrite <- !app_assoc. cbn [app].
    rewrite <- IH. destruct (A ++ x :: B) eqn:E; [now destruct A|reflexivity].
Qed.
Lemma w_lf : W [LF].
Proof. exists [[LF]]. split; [|reflexivity]. constructor; [|constructor]. apply sc_solo; [reflexivity|]. now rewrite HL. Qed.
Lemma w_above A : Forall W A -> W (above A).
Proof.
  intros H. unfold above. induction H; cbn; [exact w_nil|]. apply w_app; [|assumption]. apply w_app; [assumption|exact w_lf].
Qed.
Lemma w_join A : Forall W A -> W (join A).
Proof.
  intros H. induction H as [|x A Hx H IH]; [exact w_nil|]. destruct A as [|y A]; [exact Hx|].
  change (join (x :: y :: A)) with (x ++ ([LF] ++ join (y :: A))). apply w_app; [exact Hx|]. apply w_app; [exact w_lf|exact IH].
Qed.
Lemma w_below B : Forall W B -> W (below B).
Proof. intros H. destruct B as [|b B]; [exact w_nil|]. unfold below. apply (w_app cls [LF]); [exact w_lf|now apply w_join]. Qed.
Lemma w_lines t : W t -> Forall W (lines_of t).
Proof.
  intros (us & Hu & ->). induction Hu as [|u us Hu Hus IH]; [cbn; repeat constructor; exact w_nil|]. cbn [concat].
  destruct (in_dec N.eq_dec LF u) as [Hin|Hno].
  - destruct (HN u Hu) as [_ X]. rewrite (X Hin). cbn [app]. rewrite lines_of_cons_lf. constructor; [exact w_nil|assumption].
  - pose proof (lines_of_no_lf (concat us)) as Hn. rewrite <- (join_lines (concat us)).
    pose proof (lines_of_ne (concat us)) as Ne. destruct (lines_of (concat us)) as [|l ls]; [contradiction|].
    inversion_clear IH as [|? ? I1 I2]. inversion_clear Hn as [|? ? N1 N2].
    assert (E : u ++ join (l :: ls) = join ((u ++ l) :: ls)) by (destruct ls; cbn; [reflexivity|now rewrite <- app_assoc]).
    rewrite E, lines_join; [|discriminate|].
    + constructor; [|assumption]. apply w_app; [|assumption]. exists [u]. split; [now constructor|]. cbn. now rewrite app_nil_r.
    + constructor; [|assumption]. rewrite in_app_iff. now intros [|].
Qed.
Lemma above_count A : Forall (fun l => ~ In LF l) A -> count_lf (above A) = length A.
Proof.
  intros H. unfold above. induction H as [|x A Hx H IH]; [reflexivity|]. cbn [map concat length]. rewrite !count_lf_app, IH.
  rewrite (count_lf_none x Hx). reflexivity.
Qed.
Lemma above_last A : last (lines_of (above A)) [] = [].
Proof.
  destruct A as [|a A] using rev_ind; [reflexivity|]. unfold above. rewrite map_app, concat_app. cbn [map concat].
  rewrite app_nil_r, app_assoc. rewrite last_line_app. reflexivity.
Qed.
Definition wide (u : text) : nat := length (graphemes brk u).
Lemma wide_app a b : W a -> W b -> wide (a ++ b) = wide a + wide b.
Proof. intros Ha Hb. unfold wide. pose proof (w_seam cls a b Ha Hb) as S. unfold seam in S. fold brk in S. now rewrite S, app_length. Qed.
Lemma end_above A u : Forall (fun l => ~ In LF l) A -> ~ In LF u ->
  end_from brk (Pos 0 0) (above A ++ u) = Pos (length A) (wide u).
Proof.
  intros HA Hu. unfold end_from. cbn [line offset]. rewrite count_lf_app, above_count, (count_lf_none u Hu), Nat.add_0_r by assumption.
  rewrite last_line_app, (count_lf_none u Hu), above_last. cbn [app Nat.eqb]. f_equal.
  destruct A as [|a A]; [reflexivity|]. reflexivity.
Qed.

Lemma same_cut u w u1 w1 : W u -> W w -> W u1 -> W w1 -> u ++ w = u1 ++ w1 -> wide u = wide u1 -> u = u1 /\ w = w1.
Proof.
  intros Hu Hw Hu1 Hw1 E L. pose proof (w_seam cls u w Hu Hw) as S. pose proof (w_seam cls u1 w1 Hu1 Hw1) as S1.
  unfold seam in S, S1. rewrite E, S1 in S. fold brk in S. unfold wide in L.
  assert (X : graphemes brk u1 = graphemes brk u /\ graphemes brk w1 = graphemes brk w).
  { clear -S L. revert S L. generalize (graphemes brk u1), (graphemes brk w1), (graphemes brk u), (graphemes brk w).
    induction l as [|a l IH]; intros l0 [|b m] m0 S L; cbn in *; try discriminate; [now split|].
    injection S as -> S. injection L as L. destruct (IH l0 m m0 S L) as [-> ->]. now split. }
  destruct X as [X1 X2]. split.
  - now rewrite <- (graphemes_concat brk u), <- (graphemes_concat brk u1), X1.
  - now rewrite <- (graphemes_concat brk w), <- (graphemes_concat brk w1), X2.
Qed.

(** What an edit does to its line. *)
Definition turns (x : edit) (l : nat) (y z : text) : Prop :=
  match x with
  | Put d p => exists u w, W u /\ W w /\ W d /\ ~ In LF d /\ p = Pos l (wide u) /\ y = u ++ w /\ z = u ++ d ++ w
  | Cut p q (Some s) => exists u w, W u /\ W w /\ W s /\ ~ In LF s /\ y = u ++ s ++ w /\ z = u ++ w /\
      first_of p q = Pos l (wide u) /\ second_of p q = Pos l (wide u + wide s)
  | _ => False
  end.
Lemma turns_sedit x l y z : turns x l y z -> sedit x.
Proof. destruct x as [d p|p q [s|]|]; cbn; try easy; intros (u & w & H); apply H. Qed.

(** A text, seen from one of its lines. *)
Lemma around m l y : aligned m -> nth_error (lines_of (whole m)) l = Some y ->
  exists A B, length A = l /\ lines_of (whole m) = A ++ y :: B /\ whole m = above A ++ y ++ below B /\
    Forall (fun l => ~ In LF l) A /\ Forall (fun l => ~ In LF l) B /\ ~ In LF y /\ W (above A) /\ W (below B) /\ W y.
Proof.
  intros Al E. destruct (nth_split_at _ _ _ E) as [E1 E2]. exists (firstn l (lines_of (whole m))), (skipn (S l) (lines_of (whole m))).
  split; [assumption|]. split; [assumption|].
  pose proof (lines_of_no_lf (whole m)) as Hn. pose proof (w_lines (whole m) (aligned_whole m Al)) as Hw.
  pose proof (join_lines (whole m)) as J. rewrite E1 in Hn, Hw, J. apply Forall_app in Hn as [N1 N2], Hw as [W1 W2].
  inversion_clear N2; inversion_clear W2. rewrite join_app in J. split; [now symmetry|].
  repeat split; try assumption; [now apply w_above|now apply w_below].
Qed.
Lemma lines_around A z B : Forall (fun l => ~ In LF l) A -> Forall (fun l => ~ In LF l) B -> ~ In LF z ->
  lines_of (above A ++ z ++ below B) = A ++ z :: B.
Proof.
  intros HA HB Hz. rewrite <- join_app. apply lines_join; [now destruct A|]. apply Forall_app. split; [assumption|]. now constructor.
Qed.
Lemma not_in_app {T} (x : T) a b : ~ In x (a ++ b) -> ~ In x a /\ ~ In x b.
Proof. rewrite in_app_iff. tauto. Qed.
Lemma first_second p q : first_of (first_of p q) (second_of p q) = first_of p q /\ second_of (first_of p q) (second_of p q) = second_of p q.
Proof.
  apply first_of_le. unfold first_of, second_of. destruct (before q p) eqn:B.
  - right. now apply before_plt in B.
  - destruct (ple_total p q) as [H|H]; [exact H|]. apply before_plt in H. congruence.
Qed.
Lemma delete_order t p q : spec_delete brk t p q = spec_delete brk t (first_of p q) (second_of p q).
Proof. unfold spec_delete, spec_cut. now destruct (first_second p q) as [-> ->]. Qed.

(** Deleting and inserting within a line. *)
Lemma line_insert al m l u w d : aligned m -> W u -> W w -> W d -> ~ In LF d -> nth_error (lines_of (whole m)) l = Some (u ++ w) ->
  let m' := m_insert brk al d (Pos l (wide u)) m in
  aligned m' /\ lines_of (whole m') = upd l (u ++ d ++ w) (lines_of (whole m)).
Proof.
  intros Al Wu Ww Wd Nd E. cbn zeta. destruct (insert_aligned al d (Pos l (wide u)) m Al Wd) as [Al' ->]. split; [assumption|].
  destruct (around m l (u ++ w) Al E) as (A & B & <- & E1 & E2 & NA & NB & Ny & WA & WB & _).
  apply not_in_app in Ny as [Nu Nw]. rewrite E1, E2, upd_app, <- (end_above A u) by assumption.
  rewrite <- (app_assoc u w), (app_assoc (above A) u). unfold brk. rewrite (do_insert cls HL); [|now apply w_app..].
  rewrite <- app_assoc. rewrite (app_assoc u d), (app_assoc (u ++ d) w). rewrite lines_around; [now rewrite <- app_assoc|assumption|assumption|].
  rewrite !in_app_iff. tauto.
Qed.
Lemma line_delete m l u s w p q : aligned m -> W u -> W w -> W s -> nth_error (lines_of (whole m)) l = Some (u ++ s ++ w) ->
  first_of p q = Pos l (wide u) -> second_of p q = Pos l (wide u + wide s) ->
  let m' := m_delete brk p q m in
  aligned m' /\ lines_of (whole m') = upd l (u ++ w) (lines_of (whole m)) /\ m_read brk p q m = Some s.
Proof.
  intros Al Wu Ww Ws E Ep Eq. cbn zeta. destruct (delete_aligned p q m Al) as [Al' ->]. split; [assumption|].
  rewrite read_aligned by assumption.
  destruct (around m l (u ++ s ++ w) Al E) as (A & B & <- & E1 & E2 & NA & NB & Ny & WA & WB & _).
  apply not_in_app in Ny as [Nu Ny]. apply not_in_app in Ny as [Ns Nw].
  assert (Ep' : first_of p q = end_from brk (Pos 0 0) (above A ++ u)) by now rewrite end_above.
  assert (Eq' : second_of p q = end_from brk (Pos 0 0) ((above A ++ u) ++ s)).
  { rewrite <- app_assoc, end_above by (try assumption; rewrite in_app_iff; tauto). now rewrite wide_app. }
  assert (Et : whole m = (above A ++ u) ++ s ++ w ++ below B) by (rewrite E2; now rewrite <- !app_assoc).
  rewrite delete_order. unfold spec_read. rewrite E1, upd_app, Et, Ep', Eq'. split.
  - unfold brk. rewrite (do_delete cls HL) by now repeat apply w_app. rewrite <- app_assoc, (app_assoc u w).
    apply lines_around; try assumption. rewrite in_app_iff. tauto.
  - pose proof (do_read cls HL (above A ++ u) s (w ++ below B) ltac:(now apply w_app) Ws ltac:(now apply w_app)) as R.
    unfold spec_read in R. fold brk in R. rewrite <- Ep', <- Eq' in R |- *. now destruct (first_second p q) as [X Y]; rewrite X, Y in R.
Qed.

Lemma make_line al x l y z d : turns x l y z -> aligned (d_text d) -> nth_error (lines_of (whole (d_text d))) l = Some y ->
  let d' := make brk al d x in
  aligned (d_text d') /\ lines_of (whole (d_text d')) = upd l z (lines_of (whole (d_text d))).
Proof.
  intros T Al E. destruct x as [s p|p q [s|]|]; cbn [turns] in T; try contradiction; cbn [make d_text].
  - destruct T as (u & w & Wu & Ww & Wd & Nd & -> & -> & ->). now apply line_insert.
  - destruct T as (u & w & Wu & Ww & Ws & Ns & -> & -> & Ep & Eq). now destruct (line_delete _ _ _ _ _ p q Al Wu Ww Ws E Ep Eq) as (X & Y & _).
Qed.
Lemma take_line al x l y z d : turns x l y z -> aligned (d_text d) -> nth_error (lines_of (whole (d_text d))) l = Some z ->
  let d' := take brk al x d in
  aligned (d_text d') /\ lines_of (whole (d_text d')) = upd l y (lines_of (whole (d_text d))).
Proof.
  intros T Al E. destruct x as [s p|p q [s|]|]; cbn [turns] in T; try contradiction; cbn [take d_text].
  - destruct T as (u & w & Wu & Ww & Wd & Nd & -> & -> & ->).
    assert (Ee : text_end brk (Pos l (wide u)) s = Pos l (wide u + wide s)).
    { rewrite text_end_from. unfold end_from. rewrite (count_lf_none s Nd). cbn [line offset Nat.eqb]. now rewrite Nat.add_0_r. }
    assert (Ho : first_of (Pos l (wide u)) (Pos l (wide u + wide s)) = Pos l (wide u) /\
                 second_of (Pos l (wide u)) (Pos l (wide u + wide s)) = Pos l (wide u + wide s)).
    { apply first_of_le. apply ple_spec. cbn. lia. }
    rewrite Ee. destruct (line_delete _ _ _ _ _ (Pos l (wide u)) (Pos l (wide u + wide s)) Al Wu Ww Wd E (proj1 Ho) (proj2 Ho)) as (X & Y & _).
    now split.
  - destruct T as (u & w & Wu & Ww & Ws & Ns & -> & -> & Ep & Eq). rewrite Ep.
    now apply line_insert.
Qed.

(** Chains of edits on lines in [L]. *)
Inductive chain (L : nat -> bool) : list edit -> list text -> list text -> Prop :=
| chain_nil ls : chain L [] ls ls
| chain_cons x xs l y z ls ls' : L l = true -> turns x l y z -> nth_error ls l = Some y ->
    chain L xs (upd l z ls) ls' -> chain L (x :: xs) ls ls'.
Lemma chain_snoc L xs ls ls' x l y z : chain L xs ls ls' -> L l = true -> turns x l y z -> nth_error ls' l = Some y ->
  chain L (xs ++ [x]) ls (upd l z ls').
Proof.
  intros C Hl T E. induction C as [ls|x0 xs l0 y0 z0 ls ls' H0 T0 E0 C IH]; cbn [app].
  - eapply chain_cons; [exact Hl|exact T|exact E|constructor].
  - eapply chain_cons; [exact H0|exact T0|exact E0|]. now apply IH.
Qed.
Lemma chain_sedit L xs ls ls' : chain L xs ls ls' -> Forall sedit xs.
Proof. induction 1; constructor; [eapply turns_sedit; eassumption|assumption]. Qed.

Definition linesd (d : desk) := lines_of (whole (d_text d)).
Lemma chain_make al L xs ls ls' : chain L xs ls ls' -> forall d, aligned (d_text d) -> linesd d = ls ->
  aligned (d_text (fold_left (make brk al) xs d)) /\ linesd (fold_left (make brk al) xs d) = ls'.
Proof.
  induction 1 as [ls|x xs l y z ls ls' Hl T E C IH]; intros d A Ed; [now split|]. cbn [fold_left].
  unfold linesd in Ed. rewrite <- Ed in E. destruct (make_line al x l y z d T A E) as [A' E']. apply IH; [exact A'|].
  unfold linesd. now rewrite E', Ed.
Qed.
Lemma upd_back l y z ls : nth_error ls l = Some y -> nth_error (upd l z ls) l = Some z /\ upd l y (upd l z ls) = ls.
Proof.
  intros E. destruct (nth_split_at _ _ _ E) as [E1 E2]. set (A := firstn l ls) in *. set (B := skipn (S l) ls) in *.
  clearbody A B. subst ls l. rewrite upd_app. split; [|apply upd_app]. now rewrite nth_error_app2, Nat.sub_diag.
Qed.
Lemma chain_take al L xs ls ls' : chain L xs ls ls' -> forall d, aligned (d_text d) -> linesd d = ls' ->
  aligned (d_text (fold_right (take brk al) d xs)) /\ linesd (fold_right (take brk al) d xs) = ls.
Proof.
  induction 1 as [ls|x xs l y z ls ls' Hl T E C IH]; intros d A Ed; [now split|]. cbn [fold_right].
  destruct (IH d A Ed) as [A1 E1]. destruct (upd_back l y z ls E) as [U1 U2]. unfold linesd in *. rewrite <- E1 in U1.
  destruct (take_line al x l y z _ T A1 U1) as [A2 E2]. split; [exact A2|]. now rewrite E2, E1.
Qed.

(** Edits of some lines do not depend on the others. *)
Lemma chain_frame L xs ls ls' : chain L xs ls ls' -> forall ks,
  (forall l, L l = true -> nth_error ks l = nth_error ls l) ->
  exists ks', chain L xs ks ks' /\ (forall l, nth_error ks' l = if L l then nth_error ls' l else nth_error ks l).
Proof.
  induction 1 as [ls|x xs l y z ls ls' Hl T E C IH]; intros ks Hk.
  - exists ks. split; [constructor|]. intros l. destruct (L l) eqn:El; [now apply Hk|reflexivity].
  - assert (Ek : nth_error ks l = Some y) by now rewrite Hk.
    destruct (IH (upd l z ks)) as (ks' & C' & Hk').
    { intros k HkL. rewrite (nth_upd l y z ks k Ek), (nth_upd l y z ls k E). now destruct (k =? l); [|apply Hk]. }
    exists ks'. split; [eapply chain_cons; eassumption|]. intros k. rewrite Hk'. destruct (L k) eqn:Lk; [reflexivity|].
    rewrite (nth_upd l y z ks k Ek). destruct (Nat.eqb_spec k l) as [->|]; [congruence|reflexivity].
Qed.
Lemma chain_other L xs ls ls' : chain L xs ls ls' -> forall l, L l = false -> nth_error ls' l = nth_error ls l.
Proof.
  intros C l Hl. destruct (chain_frame L xs ls ls' C ls (fun _ _ => eq_refl)) as (ks' & C' & H).
  assert (ls' = ks') as ->; [|now rewrite H, Hl].
  clear H. revert ks' C'. induction C as [ls|x xs l0 y z ls ls' H0 T E C IH]; intros ks' C'; inversion C' as [|? ? l1 y1 z1 ? ? H1 T1 E1 C1]; subst; [reflexivity|].
  apply IH. clear IH C. destruct x as [d p|p q [s|]|]; cbn [turns] in T, T1; try contradiction.
  - destruct T as (u & w & Wu & Ww & _ & _ & Ep & -> & ->), T1 as (u1 & w1 & Wu1 & Ww1 & _ & _ & Ep1 & -> & ->).
    rewrite Ep in Ep1. injection Ep1 as -> Eo. rewrite E in E1. injection E1 as E1.
    enough (u = u1 /\ w = w1) as [-> ->] by assumption. apply (same_cut u w u1 w1); assumption.
  - destruct T as (u & w & Wu & Ww & Ws & _ & -> & -> & Ep & _), T1 as (u1 & w1 & Wu1 & Ww1 & _ & _ & -> & -> & Ep1 & _).
    rewrite Ep in Ep1. injection Ep1 as -> Eo. rewrite E in E1. injection E1 as E1.
    enough (u = u1 /\ s ++ w = s ++ w1) as [-> X] by (apply app_inv_head in X as ->; assumption).
    apply (same_cut u (s ++ w) u1 (s ++ w1)); try assumption; now apply w_app.
Qed.

(** ** Calls in a group *)

Lemma present_line t p : exists_at brk t p = true ->
  exists x, nth_error (lines_of t) (line p) = Some x /\ offset p <= wide x.
Proof.
  unfold exists_at, split_at, prefix_at, wide. destruct (nth_error (lines_of t) (line p)) as [x|]; [|discriminate].
  destruct (Nat.leb_spec (offset p) (length (graphemes brk x))); [|discriminate]. intros _. now exists x.
Qed.
Lemma w_concat us : Forall (simple_cluster cls) us -> W (concat us) /\ wide (concat us) = length us.
Proof. intros H. split; [now exists us|]. unfold wide. unfold brk. now rewrite (indep_graphemes (uax29 cls) (simple_cluster cls) us HI H). Qed.
Lemma cut_at x o1 o2 : W x -> o1 <= o2 -> o2 <= wide x ->
  exists u s w, W u /\ W s /\ W w /\ x = u ++ s ++ w /\ wide u = o1 /\ o2 = wide u + wide s.
Proof.
  intros (us & Hu & ->) H1 H2. rewrite (proj2 (w_concat us Hu)) in H2.
  assert (Es : us = firstn o1 us ++ firstn (o2 - o1) (skipn o1 us) ++ skipn (o2 - o1) (skipn o1 us)) by now rewrite !firstn_skipn.
  assert (L1 : length (firstn o1 us) = o1) by (apply firstn_length_le; lia).
  assert (L2 : length (firstn (o2 - o1) (skipn o1 us)) = o2 - o1) by (apply firstn_length_le; rewrite skipn_length; lia).
  revert Es L1 L2. generalize (firstn o1 us) as a, (firstn (o2 - o1) (skipn o1 us)) as b, (skipn (o2 - o1) (skipn o1 us)) as c.
  intros a b c -> L1 L2. apply Forall_app in Hu as [Ha Hu]. apply Forall_app in Hu as [Hb Hc].
  exists (concat a), (concat b), (concat c). rewrite !concat_app.
  pose proof (w_concat a Ha) as [W1 ->]. pose proof (w_concat b Hb) as [W2 ->]. pose proof (w_concat c Hc) as [W3 _].
  repeat split; try assumption. lia.
Qed.

Definition grown (L : nat -> bool) (ls0 : list text) (c : bcall) (xs : list edit) (e e' : meditor) : Prop :=
  exists xs', me_group e' = Some xs' /\ chain L xs' ls0 (lines_of (whole (me_text e'))) /\
    me_past e' = me_past e /\ me_future e' = me_future e /\
    (xs' = [] -> xs = [] /\ edits_text c = false) /\ sinv e' /\ me_disk e' = me_disk e.

Lemma edit_grown al L ls0 c xs e x l y z : sinv e -> me_group e = Some xs -> chain L xs ls0 (lines_of (whole (me_text e))) ->
  L l = true -> turns x l y z -> nth_error (lines_of (whole (me_text e))) l = Some y -> grown L ls0 c xs e (m_edit brk al e x).
Proof.
  intros I G C Hl T E. pose proof (edit_sinv al e x I (turns_sedit _ _ _ _ T)) as I'.
  destruct (make_line al x l y z (on_desk e) T (si_text e I) E) as [_ Em].
  exists (xs ++ [x]). unfold m_edit in *. rewrite G in *. cbn [me_group put_steps me_text put_desk me_past me_future me_disk].
  split; [reflexivity|]. split; [rewrite Em; now apply chain_snoc with (y := y)|]. split; [reflexivity|]. split; [reflexivity|].
  split; [|split; [exact I'|reflexivity]]. intros X. now destruct xs.
Qed.
Lemma cut_grown al L ls0 c xs e p q : sinv e -> me_group e = Some xs -> chain L xs ls0 (lines_of (whole (me_text e))) ->
  L (line p) = true -> line p = line q -> exists_at brk (whole (me_text e)) p = true -> exists_at brk (whole (me_text e)) q = true ->
  grown L ls0 c xs e (m_cut brk al e p q).
Proof.
  intros I G C Hl El Hp Hq. pose proof (si_text e I) as A. pose proof (aligned_whole _ A) as Wt.
  set (p1 := first_of p q). set (q1 := second_of p q).
  assert (X : line p1 = line p /\ line q1 = line p /\ offset p1 <= offset q1 /\ exists_at brk (whole (me_text e)) q1 = true).
  { unfold p1, q1, first_of, second_of. destruct (before q p) eqn:B.
    - apply before_plt in B. unfold plt in B. repeat split; try easy; lia.
    - destruct (ple_total p q) as [H|H]; [|apply before_plt in H; congruence]. apply ple_spec in H. repeat split; try easy; lia. }
  destruct X as (L1 & L2 & Ho & He). destruct (present_line _ _ He) as (x & Ex & Hx). rewrite L2 in Ex.
  destruct (around _ _ _ A Ex) as (_ & _ & _ & _ & _ & _ & _ & Nx & _ & _ & Wx).
  destruct (cut_at x _ _ Wx Ho Hx) as (u & s & w & Wu & Ws & Ww & -> & E1 & E2).
  apply not_in_app in Nx as [Nu Nx]. apply not_in_app in Nx as [Ns Nw].
  assert (P1 : first_of p q = Pos (line p) (wide u)) by (rewrite E1, <- L1; unfold p1; now destruct (first_of p q)).
  assert (Q1 : second_of p q = Pos (line p) (wide u + wide s)) by (rewrite <- E2, <- L2; unfold q1; now destruct (second_of p q)).
  unfold m_cut. destruct (line_delete (me_text e) (line p) u s w p q A Wu Ww Ws Ex P1 Q1) as (_ & _ & ->).
  eapply edit_grown with (y := u ++ s ++ w) (z := u ++ w); try eassumption. cbn [turns]. exists u, w. now repeat split.
Qed.
Lemma call_grown al L ls0 c b xs e : sim b e -> sinv e -> in_line cls L c b -> me_group e = Some xs ->
  chain L xs ls0 (lines_of (whole (me_text e))) -> grown L ls0 c xs e (snd (me_call brk al c e)).
Proof.
  intros S I H G C. pose proof (sim_shows brk b e S) as Sh. pose proof (si_text e I) as A.
  assert (Ec : c_pos (b_cursor b) = at_pos (me_cursor e)) by (rewrite <- (shows_cursor _ _ _ Sh); reflexivity).
  assert (Eb : forall p, in_bounds brk (b_data b) p = Ok true -> exists_at brk (whole (me_text e)) p = true).
  { intros p Hp. rewrite (shows_in_bounds _ _ _ Sh) in Hp. injection Hp as Hp. now rewrite has_aligned in Hp. }
  assert (K : forall e' : meditor, me_group e' = me_group e -> me_text e' = me_text e -> me_past e' = me_past e ->
    me_future e' = me_future e -> sinv e' -> me_disk e' = me_disk e -> edits_text c = false -> grown L ls0 c xs e e').
  { intros e' K1 K2 K3 K4 K5 K6 K7. exists xs. rewrite K1, K2, K3, K4, K6, K7. repeat (split; [first [assumption|reflexivity]|]). split; [now intros ->|now split]. }
  destruct c; cbn [in_line] in H; try contradiction; cbn [me_call snd].
  - rewrite Ec in H. destruct H as (Hl & Hb & Hd & Nd). apply Eb in Hb. destruct (present_line _ _ Hb) as (x & Ex & Hx).
    destruct (around _ _ _ A Ex) as (_ & _ & _ & _ & _ & _ & _ & Nx & _ & _ & Wx).
    destruct (cut_at x _ _ Wx (Nat.le_refl _) Hx) as (u & s & w & Wu & Ws & Ww & -> & E1 & E2).
    eapply edit_grown with (y := u ++ s ++ w) (z := u ++ data ++ s ++ w); try eassumption. cbn [turns]. exists u, (s ++ w).
    split; [assumption|]. split; [now apply w_app|]. repeat split; try assumption. destruct (at_pos (me_cursor e)). cbn in *. now rewrite E1.
  - rewrite Ec in H. destruct H as (Hl & Hb). apply Eb in Hb. rewrite has_aligned, Hb by assumption.
    apply cut_grown; try assumption; [reflexivity|].
    destruct (present_line _ _ Hb) as (x & Ex & Hx). cbn [line offset] in *.
    unfold exists_at, split_at, prefix_at. rewrite Ex. unfold wide in Hx.
    destruct (Nat.leb_spec (offset (at_pos (me_cursor e))) (length (graphemes brk x))); [reflexivity|lia].
  - destruct H as (El & Hl & Hp & Hq). apply cut_grown; try assumption; now apply Eb.
  - apply K; try reflexivity. destruct I. now split.
  - apply K; try reflexivity. destruct I. now split.
Qed.

Lemma in_line_simple L c b : in_line cls L c b -> simple_input cls c.
Proof. destruct c; cbn; try easy. Qed.
Lemma run_grown L ls0 cs : forall b xs e, sim b e -> sinv e -> me_group e = Some xs ->
  chain L xs ls0 (lines_of (whole (me_text e))) -> in_lines cls L cs b (me_disk e) -> Forall (fun ac => alloc_ok (fst ac)) cs ->
  exists os b' e', brun brk cs b (me_disk e) = Ok (os, b', me_disk e) /\ sim b' e' /\ sinv e' /\ me_disk e' = me_disk e /\
    me_past e' = me_past e /\ me_future e' = me_future e /\
    exists xs', me_group e' = Some xs' /\ chain L xs' ls0 (lines_of (whole (me_text e'))) /\
      (xs' = [] -> xs = [] /\ existsb (fun ac => edits_text (snd ac)) cs = false).
Proof.
  induction cs as [|[al c] cs IH]; intros b xs e S I G C H Ha.
  - exists [], b, e. cbn [brun]. repeat (split; [easy|]). exists xs. now repeat split.
  - inversion_clear Ha as [|? ? Ha1 Ha2]. cbn [fst] in Ha1. cbn [in_lines] in H. destruct H as [H1 H2].
    destruct (call_sim brk al (uax29_order_safe cls HL) Ha1 c b e S (simple_call_ok c (in_line_simple L c b H1))) as (b1 & E1 & S1).
    destruct (call_grown al L ls0 c b xs e S I H1 G C) as (xs1 & G1 & C1 & P1 & F1 & N1 & I1 & D1).
    specialize (H2 _ _ _ E1). rewrite <- D1 in *.
    destruct (IH b1 xs1 (snd (me_call brk al c e)) S1 I1 G1 C1 H2 Ha2) as (os & b2 & e2 & E2 & S2 & I2 & D2 & P2 & F2 & xs2 & G2 & C2 & N2).
    exists (fst (me_call brk al c e) :: os), b2, e2. cbn [brun]. rewrite D1 in E1, E2. rewrite D1. rewrite E1. cbn [bind]. rewrite E2. cbn [bind].
    split; [reflexivity|]. split; [exact S2|]. split; [exact I2|]. split; [congruence|]. split; [congruence|]. split; [congruence|].
    exists xs2. split; [exact G2|]. split; [exact C2|]. intros X. destruct (N2 X) as [X1 X2]. destruct (N1 X1) as [X3 X4].
    split; [exact X3|]. cbn [existsb snd]. now rewrite X4.
Qed.

Lemma start_step b e : sim b e -> me_group e = None ->
  exists e', sim (start_group b) e' /\ me_group e' = Some [] /\ me_text e' = me_text e /\ me_past e' = me_past e /\
    me_future e' = me_future e /\ me_disk e' = me_disk e /\ (sinv e -> sinv e').
Proof.
  intros S G. assert (Al : alloc_ok (fun _ n => repeat 0%N n)) by (intros ? ?; rewrite repeat_length; lia).
  destruct (call_sim brk _ (uax29_order_safe cls HL) Al BStartGroup b e S I) as (b' & E & S'). cbn [bexec] in E. injection E as <-.
  exists (snd (me_call brk (fun _ n => repeat 0%N n) BStartGroup e)). split; [exact S'|]. cbn. rewrite G. repeat (split; [reflexivity|]).
  intros []. split; cbn; try assumption. constructor.
Qed.
Lemma end_step b e xs : sim b e -> me_group e = Some xs -> xs <> [] ->
  exists e', sim (end_group b) e' /\ me_group e' = None /\ me_text e' = me_text e /\ me_past e' = xs :: me_past e /\
    me_future e' = [] /\ me_disk e' = me_disk e /\ (sinv e -> sinv e').
Proof.
  intros S G Ne. assert (Al : alloc_ok (fun _ n => repeat 0%N n)) by (intros ? ?; rewrite repeat_length; lia).
  destruct (call_sim brk _ (uax29_order_safe cls HL) Al BEndGroup b e S I) as (b' & E & S'). cbn [bexec] in E. injection E as <-.
  exists (snd (me_call brk (fun _ n => repeat 0%N n) BEndGroup e)). split; [exact S'|]. cbn. rewrite G. destruct xs as [|x xs]; [contradiction|].
  repeat (split; [reflexivity|]). intros [? ? ? X]. rewrite G in X. split; cbn; try assumption; try exact I; now constructor.
Qed.
Lemma undo_step al b e L xs past ls : alloc_ok al -> sim b e -> sinv e -> me_group e = None -> me_past e = xs :: past ->
  chain L xs ls (lines_of (whole (me_text e))) ->
  exists b' e', buf_undo brk al b = Ok b' /\ sim b' e' /\ sinv e' /\ me_group e' = None /\ me_past e' = past /\
    me_future e' = xs :: me_future e /\ lines_of (whole (me_text e')) = ls /\ me_disk e' = me_disk e.
Proof.
  intros Al S I G P C. destruct (undo_sim brk al (uax29_order_safe cls HL) Al b e S) as (b' & E & S'). exists b', (m_undo brk al e).
  split; [exact E|]. split; [exact S'|]. split; [exact (call_sinv al BUndo e I Logic.I)|].
  unfold m_undo. rewrite G, P. cbn. repeat (split; [reflexivity|]).
  now destruct (chain_take al L xs _ _ C (on_desk e) (si_text e I) eq_refl) as [_ X].
Qed.

Theorem redo_other_lines : forall L b f A G bA b1 bG osA osG fA fG al1 al2 al3 al4,
  simple_history cls b f -> b_group b = None ->
  Forall (fun ac => alloc_ok (fst ac)) (A ++ G) -> Forall alloc_ok [al1; al2; al3; al4] ->
  in_lines cls L A (start_group b) f -> existsb (fun ac => edits_text (snd ac)) A = true ->
  brun brk A (start_group b) f = Ok (osA, bA, fA) ->
  buf_undo brk al1 (end_group bA) = Ok b1 ->
  in_lines cls (fun l => negb (L l)) G (start_group b1) f -> existsb (fun ac => edits_text (snd ac)) G = true ->
  brun brk G (start_group b1) f = Ok (osG, bG, fG) ->
  exists t tA tG tAG b2 b3 b4,
    buf_data b = Ok t /\ buf_data bA = Ok tA /\ buf_data b1 = Ok t /\ buf_data bG = Ok tG /\
    buf_redo brk al2 bG = Ok b2 /\ buf_data b2 = Ok tAG /\
    (forall l, nth_error (lines_of tAG) l = nth_error (lines_of (if L l then tA else tG)) l) /\
    buf_undo brk al3 (end_group b2) = Ok b3 /\ buf_data b3 = Ok tA /\
    buf_undo brk al4 b3 = Ok b4 /\ buf_data b4 = Ok t.
Proof.
  intros L b f A G bA b1 bG osA osG fA fG al1 al2 al3 al4 H Hg Ha Hal HA EA RA U1 HG EG RG.
  apply Forall_app in Ha as [HaA HaG]. inversion_clear Hal as [|? ? Al1 Hal']. inversion_clear Hal' as [|? ? Al2 Hal].
  inversion_clear Hal as [|? ? Al3 Hal']. inversion_clear Hal' as [|? ? Al4 _].
  destruct (history_sim b f H) as (e & S & I & <-).
  assert (G0 : me_group e = None) by (pose proof (s_group _ _ S) as X; rewrite Hg in X; now destruct (me_group e)).
  pose proof (sim_whole b e S) as T0.
  (* the first group *)
  destruct (start_step b e S G0) as (e1 & S1 & G1 & T1 & P1 & F1 & D1 & I1). specialize (I1 I). rewrite <- D1 in *.
  destruct (run_grown L (lines_of (whole (me_text e))) A (start_group b) [] e1 S1 I1 G1) as
    (os & bA' & eA & RA' & SA & IA & DA & PA & FA & xA & GA & CA & NA); [rewrite T1; constructor|exact HA|exact HaA|].
  rewrite RA in RA'. injection RA' as <- <- ->.
  assert (NeA : xA <> []) by (intros X; destruct (NA X) as [_ X']; congruence).
  pose proof (sim_whole bA eA SA) as TA.
  (* undone *)
  destruct (end_step bA eA xA SA GA NeA) as (e2 & S2 & G2 & T2 & P2 & F2 & D2 & I2). specialize (I2 IA).
  rewrite <- T2 in CA.
  destruct (undo_step al1 _ e2 L xA _ _ Al1 S2 I2 G2 P2 CA) as (b1' & e3 & U1' & S3 & I3 & G3 & P3 & F3 & L3 & D3).
  rewrite U1 in U1'. injection U1' as <-. rewrite F2 in F3.
  assert (E3 : whole (me_text e3) = whole (me_text e)) by now rewrite <- (join_lines (whole (me_text e3))), L3, join_lines.
  pose proof (sim_whole b1 e3 S3) as T3. rewrite E3 in T3.
  (* the second group *)
  destruct (start_step b1 e3 S3 G3) as (e4 & S4 & G4 & T4 & P4 & F4 & D4 & I4). specialize (I4 I3).
  assert (D : me_disk e4 = me_disk e1) by congruence. rewrite <- D in HG, RG.
  destruct (run_grown (fun l => negb (L l)) (lines_of (whole (me_text e))) G (start_group b1) [] e4 S4 I4 G4) as
    (os & bG' & eG & RG' & SG & IG & DG & PG & FG & xG & GG & CG & NG); [rewrite T4, E3; constructor|exact HG|exact HaG|].
  rewrite RG in RG'. injection RG' as <- <- ->.
  assert (NeG : xG <> []) by (intros X; destruct (NG X) as [_ X']; congruence).
  pose proof (sim_whole bG eG SG) as TG.
  (* redone *)
  assert (FA' : me_future eG = [xA]) by congruence.
  set (l0 := lines_of (whole (me_text e))) in *. set (lA := lines_of (whole (me_text e2))) in *.
  set (lG := lines_of (whole (me_text eG))) in *.
  destruct (chain_frame L xA l0 lA CA lG) as (lAG & CAG & HAG).
  { intros l Hl. apply (chain_other _ _ _ _ CG). now rewrite Hl. }
  destruct (chain_frame _ xG l0 lG CG lA) as (lGA & CGA & HGA).
  { intros l Hl. apply (chain_other _ _ _ _ CA). now destruct (L l). }
  assert (lGA = lAG) as ->.
  { apply nth_error_ext. intros l. rewrite HGA, HAG. now destruct (L l). }
  destruct (redo_sim brk al2 (uax29_order_safe cls HL) Al2 bG eG SG) as (b2 & R2 & S5).
  pose proof (call_sinv al2 BRedo eG IG Logic.I) as I5. cbn [me_call snd] in I5.
  assert (X5 : exists e5, e5 = m_redo brk al2 eG /\ me_group e5 = Some xG /\ me_past e5 = xA :: me_past eG /\
                 lines_of (whole (me_text e5)) = lAG).
  { eexists. split; [reflexivity|]. unfold m_redo. rewrite FA'. cbn. split; [exact GG|]. split; [reflexivity|].
    now destruct (chain_make al2 L xA lG lAG CAG (on_desk eG) (si_text eG IG) eq_refl) as [_ X]. }
  destruct X5 as (e5 & Ee5 & G5 & P5 & L5). rewrite <- Ee5 in *.
  pose proof (sim_whole b2 e5 S5) as T5.
  destruct (end_step b2 e5 xG S5 G5 NeG) as (e6 & S6 & G6 & T6 & P6 & F6 & D6 & I6). specialize (I6 I5).
  assert (C6 : chain (fun l => negb (L l)) xG lA (lines_of (whole (me_text e6)))) by now rewrite T6, L5.
  destruct (undo_step al3 _ e6 _ xG _ _ Al3 S6 I6 G6 P6 C6) as (b3 & e7 & U3 & S7 & I7 & G7 & P7 & F7 & L7 & D7).
  rewrite P5 in P7. pose proof CA as C7. rewrite <- L7 in C7.
  destruct (undo_step al4 _ e7 _ xA _ _ Al4 S7 I7 G7 P7 C7) as (b4 & e8 & U4 & S8 & I8 & G8 & P8 & F8 & L8 & D8).
  pose proof (sim_whole b3 e7 S7) as T7. pose proof (sim_whole b4 e8 S8) as T8.
  assert (E7 : whole (me_text e7) = whole (me_text eA)) by (rewrite <- (join_lines (whole (me_text e7))), L7; unfold lA; now rewrite join_lines, T2).
  assert (E8 : whole (me_text e8) = whole (me_text e)) by (rewrite <- (join_lines (whole (me_text e8))), L8; unfold l0; now rewrite join_lines).
  rewrite E7 in T7. rewrite E8 in T8.
  exists (whole (me_text e)), (whole (me_text eA)), (whole (me_text eG)), (whole (me_text e5)), b2, b3, b4.
  repeat (split; [first [assumption|exact T3]|]).
  split; [|repeat (split; [assumption|]); assumption].
  intros l. rewrite L5, HAG. unfold lA, lG. rewrite T2. now destruct (L l).
Qed.
End Simple.

(** ** Deciding it, for ASCII data *)

Definition has_lf (t : text) : bool := existsb (N.eqb LF) t.
Definition inb (cls : char -> gcb) (b : buffer) (p : position) : bool :=
  match in_bounds (uax29 cls) (b_data b) p with Ok x => x | Panic => false end.
Definition in_lineb (L : nat -> bool) (c : bcall) (b : buffer) : bool :=
  let here := c_pos (b_cursor b) in
  match c with
  | BInsert d => L (line here) && inb gcb15 b here && ascii_no_crb d && negb (has_lf d)
  | BDelete => L (line here) && inb gcb15 b (Pos (line here) (offset here + 1))
  | BDeleteRange p q => (line p =? line q) && L (line p) && inb gcb15 b p && inb gcb15 b q
  | BMove _ | BCursor _ => true
  | _ => false
  end.
Fixpoint in_linesb (L : nat -> bool) (cs : list (allocator * bcall)) (b : buffer) (f : fsys) : bool :=
  match cs with
  | [] => true
  | (al, c) :: cs' =>
    in_lineb L c b && match bexec uax29_15 al c b f with Ok (_, b', f') => in_linesb L cs' b' f' | Panic => true end
  end.
Lemma inb_ok b p : inb gcb15 b p = true -> in_bounds uax29_15 (b_data b) p = Ok true.
Proof. unfold inb. change (uax29 gcb15) with uax29_15. now destruct (in_bounds _ _ _) as [[]|]. Qed.
Lemma in_linesb_ok L cs : forall b f, in_linesb L cs b f = true -> in_lines gcb15 L cs b f.
Proof.
  induction cs as [|[al c] cs IH]; intros b f H; [exact I|]. cbn [in_linesb] in H. apply andb_prop in H as [H1 H2].
  cbn [in_lines]. change (uax29 gcb15) with uax29_15. split.
  - clear H2. destruct c; cbn [in_lineb in_line] in *; try discriminate; try exact I; change (uax29 gcb15) with uax29_15.
    + apply andb_prop in H1 as [H1 H4]. apply andb_prop in H1 as [H1 H3]. apply andb_prop in H1 as [H1 H2].
      split; [assumption|]. split; [now apply inb_ok|]. split; [now apply ascii_words, ascii_no_crb_ok|].
      intros X. unfold has_lf in H4. apply negb_true_iff in H4. rewrite <- not_true_iff_false, existsb_exists in H4.
      apply H4. exists LF. split; [assumption|apply N.eqb_refl].
    + apply andb_prop in H1 as [H1 H2]. split; [assumption|now apply inb_ok].
    + apply andb_prop in H1 as [H1 H4]. apply andb_prop in H1 as [H1 H3]. apply andb_prop in H1 as [H1 H2].
      split; [now apply Nat.eqb_eq|]. split; [assumption|]. split; now apply inb_ok.
  - intros o b' f' E. rewrite E in H2. now apply IH.
Qed.
