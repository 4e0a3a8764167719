(** Proofs about loads step by step. *)
From Verif Require BufferFacts.
From Verif Require Import Base Utf8 Utf8Proofs Grapheme Position GapBuffer Cursor PathModel Buffer Spec
  BufferCalls AnyTextProofs BufferProps BufferIoProps Saving SavingSpec SavingProofs Loading LoadingSpec.

(** ** Lists of bytes *)

Lemma chunk_ne (l : list byte) n : firstn (n + 1) l = [] -> l = [].
Proof. rewrite Nat.add_1_r. now destruct l. Qed.

Lemma more_prefix (got bs : list byte) n : got = firstn (length got) bs ->
  got ++ firstn n (skipn (length got) bs) = firstn (length (got ++ firstn n (skipn (length got) bs))) bs.
Proof. intros E. rewrite E at 1. rewrite firstn_more, app_length. reflexivity. Qed.

Lemma all_prefix (got bs : list byte) : got = firstn (length got) bs -> skipn (length got) bs = [] -> got = bs.
Proof. intros E H. rewrite <- (firstn_skipn (length got) bs), H, app_nil_r. exact E. Qed.

(** ** Any load *)

Lemma loading_app p es1 es2 s : loading p (es1 ++ es2) s = loading p es2 (loading p es1 s).
Proof. apply fold_left_app. Qed.
Lemma loading_snoc p es e s : loading p (es ++ [e]) s = load_step p e (loading p es s).
Proof. now rewrite loading_app. Qed.

Lemma step_disk p e ph f : (forall f', e <> Elsewhere f') -> snd (load_step p e (ph, f)) = f.
Proof.
  intros H. destruct e, ph; cbn; try reflexivity; try (now destruct (H f0)).
  - destruct (fs_target f p) as [q|]; [|reflexivity]. now destruct (fs_node f q) as [[|]|].
  - now destruct (firstn _ _).
Qed.

(** Each byte was there at a moment of the load. *)
Definition was_there (p q : path) (es : list lhappening) (f : fsys) (got : list byte) : Prop :=
  forall i x, nth_error got i = Some x ->
    exists es1 es2, es = es1 ++ es2 /\ nth_error (held (disk_after p es1 f) q) i = Some x.
Lemma was_there_snoc p q es f got e : was_there p q es f got -> was_there p q (es ++ [e]) f got.
Proof. intros H i x E. destruct (H i x E) as (es1 & es2 & -> & E'). exists es1, (es2 ++ [e]). now rewrite app_assoc. Qed.

Lemma bytes_run p f : forall es,
  match fst (loading p es (Asking, f)) with
  | Reading q got => was_there p q es f got
  | Loaded bs => exists q, was_there p q es f bs /\
      exists es1 es2 got, es = es1 ++ es2 /\ fst (loading p es1 (Asking, f)) = Reading q got /\ length (held (disk_after p es1 f) q) <= length bs
  | _ => True
  end.
Proof.
  induction es as [|e es IH] using rev_ind; [exact I|]. rewrite loading_snoc.
  destruct (loading p es (Asking, f)) as [ph g] eqn:E. cbn [fst] in IH.
  assert (D : disk_after p es f = g) by (unfold disk_after; now rewrite E).
  assert (Keep : match ph with
    | Reading q got => was_there p q (es ++ [e]) f got
    | Loaded bs => exists q, was_there p q (es ++ [e]) f bs /\
        exists es1 es2 got, es ++ [e] = es1 ++ es2 /\ fst (loading p es1 (Asking, f)) = Reading q got /\ length (held (disk_after p es1 f) q) <= length bs
    | _ => True end).
  { destruct ph as [|q got|bs|]; try exact I; [now apply was_there_snoc|].
    destruct IH as (q & H1 & es1 & es2 & got & -> & H2 & H3). exists q. split; [now apply was_there_snoc|].
    exists es1, (es2 ++ [e]), got. rewrite app_assoc. auto. }
  destruct e as [| |n| | |f']; destruct ph as [|q got|bs|]; cbn [load_step fst]; try exact Keep; try exact I.
  - destruct (fs_target g p) as [q|]; [|exact I]. destruct (fs_node g q) as [[|]|]; cbn; try exact I.
    intros i x H. now destruct i.
  - destruct (firstn (n + 1) (skipn (length got) (held g q))) as [|y chunk] eqn:Ec; cbn [fst].
    + exists q. split; [exact Keep|]. exists es, [Took n], got. split; [reflexivity|]. rewrite E, D. split; [reflexivity|].
      apply chunk_ne in Ec. pose proof (skipn_length (length got) (held g q)) as L. rewrite Ec in L. cbn in L. lia.
    + rewrite <- Ec. intros i x H. destruct (Nat.lt_ge_cases i (length got)) as [L|L].
      * rewrite nth_error_app1 in H by assumption. exact (Keep i x H).
      * rewrite nth_error_app2 in H by assumption. exists es, [Took n]. split; [reflexivity|]. rewrite D.
        assert (N : nth_error (skipn (length got) (held g q)) (i - length got) = Some x).
        { rewrite <- (firstn_skipn (n + 1) (skipn (length got) (held g q))). rewrite nth_error_app1; [assumption|].
          apply nth_error_Some. congruence. }
        rewrite <- (firstn_skipn (length got) (held g q)).
        assert (Lg : length got <= length (held g q)).
        { pose proof (skipn_length (length got) (held g q)) as Ls. destruct (skipn (length got) (held g q)); [now destruct (n + 1)|]. cbn in Ls. lia. }
        rewrite nth_error_app2; rewrite firstn_length, Nat.min_l by assumption; [assumption|assumption].
Qed.

Lemma each_byte p es f bs f' : loading p es (Asking, f) = (Loaded bs, f') -> exists q,
  (forall i x, nth_error bs i = Some x ->
     exists es1 es2, es = es1 ++ es2 /\ nth_error (held (disk_after p es1 f) q) i = Some x) /\
  exists es1 es2 got, es = es1 ++ es2 /\ fst (loading p es1 (Asking, f)) = Reading q got /\
    length (held (disk_after p es1 f) q) <= length bs.
Proof. intros E. pose proof (bytes_run p f es) as X. rewrite E in X. exact X. Qed.

(** ** The file as it is at one moment *)

Lemma fs_read_held f p q bs : fs_target f p = Some q -> fs_read f p = Some bs -> held f q = bs /\ fs_node f q = Some (Regular bs).
Proof. unfold fs_read, held. intros -> H. destruct (fs_node f q) as [[|]|]; try discriminate. now injection H as ->. Qed.

Lemma append_run p f : forall es, only_append p es f ->
  match fst (loading p es (Asking, f)) with
  | Asking => True
  | Reading q got => fs_target (disk_after p es f) p = Some q /\
      exists bs, fs_read (disk_after p es f) p = Some bs /\ got = firstn (length got) bs
  | Loaded bs => exists es1 es2, es = es1 ++ es2 /\ fs_read (disk_after p es1 f) p = Some bs
  | Unread => In NotOpened es \/ In ReadError es \/ exists es1 es2, es = es1 ++ es2 /\ fs_read (disk_after p es1 f) p = None
  end.
Proof.
  induction es as [|e es IH] using rev_ind; intros A; [exact I|].
  assert (A' : only_append p es f).
  { intros es1 es2 es3 ->. apply (A es1 es2 (es3 ++ [e])). now rewrite <- !app_assoc. }
  destruct (A es [e] [] ltac:(now rewrite app_nil_r)) as [A1 A2]. specialize (IH A'). clear A'.
  assert (Grown : match fst (loading p es (Asking, f)) with
    | Asking => True
    | Reading q got => fs_target (disk_after p (es ++ [e]) f) p = Some q /\
        exists bs, fs_read (disk_after p (es ++ [e]) f) p = Some bs /\ got = firstn (length got) bs
    | Loaded bs => exists es1 es2, es ++ [e] = es1 ++ es2 /\ fs_read (disk_after p es1 f) p = Some bs
    | Unread => In NotOpened (es ++ [e]) \/ In ReadError (es ++ [e]) \/
        exists es1 es2, es ++ [e] = es1 ++ es2 /\ fs_read (disk_after p es1 f) p = None
    end).
  { destruct (fst (loading p es (Asking, f))) as [|q got|bs|]; [exact I|..].
    - destruct IH as (H1 & bs & H2 & H3). destruct (A2 bs H2) as (more & H4). split; [congruence|]. exists (bs ++ more).
      split; [assumption|]. assert (L : length got <= length bs) by (rewrite H3, firstn_length; lia).
      rewrite firstn_app. replace (length got - length bs) with 0 by lia. now rewrite firstn_O, app_nil_r.
    - destruct IH as (es1 & es2 & -> & H). exists es1, (es2 ++ [e]). now rewrite app_assoc.
    - destruct IH as [H|[H|(es1 & es2 & -> & H)]].
      + left. apply in_or_app. now left.
      + right; left. apply in_or_app. now left.
      + right; right. exists es1, (es2 ++ [e]). now rewrite app_assoc. }
  clear IH A2. assert (D : snd (loading p es (Asking, f)) = disk_after p es f) by reflexivity.
  rewrite loading_snoc. destruct (loading p es (Asking, f)) as [ph g] eqn:E. cbn [fst snd] in *.
  assert (D' : (forall f', e <> Elsewhere f') -> disk_after p (es ++ [e]) f = g).
  { intros H. unfold disk_after. rewrite loading_snoc, E. now apply step_disk. }
  destruct e as [| |n| | |f']; destruct ph as [|q got|bs|]; cbn [load_step fst]; try exact Grown; try exact I.
  - assert (Dg := D' ltac:(discriminate)).
    destruct (fs_target g p) as [q|] eqn:Et.
    + destruct (fs_node g q) as [[bs|]|] eqn:En; cbn [fst].
      * rewrite Dg. split; [assumption|]. exists bs. unfold fs_read. now rewrite Et, En.
      * right; right. exists es, [Opened]. split; [reflexivity|]. rewrite <- D. unfold fs_read. now rewrite Et, En.
      * right; right. exists es, [Opened]. split; [reflexivity|]. rewrite <- D. unfold fs_read. now rewrite Et, En.
    + cbn. right; right. exists es, [Opened]. split; [reflexivity|]. rewrite <- D. unfold fs_read. now rewrite Et.
  - cbn. left. apply in_or_app. right. now left.
  - assert (Dg := D' ltac:(discriminate)). rewrite Dg in Grown. destruct Grown as (H1 & bs & H2 & H3).
    destruct (fs_read_held g p q bs H1 H2) as [-> _].
    destruct (firstn (n + 1) (skipn (length got) bs)) as [|y chunk] eqn:Ec; cbn [fst].
    + exists es, [Took n]. split; [reflexivity|]. rewrite <- D, H2. f_equal. symmetry. apply all_prefix; [assumption|].
      now apply chunk_ne in Ec.
    + rewrite Dg. split; [assumption|]. exists bs. split; [assumption|]. rewrite <- Ec. now apply more_prefix.
  - right; left. apply in_or_app. right. now left.
Qed.

Lemma one_moment p es f ph f' r : loading p es (Asking, f) = (ph, f') -> only_append p es f -> read_result ph = Some r ->
  (exists es1 es2, es = es1 ++ es2 /\ r = read_to_string (disk_after p es1 f) p) \/
  (r = None /\ (In NotOpened es \/ In ReadError es)).
Proof.
  intros E A R. pose proof (append_run p f es A) as X. rewrite E in X. cbn [fst] in X.
  destruct ph as [|q got|bs|]; try discriminate; injection R as <-.
  - destruct X as (es1 & es2 & H1 & H2). left. exists es1, es2. split; [assumption|]. unfold read_to_string. now rewrite H2.
  - destruct X as [H|[H|(es1 & es2 & H1 & H2)]]; [auto..|]. left. exists es1, es2. split; [assumption|].
    unfold read_to_string. now rewrite H2.
Qed.

Lemma alone_disk p f : forall es, leave_alone p es f ->
  fs_target (disk_after p es f) p = fs_target f p /\ fs_read (disk_after p es f) p = fs_read f p.
Proof.
  induction es as [|e es IH] using rev_ind; intros L; [now split|].
  assert (IH' := IH ltac:(intros f' H; apply L, in_or_app; now left)). unfold disk_after in *. rewrite loading_snoc.
  destruct (loading p es (Asking, f)) as [ph g]. cbn [snd] in IH'.
  destruct e as [| |n| | |f']; try (rewrite step_disk by discriminate; exact IH').
  cbn. apply L. apply in_or_app. right. now left.
Qed.

Lemma alone_append p es f : leave_alone p es f -> only_append p es f.
Proof.
  intros L es1 es2 es3 ->.
  assert (L1 : leave_alone p es1 f) by (intros f' H; apply L, in_or_app; now left).
  assert (L2 : leave_alone p (es1 ++ es2) f) by (intros f' H; apply L; rewrite app_assoc; apply in_or_app; now left).
  apply alone_disk in L1 as [-> ->]. apply alone_disk in L2 as [-> ->]. split; [reflexivity|].
  intros bs H. exists []. now rewrite app_nil_r.
Qed.

Lemma alone_load p es f ph f' r al : loading p es (Asking, f) = (ph, f') -> leave_alone p es f -> read_result ph = Some r ->
  (from_file_given al r f' p = from_file al f p /\ forall brk b, b_path b = Some p -> reload_given brk al r b = buf_reload brk al f b) \/
  (r = None /\ (In NotOpened es \/ In ReadError es)).
Proof.
  intros E L R. destruct (one_moment p es f ph f' r E (alone_append _ _ _ L) R) as [(es1 & es2 & H1 & H2)|H]; [left|now right].
  assert (L1 : leave_alone p es1 f) by (intros g H; apply L; rewrite H1; apply in_or_app; now left).
  apply alone_disk in L1 as [T1 R1]. apply alone_disk in L as [T2 R2]. unfold disk_after in T2, R2. rewrite E in T2, R2. cbn [snd] in *.
  assert (Er : r = read_to_string f p) by (rewrite H2; unfold read_to_string; now rewrite R1).
  split.
  - rewrite Er. unfold from_file_given, from_file. destruct (read_to_string f p) as [t|] eqn:Et; [|reflexivity].
    assert (Ec : fs_canon f' p = fs_canon f p); [|now rewrite Ec].
    unfold read_to_string in Et. destruct (fs_read f p) as [bs|] eqn:Eb; [|discriminate].
    unfold fs_read in Eb, R2. unfold fs_canon. rewrite T2 in *. destruct (fs_target f p) as [q|]; [|reflexivity].
    destruct (fs_node f q) as [[|]|]; try discriminate. destruct (fs_node f' q) as [[|]|]; try discriminate. reflexivity.
  - intros brk b Hb. rewrite Er. unfold reload_given, buf_reload. now rewrite Hb.
Qed.

Lemma loaded_stays p bs f es : Forall readable es -> loading p es (Loaded bs, f) = (Loaded bs, f).
Proof.
  induction 1 as [|e es He _ IH]; [reflexivity|]. cbn [loading fold_left]. change (fold_left _ es ?s) with (loading p es s).
  destruct e; cbn in He; try contradiction; exact IH.
Qed.

Lemma reads_finish p f q bs es : held f q = bs -> Forall readable es -> forall got, got = firstn (length got) bs ->
  length bs < length got + length (filter is_read es) -> loading p es (Reading q got, f) = (Loaded bs, f).
Proof.
  intros Hb. induction 1 as [|e es He Hes IH]; intros got Hg Hl.
  - cbn in Hl. assert (length got <= length bs) by (rewrite Hg, firstn_length; lia). lia.
  - cbn [loading fold_left]. change (fold_left _ es ?s) with (loading p es s).
    destruct e as [| |n| | |g]; cbn in He; try contradiction; cbn [filter is_read length] in Hl.
    + cbn [load_step]. rewrite Hb. destruct (firstn (n + 1) (skipn (length got) bs)) as [|y chunk] eqn:Ec.
      * apply chunk_ne in Ec. rewrite (all_prefix _ _ Hg Ec). now apply loaded_stays.
      * rewrite <- Ec. apply IH; [now apply more_prefix|]. rewrite app_length, Ec. cbn. lia.
    + cbn [load_step]. now apply IH.
Qed.
Lemma load_finishes p f bs es : fs_read f p = Some bs -> Forall readable es -> length bs < length (filter is_read es) ->
  loading p (Opened :: es) (Asking, f) = (Loaded bs, f).
Proof.
  intros Hr He Hl. cbn [loading fold_left]. change (fold_left _ es ?s) with (loading p es s). cbn [load_step].
  pose proof Hr as Hr'. unfold fs_read in Hr'. destruct (fs_target f p) as [q|] eqn:Et; [|discriminate].
  destruct (fs_node f q) as [[|]|] eqn:En; try discriminate. injection Hr' as ->.
  apply reads_finish; try assumption; [|reflexivity]. unfold held. now rewrite En.
Qed.

(** ** A load and a save *)

(** [got] is the first [k] bytes of [a] and then bytes of [b], in their places. *)
Definition mixed (P : nat -> Prop) (a b got : list byte) : Prop :=
  exists k, P k /\ k <= length a /\ k <= length got /\ (k < length got -> length got <= length b) /\
    got = firstn k a ++ firstn (length got - k) (skipn k b).

Lemma mixed_start (P : nat -> Prop) (a b got : list byte) : P (length got) -> got = firstn (length got) a -> mixed P a b got.
Proof.
  intros H E. assert (length got <= length a) by (rewrite E, firstn_length; lia).
  exists (length got). repeat split; try lia; [assumption|]. now rewrite Nat.sub_diag, firstn_O, app_nil_r.
Qed.
Lemma skipn_plus (l : list byte) k m : skipn (k + m) l = skipn m (skipn k l).
Proof. revert l; induction k as [|k IH]; intros l; [reflexivity|]. destruct l as [|x l]; [cbn; now rewrite skipn_nil|]. cbn. apply IH. Qed.
Lemma mixed_more (P : nat -> Prop) (a b got : list byte) w n : mixed P a b got ->
  mixed P a b (got ++ firstn n (skipn (length got) (firstn w b))).
Proof.
  intros (k & H1 & H2 & H3 & H4 & H5). exists k. rewrite !app_length. split; [assumption|]. split; [assumption|].
  split; [lia|].
  set (c := firstn n (skipn (length got) (firstn w b))).
  assert (Ec : c = firstn (length c) (skipn (length got) b)).
  { unfold c. rewrite skipn_firstn_comm, firstn_firstn. symmetry. apply firstn_taken. }
  assert (Lc : length c <= length b - length got) by (rewrite Ec, firstn_length, skipn_length; lia).
  split.
  - intros H. destruct (Nat.eq_dec k (length got)) as [->|]; [|lia]. lia.
  - replace (length got + length c - k) with ((length got - k) + length c) by lia. rewrite firstn_plus, app_assoc, <- H5.
    f_equal. rewrite <- skipn_plus. replace (k + (length got - k)) with (length got) by lia. exact Ec.
Qed.
Lemma mixed_mixture (P : nat -> Prop) (a b got : list byte) : mixed P a b got -> exists k m, P k /\ k <= length a /\ m <= length b /\ got = mixture a b k m.
Proof.
  intros (k & H1 & H2 & H3 & H4 & H5). destruct (Nat.eq_dec k (length got)) as [E|E].
  - exists k, 0. repeat split; try assumption; [lia|]. unfold mixture. rewrite firstn_O, skipn_nil, app_nil_r.
    rewrite E, Nat.sub_diag, firstn_O, app_nil_r in H5. now rewrite E.
  - exists k, (length got). repeat split; try assumption; [lia|]. unfold mixture. now rewrite skipn_firstn_comm.
Qed.
Lemma mixed_all (P : nat -> Prop) (a b got : list byte) : mixed P a b got -> skipn (length got) b = [] ->
  exists k, P k /\ k <= length a /\ got = firstn k a ++ skipn k b.
Proof.
  intros (k & H1 & H2 & H3 & H4 & H5) H. exists k. repeat split; try assumption. rewrite H5 at 1. f_equal.
  apply firstn_all2. rewrite skipn_length. pose proof (skipn_length (length got) b) as L. rewrite H in L. cbn in L. lia.
Qed.

(** What is true at any moment: [f0] is the disk at first, [q] the file, [a] what was in it. *)
Definition both (P : nat -> Prop) (f0 : fsys) (q : path) (a b : list byte) (lph : lphase) (ph : phase) (f : fsys) : Prop :=
  so_far b f0 ph f /\ (forall x, opened ph = Some x -> x = q) /\
  match lph with
  | Asking | Unread => True
  | Reading x got => x = q /\ match opened ph with None => got = firstn (length got) a | Some _ => mixed P a b got end
  | Loaded bs => exists k m, P k /\ k <= length a /\ m <= length b /\ bs = mixture a b k m
  end.

Lemma both_held (P : nat -> Prop) f0 q a b lph ph f : fs_node f0 q = Some (Regular a) -> both P f0 q a b lph ph f ->
  match opened ph with None => held f q = a | Some _ => exists w, held f q = firstn w b end.
Proof.
  intros Ha (S & O & _). unfold held. destruct ph as [|x pos|x|[x|]]; cbn [opened so_far] in *.
  - subst f. now rewrite Ha.
  - rewrite (O x eq_refl) in S. destruct S as ((k & _ & -> & _) & _). now exists k.
  - rewrite (O x eq_refl) in S. destruct S as ((k & _ & -> & _) & _). now exists k.
  - rewrite (O x eq_refl) in S. destruct S as ((k & _ & -> & _) & _). now exists k.
  - subst f. now rewrite Ha.
Qed.
Lemma so_far_target data f0 ph f : so_far data f0 ph f -> fs_target f = fs_target f0.
Proof. destruct ph as [|x pos|x|[x|]]; cbn; try (now intros ->); now intros (_ & _ & H). Qed.

Lemma both_load (P : nat -> Prop) p f0 q a b lph ph f e : fs_target f0 p = Some q -> fs_node f0 q = Some (Regular a) -> P 0 ->
  (opened ph <> None \/ forall k, P k) ->
  (forall g, e <> Elsewhere g) -> both P f0 q a b lph ph f ->
  both P f0 q a b (fst (load_step p e (lph, f))) ph f /\ snd (load_step p e (lph, f)) = f.
Proof.
  intros Ht Ha P0 HP He B. split; [|now apply step_disk]. pose proof (both_held _ _ _ _ _ _ _ _ Ha B) as Hh.
  destruct B as (S & O & L). split; [assumption|]. split; [assumption|].
  destruct e as [| |n| | |g]; destruct lph as [|x got|bs|]; cbn [load_step fst]; try exact L; try exact I.
  - rewrite (so_far_target _ _ _ _ S), Ht. destruct (fs_node f q) as [[|]|]; cbn; try exact I. split; [reflexivity|].
    destruct (opened ph); [|reflexivity]. apply mixed_start; [assumption|reflexivity].
  - destruct L as [-> L]. destruct (firstn (n + 1) (skipn (length got) (held f q))) as [|y chunk] eqn:Ec; cbn [fst].
    + destruct (opened ph) eqn:Eo.
      * now apply mixed_mixture.
      * apply mixed_mixture, mixed_start; [|assumption]. destruct HP as [HP|HP]; [congruence|apply HP].
    + split; [reflexivity|]. rewrite <- Ec. destruct (opened ph).
      * destruct Hh as (w & ->). now apply mixed_more.
      * rewrite Hh. now apply more_prefix.
Qed.

Lemma both_save (P : nat -> Prop) p p' f0 q a b lph ph f e : fs_target f0 p = Some q -> fs_target f0 p' = Some q -> fs_node f0 q = Some (Regular a) ->
  (opened ph <> None \/ forall k, P k) -> (forall g, e <> Other g) -> both P f0 q a b lph ph f ->
  both P f0 q a b lph (fst (save_step p' b e (ph, f))) (snd (save_step p' b e (ph, f))) /\
  (opened (fst (save_step p' b e (ph, f))) <> None \/ forall k, P k).
Proof.
  intros Ht Ht' Ha HP He (S & O & L).
  pose proof (so_far_step p' b f0 e ph f S ltac:(destruct e; try exact I; now destruct (He f1))) as S'.
  replace (left_by_others [e] f0) with f0 in S' by (destruct e; try reflexivity; now destruct (He f1)).
  assert (T := so_far_target _ _ _ _ S).
  destruct (opened ph) as [x|] eqn:Eo.
  - assert (Eo' : opened (fst (save_step p' b e (ph, f))) = Some x) by (rewrite opened_step; congruence).
    split; [|left; congruence]. split; [assumption|]. split.
    + intros y Hy. rewrite Eo' in Hy. injection Hy as <-. now apply O.
    + rewrite Eo'. exact L.
  - destruct HP as [HP|HP]; [congruence|]. split; [|now right]. split; [assumption|]. split.
    + intros y Hy. destruct ph as [|z pos|z|[z|]]; try discriminate; destruct e; cbn in Hy; try discriminate.
      * rewrite T, Ht' in Hy. destruct (fs_creatable f p'); [|discriminate]. cbn [fst] in Hy. unfold advance in Hy.
        destruct (0 <? length b); cbn in Hy; congruence.
    + destruct lph as [|x got|bs|]; try exact L. destruct L as [-> L]. split; [reflexivity|].
      destruct (opened (fst _)); [|assumption]. now apply mixed_start.
Qed.

Lemma both_run (P : nat -> Prop) p p' f0 q a b es : only_they es -> fs_target f0 p = Some q -> fs_target f0 p' = Some q ->
  fs_node f0 q = Some (Regular a) -> P 0 -> forall lph ph f lph' ph' f', both P f0 q a b lph ph f ->
  (opened ph <> None \/ forall k, P k) ->
  loading_saving p p' b es (lph, ph, f) = (lph', ph', f') -> both P f0 q a b lph' ph' f'.
Proof.
  intros Ho Ht Ht' Ha P0. induction es as [|e es IH]; intros lph ph f lph' ph' f' B HP E.
  - cbn in E. now injection E as <- <- <-.
  - assert (Ho' : only_they es) by (intros g; split; intros H; [apply (proj1 (Ho g))|apply (proj2 (Ho g))]; now right).
    cbn [loading_saving fold_left] in E. change (fold_left _ es ?s) with (loading_saving p p' b es s) in E.
    destruct e as [e|e]; cbn [load_save] in E.
    + destruct (both_load P p f0 q a b lph ph f e Ht Ha P0 HP ltac:(intros g ->; apply (proj1 (Ho g)); now left) B) as [B' D].
      destruct (load_step p e (lph, f)) as [l1 f1]. cbn [fst snd] in *. subst f1. exact (IH Ho' _ _ _ _ _ _ B' HP E).
    + destruct (both_save P p p' f0 q a b lph ph f e Ht Ht' Ha HP ltac:(intros g ->; apply (proj2 (Ho g)); now left) B) as [B' HP'].
      destruct (save_step p' b e (ph, f)) as [p1 f1]. cbn [fst snd] in *. exact (IH Ho' _ _ _ _ _ _ B' HP' E).
Qed.

Lemma both_init f0 q a b : both (fun _ => True) f0 q a b Asking Opening f0.
Proof. split; [reflexivity|]. split; [discriminate|exact I]. Qed.

Lemma load_mixture p p' es f q a b bs ph f' : only_they es -> fs_target f p = Some q -> fs_target f p' = Some q ->
  fs_node f q = Some (Regular a) -> loading_saving p p' b es (Asking, Opening, f) = (Loaded bs, ph, f') ->
  exists k m, k <= length a /\ m <= length b /\ bs = mixture a b k m.
Proof.
  intros Ho Ht Ht' Ha E.
  destruct (both_run (fun _ => True) p p' f q a b es Ho Ht Ht' Ha I _ _ _ _ _ _ (both_init f q a b) (or_intror (fun _ => I)) E)
    as (_ & _ & k & m & _ & H). now exists k, m.
Qed.

(** A load that is over before the save opens the file. *)
Lemma load_first p p' es f q a b bs ph f' : only_they es -> fs_target f p = Some q -> fs_target f p' = Some q ->
  fs_node f q = Some (Regular a) -> loading_saving p p' b es (Asking, Opening, f) = (Loaded bs, ph, f') ->
  opened ph = None -> bs = a.
Proof.
  intros Ho Ht Ht' Ha E Hn.
  assert (X : forall es, only_they es -> forall lph ph0 f1 lph' ph' f',
    so_far b f ph0 f1 -> (match lph with Reading x got => x = q /\ got = firstn (length got) a | Loaded bs => bs = a | _ => True end) ->
    loading_saving p p' b es (lph, ph0, f1) = (lph', ph', f') -> opened ph' = None ->
    match lph' with Reading x got => x = q /\ got = firstn (length got) a | Loaded bs => bs = a | _ => True end).
  2:{ exact (X es Ho Asking Opening f _ _ _ eq_refl I E Hn). }
  clear es Ho E Hn ph f' bs. induction es as [|e es IH]; intros Ho lph ph0 f1 lph' ph' f' S L E Hn.
  - cbn in E. now injection E as <- <- <-.
  - assert (Ho' : only_they es) by (intros g; split; intros H; [apply (proj1 (Ho g))|apply (proj2 (Ho g))]; now right).
    cbn [loading_saving fold_left] in E. change (fold_left _ es ?s) with (loading_saving p p' b es s) in E.
    assert (N0 : opened ph0 = None).
    { destruct (opened ph0) as [x|] eqn:Ex; [|reflexivity]. exfalso.
      assert (Y : forall es s, opened (snd (fst s)) = Some x -> opened (snd (fst (loading_saving p p' b es s))) = Some x).
      { clear. induction es as [|e es IH]; intros [[l h] g] H; [exact H|]. cbn [loading_saving fold_left].
        change (fold_left _ es ?s) with (loading_saving p p' b es s). apply IH. cbn [fst snd] in H.
        destruct e as [e|e]; cbn [load_save].
        - now destruct (load_step p e (l, g)).
        - destruct (save_step p' b e (h, g)) as [h' g'] eqn:Es. cbn [fst snd].
          pose proof (opened_step p' b e h g ltac:(congruence)) as O. rewrite Es in O. cbn in O. congruence. }
      specialize (Y (e :: es) (lph, ph0, f1) Ex). cbn [loading_saving fold_left] in Y.
      change (fold_left _ es ?s) with (loading_saving p p' b es s) in Y. rewrite E in Y. cbn in Y. congruence. }
    assert (F1 : f1 = f) by (destruct ph0 as [|x pos|x|[x|]]; try discriminate; exact S). subst f1.
    destruct e as [e|e]; cbn [load_save] in E.
    + pose proof (step_disk p e lph f ltac:(intros g ->; apply (proj1 (Ho g)); now left)) as D.
      assert (L' : match fst (load_step p e (lph, f)) with Reading x got => x = q /\ got = firstn (length got) a | Loaded bs => bs = a | _ => True end).
      { destruct e as [| |n| | |g]; destruct lph as [|x got|bs|]; cbn [load_step fst]; try exact L; try exact I.
        - rewrite Ht, Ha. cbn. now split.
        - destruct L as [-> L]. unfold held. rewrite Ha.
          destruct (firstn (n + 1) (skipn (length got) a)) as [|y chunk] eqn:Ec; cbn [fst].
          + apply all_prefix; [assumption|]. now apply chunk_ne in Ec.
          + split; [reflexivity|]. rewrite <- Ec. now apply more_prefix. }
      destruct (load_step p e (lph, f)) as [l1 f1]. cbn [fst snd] in *. subst f1. exact (IH Ho' _ _ _ _ _ _ S L' E Hn).
    + pose proof (so_far_step p' b f e ph0 f S) as S'. rewrite N0 in S'. specialize (S' ltac:(now destruct e)).
      replace (left_by_others [e] f) with f in S' by (destruct e; try reflexivity; destruct (proj2 (Ho f0)); now left).
      destruct (save_step p' b e (ph0, f)) as [p1 f1]. cbn [fst snd] in *. exact (IH Ho' _ _ _ _ _ _ S' L E Hn).
Qed.

(** A load that goes on after the save has succeeded. *)
Lemma saved_run (P : nat -> Prop) p p' x q a b f es : only_they es -> fs_target f p = Some q -> held f q = b ->
  (exists bs, fs_node f q = Some (Regular bs)) -> P 0 ->
  forall lph lph' ph' f',
    (match lph with Reading y got => y = q /\ mixed P a b got | Loaded bs => exists k, P k /\ k <= length a /\ bs = firstn k a ++ skipn k b | _ => True end) ->
    loading_saving p p' b es (lph, Saved x, f) = (lph', ph', f') ->
    match lph' with Reading y got => y = q /\ mixed P a b got | Loaded bs => exists k, P k /\ k <= length a /\ bs = firstn k a ++ skipn k b | _ => True end.
Proof.
  intros Ho Ht Hh (c & Hc) P0. induction es as [|e es IH]; intros lph lph' ph' f' L E.
  - cbn in E. now injection E as <- <- <-.
  - assert (Ho' : only_they es) by (intros g; split; intros H; [apply (proj1 (Ho g))|apply (proj2 (Ho g))]; now right).
    cbn [loading_saving fold_left] in E. change (fold_left _ es ?s) with (loading_saving p p' b es s) in E.
    destruct e as [e|e]; cbn [load_save] in E.
    + pose proof (step_disk p e lph f ltac:(intros g ->; apply (proj1 (Ho g)); now left)) as D.
      assert (L' : match fst (load_step p e (lph, f)) with Reading y got => y = q /\ mixed P a b got | Loaded bs => exists k, P k /\ k <= length a /\ bs = firstn k a ++ skipn k b | _ => True end).
      { destruct e as [| |n| | |g]; destruct lph as [|y got|bs|]; cbn [load_step fst]; try exact L; try exact I.
        - rewrite Ht, Hc. cbn. split; [reflexivity|]. apply mixed_start; [assumption|reflexivity].
        - destruct L as [-> L]. rewrite Hh. destruct (firstn (n + 1) (skipn (length got) b)) as [|z chunk] eqn:Ec; cbn [fst].
          + apply chunk_ne in Ec. now apply mixed_all.
          + split; [reflexivity|]. rewrite <- Ec. pose proof (mixed_more P a b got (length b) (n + 1) L) as M.
            now rewrite firstn_all in M. }
      destruct (load_step p e (lph, f)) as [l1 f1]. cbn [fst snd] in *. subst f1. exact (IH Ho' _ _ _ _ L' E).
    + replace (save_step p' b e (Saved x, f)) with (Saved x, f) in E; [exact (IH Ho' _ _ _ _ L E)|].
      destruct e; try reflexivity. destruct (proj2 (Ho f0)). now left.
Qed.
Lemma ls_app p p' b es1 es2 s : loading_saving p p' b (es1 ++ es2) s = loading_saving p p' b es2 (loading_saving p p' b es1 s).
Proof. apply fold_left_app. Qed.

Lemma save_first p p' es1 es2 f q a b lph x f1 bs ph f' : only_they es1 -> only_they es2 -> fs_target f p = Some q -> fs_target f p' = Some q ->
  fs_node f q = Some (Regular a) -> loading_saving p p' b es1 (Asking, Opening, f) = (lph, Saved x, f1) ->
  (forall c, lph <> Loaded c) -> loading_saving p p' b es2 (lph, Saved x, f1) = (Loaded bs, ph, f') ->
  (exists k, k <= length a /\ bs = firstn k a ++ skipn k b) /\ (lph = Asking -> bs = b).
Proof.
  intros Ho1 Ho2 Ht Ht' Ha E1 Hl E2.
  pose proof (both_run (fun _ => True) p p' f q a b es1 Ho1 Ht Ht' Ha I _ _ _ _ _ _ (both_init f q a b) (or_intror (fun _ => I)) E1) as (S & O & L).
  pose proof (so_far_target _ _ _ _ S) as T. cbn [so_far opened] in *. rewrite (O x eq_refl) in S.
  destruct S as ((k & _ & Hk & ->) & _). rewrite firstn_all in Hk.
  assert (Hh : held f1 q = b) by (unfold held; now rewrite Hk).
  assert (Ht1 : fs_target f1 p = Some q) by (now rewrite T).
  split.
  - destruct (saved_run (fun _ => True) p p' x q a b f1 es2 Ho2 Ht1 Hh (ex_intro _ b Hk) I lph _ _ _
      ltac:(destruct lph as [|y got|c|]; try exact I; [exact L|now destruct (Hl c)]) E2) as (k & _ & H). now exists k.
  - intros ->. destruct (saved_run (fun k => k = 0) p p' x q a b f1 es2 Ho2 Ht1 Hh (ex_intro _ b Hk) eq_refl Asking _ _ _ I E2) as (k & -> & _ & H).
    exact H.
Qed.

(** Every mixture can be loaded, and the save then succeed. *)
Lemma ls_inr p p' b es : forall l ph f, loading_saving p p' b (map inr es) (l, ph, f)
  = (l, fst (saving p' b es (ph, f)), snd (saving p' b es (ph, f))).
Proof.
  induction es as [|e es IH]; intros l ph f; [reflexivity|]. cbn [map loading_saving saving fold_left load_save].
  change (fold_left _ es ?s) with (saving p' b es s). change (fold_left _ (map inr es) ?s) with (loading_saving p p' b (map inr es) s).
  destruct (save_step p' b e (ph, f)) as [ph' f']. apply IH.
Qed.
Lemma ls_inl p p' b es : forall l ph f, loading_saving p p' b (map inl es) (l, ph, f)
  = (fst (loading p es (l, f)), ph, snd (loading p es (l, f))).
Proof.
  induction es as [|e es IH]; intros l ph f; [reflexivity|]. cbn [map loading_saving loading fold_left load_save].
  change (fold_left _ es ?s) with (loading p es s). change (fold_left _ (map inl es) ?s) with (loading_saving p p' b (map inl es) s).
  destruct (load_step p e (l, f)) as [l' f']. apply IH.
Qed.
Lemma take_some p q f got n : length got + (n + 1) <= length (held f q) ->
  load_step p (Took n) (Reading q got, f) = (Reading q (got ++ firstn (n + 1) (skipn (length got) (held f q))), f).
Proof.
  intros H. cbn. destruct (firstn (n + 1) (skipn (length got) (held f q))) eqn:E; [|reflexivity].
  apply chunk_ne in E. pose proof (skipn_length (length got) (held f q)) as L. rewrite E in L. cbn in L. lia.
Qed.
Lemma take_to p q f got : exists es, Forall readable es /\
  loading p es (Reading q got, f) = (Loaded (got ++ skipn (length got) (held f q)), f).
Proof.
  destruct (length (skipn (length got) (held f q))) as [|n] eqn:E.
  - exists [Took 0]. split; [now repeat constructor|]. cbn. destruct (skipn (length got) (held f q)); [|discriminate]. cbn. now rewrite app_nil_r.
  - exists [Took n; Took 0]. split; [now repeat constructor|]. cbn [loading fold_left]. rewrite skipn_length in E.
    rewrite take_some by lia. rewrite firstn_all2 by (rewrite skipn_length; lia). cbn [load_step].
    rewrite skipn_all2; [reflexivity|]. rewrite app_length, skipn_length. lia.
Qed.

Lemma they_inl es : Forall readable es -> only_they (map inl es).
Proof.
  intros H f. split; intros K; apply in_map_iff in K as (e & Ee & Hi); [|discriminate]. injection Ee as ->.
  rewrite Forall_forall in H. apply (H _ Hi).
Qed.
Lemma they_inr es : Forall accepting es -> only_they (map inr es).
Proof.
  intros H f. split; intros K; apply in_map_iff in K as (e & Ee & Hi); [discriminate|]. injection Ee as ->.
  rewrite Forall_forall in H. apply (H _ Hi).
Qed.
Lemma they_app es1 es2 : only_they es1 -> only_they es2 -> only_they (es1 ++ es2).
Proof. intros H1 H2 f. split; intros K; apply in_app_or in K as [K|K]; [apply (proj1 (H1 f) K)|apply (proj1 (H2 f) K)|apply (proj2 (H1 f) K)|apply (proj2 (H2 f) K)]. Qed.
Lemma they_one e : (match e with inl (Elsewhere _) | inr (Other _) => False | _ => True end) -> only_they [e].
Proof. intros H f. split; intros [->|[]]; exact H. Qed.

Lemma any_mixture p p' f q a b k m : fs_target f p = Some q -> fs_target f p' = Some q -> fs_node f q = Some (Regular a) ->
  k <= length a -> m <= length b -> exists es x f', only_they es /\
    loading_saving p p' b es (Asking, Opening, f) = (Loaded (mixture a b k m), Saved x, f').
Proof.
  intros Ht Ht' Ha Hk Hm.
  assert (S1 : exists es, only_they es /\ loading_saving p p' b es (Asking, Opening, f) = (Reading q (firstn k a), Opening, f)).
  { destruct k as [|k].
    - exists [inl Opened]. split; [now apply they_one|]. cbn. now rewrite Ht, Ha.
    - exists [inl Opened; inl (Took k)]. split; [now apply (they_app [_] [_]); apply they_one|].
      cbn [loading_saving fold_left load_save load_step]. rewrite Ht, Ha.
      change (match load_step p (Took k) (Reading q [], f) with (lph, f1) => (lph, Opening, f1) end = (Reading q (firstn (S k) a), Opening, f)).
      assert (Hh : held f q = a) by (unfold held; now rewrite Ha).
      rewrite take_some by (cbn; rewrite Hh; lia). rewrite Hh. cbn [length skipn app]. now rewrite Nat.add_1_r. }
  assert (S2 : exists es f2, only_they (map inr es) /\ saving p' b es (Opening, f) = (advance b q m, f2) /\ held f2 q = firstn m b).
  { assert (Hc : fs_creatable f p' = true) by (unfold fs_creatable; now rewrite Ht', Ha).
    destruct m as [|m].
    - destruct (created p' b f Hc) as (y & Ey & Es). rewrite Ht' in Ey. injection Ey as <-. exists [Created], (holding f q []).
      split; [now apply they_one|]. split; [exact Es|]. unfold held. now rewrite node_holding.
    - destruct (one_write p' b f (S m) Hc ltac:(lia) Hm) as (y & Ey & f2 & Es & Sd). rewrite Ht' in Ey. injection Ey as <-.
      exists [Created; Wrote (S m)], f2. split; [now apply (they_app [_] [_]); apply they_one|]. split; [exact Es|].
      unfold held. rewrite (proj2 Sd q). unfold fs_write. rewrite Ht'. cbn. now rewrite path_eqb_refl. }
  destruct S1 as (es1 & O1 & E1). destruct S2 as (es2 & f2 & O2 & E2 & Hh).
  destruct (take_to p q f2 (firstn k a)) as (es3 & R3 & E3).
  assert (Lk : length (firstn k a) = k) by (rewrite firstn_length; lia).
  rewrite Lk, Hh in E3.
  destruct (writes_finish p' b q (repeat (Wrote 1) (length b))) with (pos := m) (f := f2) as (f4 & E4).
  { apply Forall_forall. intros e He. apply repeat_spec in He as ->. cbn. lia. }
  { assumption. }
  { assert (X : forall n, length (filter is_write (repeat (Wrote 1) n)) = n) by (induction n; cbn; congruence). rewrite X. lia. }
  exists (es1 ++ map inr es2 ++ map inl es3 ++ map inr (repeat (Wrote 1) (length b))), q, f4. split.
  - repeat apply they_app; try assumption; [now apply they_inl|]. apply they_inr. apply Forall_forall.
    intros e He. apply repeat_spec in He as ->. cbn. lia.
  - rewrite !ls_app, E1, ls_inr, E2. cbn [fst snd]. rewrite ls_inl, E3. cbn [fst snd]. rewrite ls_inr, E4. reflexivity.
Qed.

(** The buffer that such a load gives. *)
Lemma mixture_buffer p p' es f q a u bs ph f' al b : only_they es -> fs_target f p = Some q -> fs_target f p' = Some q ->
  fs_node f q = Some (Regular a) -> loading_saving p p' (enc u) es (Asking, Opening, f) = (Loaded bs, ph, f') ->
  from_file_given al (decode_strict bs) f' p = Ok (ROk b) ->
  exists t k m, buf_data b = Ok t /\ k <= length a /\ m <= length (enc u) /\ enc t = mixture a (enc u) k m /\
    buf_modified b = false /\ b_path b = Some q.
Proof.
  intros Ho Ht Ht' Ha E Eb. destruct (load_mixture _ _ _ _ _ _ _ _ _ _ Ho Ht Ht' Ha E) as (k & m & Hk & Hm & Hb).
  pose proof (both_run (fun _ => True) p p' f q a (enc u) es Ho Ht Ht' Ha I _ _ _ _ _ _ (both_init f q a (enc u)) (or_intror (fun _ => I)) E) as (S & _).
  apply so_far_target in S. destruct (decode_strict bs) as [t|] eqn:Ed; [|discriminate].
  destruct (decode_strict_valid bs t Ed) as [V En].
  set (g := holding f' q bs).
  assert (Rg : read_to_string g p = Some t).
  { unfold read_to_string, fs_read, g. cbn [fs_target holding]. rewrite S, Ht. rewrite node_holding. exact Ed. }
  destruct (load_ok g p t al Rg) as (b0 & cp & E0 & D0 & _ & M0 & T0 & P0).
  unfold from_file in E0. rewrite Rg in E0. cbn [from_file_given] in Eb.
  destruct (gb_new al t) as [gb|]; [|discriminate]. cbn [bind] in E0, Eb.
  unfold fs_canon in E0, Eb. cbn [g fs_target holding] in E0, T0. rewrite S, Ht in E0, Eb, T0. injection T0 as <-.
  unfold g in E0. rewrite node_holding in E0. destruct (fs_node f' q); [|discriminate].
  injection E0 as <-. injection Eb as <-. exists t, k, m. repeat split; try assumption. congruence.
Qed.
Lemma mixture_reload brk b0 f p' es q p a u bs ph f' al b : reachable_buffer brk b0 f -> alloc_ok al -> b_path b0 = Some p ->
  only_they es -> fs_target f p = Some q -> fs_target f p' = Some q ->
  fs_node f q = Some (Regular a) -> loading_saving p p' (enc u) es (Asking, Opening, f) = (Loaded bs, ph, f') ->
  reload_given brk al (decode_strict bs) b0 = Ok (ROk tt, b) ->
  exists t k m, buf_data b = Ok t /\ k <= length a /\ m <= length (enc u) /\ enc t = mixture a (enc u) k m /\
    buf_modified b = false /\ b_path b = b_path b0.
Proof.
  intros R Hal Hp Ho Ht Ht' Ha E Eb. destruct (load_mixture _ _ _ _ _ _ _ _ _ _ Ho Ht Ht' Ha E) as (k & m & Hk & Hm & Hb).
  unfold reload_given in Eb. rewrite Hp in Eb. destruct (decode_strict bs) as [t|] eqn:Ed; [|discriminate].
  destruct (decode_strict_valid bs t Ed) as [V En].
  set (g := holding f q bs).
  assert (Rg : read_to_string g p = Some t).
  { unfold read_to_string, fs_read, g. cbn [fs_target holding]. rewrite Ht. rewrite node_holding. exact Ed. }
  assert (R' : reachable_buffer brk b0 g).
  { exact (BufferFacts.reachable_step brk al (BDisk g) b0 f _ b0 g R Hal I eq_refl). }
  assert (Eb' : buf_reload brk al g b0 = Ok (ROk tt, b)) by (unfold buf_reload; rewrite Hp, Rg; exact Eb).
  destruct (reload_ok brk b0 g al al b R' Hal Hal Eb') as (p0 & s & t0 & P0 & S0 & _ & D & M & _ & _ & P1 & _).
  rewrite Hp in P0. injection P0 as <-. rewrite Rg in S0. injection S0 as <-.
  exists t, k, m. repeat split; try assumption. congruence.
Qed.
