(** Proofs about power failures when files are taken to the device in pieces. *)
From Verif Require Import Base Utf8 Grapheme Position GapBuffer Cursor PathModel Buffer Spec BufferCalls
  BufferIoProps Saving SavingSpec SavingProofs Power PowerProofs Torn TornSpec.

Lemma pick_length n h : length (pick n h) = n.
Proof. unfold pick. now rewrite map_length, seq_length. Qed.
Lemma pick_nth n h i : i < n -> nth_error (pick n h) i = Some (h i).
Proof.
  intros L. unfold pick. rewrite nth_error_map. rewrite (nth_error_nth' (seq 0 n) 0) by now rewrite seq_length.
  now rewrite seq_nth.
Qed.
Lemma pick_some n h i b : nth_error (pick n h) i = Some b -> i < n /\ b = h i.
Proof.
  intros E. assert (L : i < n) by (apply nth_error_Some_lt in E || (rewrite <- (pick_length n h); apply nth_error_Some; congruence); lia).
  rewrite (pick_nth n h i L) in E. split; [exact L|congruence].
Qed.
Lemma byte_some bs i : i < length bs -> nth_error bs i = Some (byte_at bs i).
Proof. intros L. unfold byte_at. now apply nth_error_nth'. Qed.
Lemma byte_none bs i : length bs <= i -> byte_at bs i = 0%N.
Proof. intros L. unfold byte_at. now apply nth_overflow. Qed.
Lemma nth_error_ext_len {T} (a b : list T) : length a = length b -> (forall i, i < length a -> nth_error a i = nth_error b i) -> a = b.
Proof.
  revert b. induction a as [|x a IH]; intros [|y b] L H; try discriminate; [reflexivity|].
  assert (E : x = y) by (specialize (H 0 ltac:(cbn; lia)); cbn in H; congruence). subst y. f_equal. apply IH; [now injection L|].
  intros i Li. apply (H (S i)). cbn. lia.
Qed.
Lemma pick_bytes bs : pick (length bs) (byte_at bs) = bs.
Proof.
  apply nth_error_ext_len. - now rewrite pick_length.
  - intros i L. rewrite pick_length in L. rewrite (pick_nth _ _ _ L). symmetry. now apply byte_some.
Qed.

Lemma held_holding g q bs x : held (holding g q bs) x = if path_eqb x q then bs else held g x.
Proof. unfold held, holding. cbn. now destruct (path_eqb x q). Qed.
Lemma node_holding g q bs x : fs_node (holding g q bs) x = if path_eqb x q then Some (Regular bs) else fs_node g x.
Proof. reflexivity. Qed.

Lemma torn_sees p data evs : forall ph f g, let '(ph', f', _) := torn p data evs (ph, f, g) in
  saving p data (done_to_save evs) (ph, f) = (ph', f').
Proof.
  induction evs as [|[e|q|q lo hi] evs IH]; intros ph f g; [reflexivity| | |].
  - cbn [torn fold_left torn_step done_to_save flat_map app saving].
    destruct (save_step p data e (ph, f)) as [ph1 f1] eqn:E. apply IH.
  - cbn [torn fold_left torn_step done_to_save flat_map app]. apply IH.
  - cbn [torn fold_left torn_step done_to_save flat_map app]. apply IH.
Qed.
Lemma torn_app p data evs1 evs2 s : torn p data (evs1 ++ evs2) s = torn p data evs2 (torn p data evs1 s).
Proof. apply fold_left_app. Qed.
Lemma torn_alone evs : undisturbed_torn evs -> alone (done_to_save evs).
Proof.
  intros H f Hf. apply in_flat_map in Hf as ([e|q|q lo hi] & Hi & He); [|destruct He..].
  destruct He as [->|[]]. exact (H f Hi).
Qed.

Lemma firstn_some {A} (l : list A) k i x : nth_error (firstn k l) i = Some x -> nth_error l i = Some x.
Proof.
  revert l i. induction k as [|k IH]; intros l i; [destruct i; discriminate|]. destruct l as [|y l]; [destruct i; discriminate|].
  destruct i as [|i]; [easy|]. cbn [firstn nth_error]. apply IH.
Qed.

Theorem torn_left : forall p data evs f g ph f' g', undisturbed_torn evs ->
  torn p data evs (Opening, f, g) = (ph, f', g') -> forall x, left_over p data f g g' x.
Proof.
  intros p data evs. induction evs as [|ev evs IH] using rev_ind; intros f g ph f' g' C E x.
  - injection E as _ _ <-. split; [now left|]. split; [now left|]. intros i b H. auto.
  - assert (C' : undisturbed_torn evs) by (intros h Hh; apply (C h), in_or_app; now left).
    rewrite torn_app in E. destruct (torn p data evs (Opening, f, g)) as [[ph1 f1] g1] eqn:E1.
    specialize (IH f g ph1 f1 g1 C' E1 x). pose proof (torn_sees p data evs Opening f g) as S. rewrite E1 in S.
    assert (Seen : forall seen, fs_node f1 x = Some (Regular seen) ->
      (length seen = length (held f x) \/ fs_target f p = Some x /\ length seen <= length data) /\
      forall i b, nth_error seen i = Some b -> nth_error (held f x) i = Some b \/ fs_target f p = Some x /\ nth_error data i = Some b).
    { intros seen Hs. destruct (seen_file p data (done_to_save evs) f ph1 f1 x (torn_alone _ C') S) as [H|(Ht & k & Hk & H)].
      - assert (held f x = seen) by (unfold held; now rewrite <- H, Hs). subst seen. split; auto.
      - rewrite Hs in H. injection H as ->. rewrite firstn_length_le by exact Hk. split; [auto|].
        intros i b Hb. right. split; [exact Ht|]. eapply firstn_some; eassumption. }
    destruct ev as [e|q|q lo hi]; cbn [torn fold_left torn_step] in E.
    + destruct (save_step p data e (ph1, f1)) as [ph2 f2]. injection E as _ _ <-. exact IH.
    + injection E as _ _ <-. unfold take_size. destruct (path_eqb x q) eqn:Ex.
      2: { destruct (fs_node f1 q) as [[seen|]|]; try exact IH. unfold left_over. rewrite held_holding, node_holding, Ex. exact IH. }
      apply path_eqb_eq in Ex. subst q. destruct (fs_node f1 x) as [[seen|]|]; try exact IH.
      destruct (Seen seen eq_refl) as [Ls Bs]. unfold left_over. rewrite held_holding, node_holding, path_eqb_refl, pick_length.
      split; [now right|]. split; [tauto|]. intros i b H. apply pick_some in H as [L ->].
      destruct (Nat.lt_ge_cases i (length (held g1 x))) as [L1|L1]; [|left; now apply byte_none].
      destruct IH as (_ & _ & IH). apply (IH i). now apply byte_some.
    + injection E as _ _ <-. unfold take_bytes. destruct (path_eqb x q) eqn:Ex.
      2: { destruct (fs_node f1 q) as [[seen|]|]; try exact IH. destruct (fs_node g1 q) as [[dev|]|]; try exact IH.
           unfold left_over. rewrite held_holding, node_holding, Ex. exact IH. }
      apply path_eqb_eq in Ex. subst q. destruct (fs_node f1 x) as [[seen|]|]; try exact IH.
      destruct (fs_node g1 x) as [[dev|]|] eqn:Dx; try exact IH.
      destruct (Seen seen eq_refl) as [Ls Bs]. unfold left_over. rewrite held_holding, node_holding, path_eqb_refl, pick_length.
      assert (Hd : held g1 x = dev) by (unfold held; now rewrite Dx). destruct IH as (_ & I2 & I3). rewrite Hd in I2, I3.
      split; [now right|]. split; [exact I2|]. intros i b H. apply pick_some in H as [L ->].
      destruct ((lo <=? i) && (i <? hi) && (i <? length seen)) eqn:T.
      * apply andb_prop in T as [_ T]. apply Nat.ltb_lt in T. right. right. apply Bs. now apply byte_some.
      * apply (I3 i). now apply byte_some.
Qed.

(** ** In time *)

Lemma after_saved p data evs q : undisturbed_torn evs -> forall f g, exists g', torn p data evs (Saved q, f, g) = (Saved q, f, g').
Proof.
  induction evs as [|[e|r|r lo hi] evs IH]; intros C f g; [now exists g| | |];
    (assert (C' : undisturbed_torn evs) by (intros k Hk; apply (C k); now right)); cbn [torn fold_left torn_step].
  - assert (X : save_step p data e (Saved q, f) = (Saved q, f)).
    { destruct e as [| |n| | |k]; try reflexivity. exfalso. apply (C k). now left. }
    rewrite X. now apply IH.
  - now apply IH.
  - now apply IH.
Qed.
(** The file [q] is on the device at its full length, and byte [i] is there. *)
Definition sized (data : list byte) (q : path) (g : fsys) : Prop := exists dev, fs_node g q = Some (Regular dev) /\ length dev = length data.
Definition there (data : list byte) (q : path) (i : nat) (g : fsys) : Prop :=
  exists dev, fs_node g q = Some (Regular dev) /\ length dev = length data /\ byte_at dev i = byte_at data i.
Lemma step_keeps p data q f ev : fs_node f q = Some (Regular data) -> undisturbed_torn [ev] -> forall g g',
  torn_step p data ev (Saved q, f, g) = (Saved q, f, g') ->
  (sized data q g -> sized data q g') /\ (forall i, i < length data -> there data q i g -> there data q i g').
Proof.
  intros N C g g'. destruct ev as [e|r|r lo hi]; cbn [torn_step].
  - destruct (save_step p data e (Saved q, f)). intros [= _ _ <-]. auto.
  - intros [= <-]. unfold take_size. destruct (path_eqb q r) eqn:Er.
    + apply path_eqb_eq in Er. subst r. rewrite N. unfold sized, there. rewrite node_holding, path_eqb_refl. split.
      * intros _. eexists. split; [reflexivity|]. apply pick_length.
      * intros i L (dev & Hd & Ll & Hb). eexists. split; [reflexivity|]. split; [apply pick_length|].
        unfold held. rewrite Hd, <- Ll, pick_bytes. exact Hb.
    + destruct (fs_node f r) as [[seen|]|]; auto. unfold sized, there. rewrite node_holding, Er. auto.
  - intros [= <-]. unfold take_bytes. destruct (path_eqb q r) eqn:Er.
    + apply path_eqb_eq in Er. subst r. rewrite N. destruct (fs_node g q) as [[dev|]|] eqn:Dq; [|now auto..].
      unfold sized, there. rewrite node_holding, path_eqb_refl, Dq. split.
      * intros (d & [= <-] & L). eexists. split; [reflexivity|]. now rewrite pick_length.
      * intros i L (d & [= <-] & Ll & Hb). eexists. split; [reflexivity|]. rewrite pick_length. split; [exact Ll|].
        unfold byte_at at 1. erewrite nth_error_nth; [|apply pick_nth; now rewrite Ll].
        destruct ((lo <=? i) && (i <? hi) && (i <? length data)); [reflexivity|exact Hb].
    + destruct (fs_node f r) as [[seen|]|]; auto. destruct (fs_node g r) as [[dev|]|]; auto. unfold sized, there. rewrite node_holding, Er. auto.
Qed.
Lemma run_keeps p data q f evs : fs_node f q = Some (Regular data) -> undisturbed_torn evs -> forall g g',
  torn p data evs (Saved q, f, g) = (Saved q, f, g') ->
  (sized data q g -> sized data q g') /\ (forall i, i < length data -> there data q i g -> there data q i g').
Proof.
  intros N. induction evs as [|ev evs IH]; intros C g g' E; [injection E as <-; auto|].
  assert (C1 : undisturbed_torn [ev]) by (intros k [Hk|[]]; apply (C k); now left).
  assert (C' : undisturbed_torn evs) by (intros k Hk; apply (C k); now right).
  destruct (after_saved p data [ev] q C1 f g) as (g1 & E1). change (torn p data (ev :: evs) (Saved q, f, g)) with
    (torn p data evs (torn p data [ev] (Saved q, f, g))) in E. rewrite E1 in E.
  destruct (step_keeps p data q f ev N C1 g g1 E1) as [A B]. destruct (IH C' g1 g' E) as [A' B']. split; auto.
Qed.
Lemma cover_there p data q f lo hi i g g' : fs_node f q = Some (Regular data) -> sized data q g -> i < length data -> lo <= i < hi ->
  torn p data [Bytes q lo hi] (Saved q, f, g) = (Saved q, f, g') -> there data q i g'.
Proof.
  intros N (dev & Hd & L) Li B E. cbn [torn fold_left torn_step] in E. injection E as <-. unfold take_bytes. rewrite N, Hd.
  unfold there. rewrite node_holding, path_eqb_refl. eexists. split; [reflexivity|]. rewrite pick_length. split; [exact L|].
  unfold byte_at at 1. erewrite nth_error_nth; [|apply pick_nth; now rewrite L].
  rewrite (proj2 (Nat.leb_le _ _)), !(proj2 (Nat.ltb_lt _ _)) by lia. reflexivity.
Qed.

Lemma torn_saved p data evs f g q f1 g1 : undisturbed_torn evs -> torn p data evs (Opening, f, g) = (Saved q, f1, g1) ->
  fs_node f1 q = Some (Regular data).
Proof.
  intros C E. pose proof (torn_sees p data evs Opening f g) as S. rewrite E in S.
  pose proof (alone_moment _ _ _ _ _ _ S (torn_alone _ C)) as M. cbn [opened] in M. destruct M as (Hq & k & Hk & [_ Hd] & Hs).
  rewrite Hd, (Hs eq_refl), firstn_all. unfold fs_write. rewrite Hq. cbn. now rewrite path_eqb_refl.
Qed.
Lemma undisturbed_app a b : undisturbed_torn (a ++ b) -> undisturbed_torn a /\ undisturbed_torn b.
Proof. intros H. split; intros f Hf; apply (H f), in_or_app; auto. Qed.
Theorem torn_in_time : forall p data evs1 evs2 evs3 f g q f1 g1 ph f' g', undisturbed_torn (evs1 ++ evs2 ++ Size q :: evs3) ->
  torn p data evs1 (Opening, f, g) = (Saved q, f1, g1) -> cover q (length data) evs3 ->
  torn p data (evs1 ++ evs2 ++ Size q :: evs3) (Opening, f, g) = (ph, f', g') ->
  fs_node g' q = Some (Regular data).
Proof.
  intros p data evs1 evs2 evs3 f g q f1 g1 ph f' g' C E1 Cv E.
  apply undisturbed_app in C as [C1 C]. apply undisturbed_app in C as [C2 C].
  assert (C3 : undisturbed_torn evs3) by (intros k Hk; apply (C k); now right). clear C.
  pose proof (torn_saved _ _ _ _ _ _ _ _ C1 E1) as N. rewrite torn_app, E1, torn_app in E.
  destruct (after_saved p data evs2 q C2 f1 g1) as (g2 & E2). rewrite E2 in E.
  change (torn p data (Size q :: evs3) (Saved q, f1, g2)) with (torn p data evs3 (Saved q, f1, take_size f1 g2 q)) in E.
  set (g3 := take_size f1 g2 q) in *.
  assert (Z : sized data q g3).
  { unfold g3, take_size. rewrite N. unfold sized. rewrite node_holding, path_eqb_refl. eexists. split; [reflexivity|]. apply pick_length. }
  destruct (after_saved p data evs3 q C3 f1 g3) as (g4 & E3). rewrite E3 in E. injection E as _ _ <-.
  destruct (run_keeps p data q f1 evs3 N C3 g3 g4 E3) as [Zk _]. destruct (Zk Z) as (dev & Hd & Ld). rewrite Hd. do 2 f_equal.
  apply nth_error_ext_len; [exact Ld|]. intros i Li. rewrite Ld in Li.
  destruct (Cv i Li) as (lo & hi & Hin & B). apply in_split in Hin as (u & v & ->).
  apply undisturbed_app in C3 as [Cu Cv']. assert (Cw : undisturbed_torn v) by (intros k Hk; apply (Cv' k); now right).
  rewrite torn_app in E3. destruct (after_saved p data u q Cu f1 g3) as (g5 & E5). rewrite E5 in E3.
  change (torn p data (Bytes q lo hi :: v) (Saved q, f1, g5)) with (torn p data v (torn p data [Bytes q lo hi] (Saved q, f1, g5))) in E3.
  destruct (after_saved p data [Bytes q lo hi] q) with (f := f1) (g := g5) as (g6 & E6); [intros k [H|[]]; discriminate|]. rewrite E6 in E3.
  destruct (run_keeps p data q f1 u N Cu g3 g5 E5) as [Zu _].
  pose proof (cover_there _ _ _ _ _ _ _ _ _ N (Zu Z) Li B E6) as T.
  destruct (run_keeps p data q f1 v N Cw g6 g4 E3) as [_ Tk]. destruct (Tk i Li T) as (d & Hd' & Ll & Hb). rewrite Hd in Hd'. injection Hd' as <-.
  rewrite (byte_some dev) by lia. rewrite (byte_some data) by lia. now rewrite Hb.
Qed.

(** ** As a whole *)

Theorem whole_flush : forall f g q seen, fs_node f q = Some (Regular seen) -> forall x,
  fs_node (take_bytes f (take_size f g q) q 0 (length seen)) x = fs_node (flush f g q) x.
Proof.
  intros f g q seen N x. unfold take_bytes, take_size. rewrite N. rewrite node_holding, path_eqb_refl, node_holding, node_holding, pick_length.
  cbn [flush fs_node]. destruct (path_eqb x q); [|reflexivity]. rewrite N. do 2 f_equal. transitivity (pick (length seen) (byte_at seen)); [|apply pick_bytes].
  unfold pick at 1 3. apply map_ext_in. intros i Hi. apply in_seq in Hi. rewrite (proj2 (Nat.ltb_lt _ _)) by lia. reflexivity.
Qed.

(** ** Any mixture *)

Definition chosen (mask : nat -> bool) (q : path) (l : list nat) : list piece :=
  flat_map (fun i => if mask i then [Bytes q i (S i)] else []) l.
Lemma chosen_calm mask q l : undisturbed_torn (chosen mask q l).
Proof. intros f H. apply in_flat_map in H as (i & _ & H). destruct (mask i); [destruct H as [H|[]]; discriminate|destruct H]. Qed.
Lemma chosen_run p data mask q f : fs_node f q = Some (Regular data) -> forall l old g, fs_node g q = Some (Regular (pick (length data) old)) ->
  exists g', torn p data (chosen mask q l) (Saved q, f, g) = (Saved q, f, g') /\
    fs_node g' q = Some (Regular (pick (length data) (fun i => if existsb (Nat.eqb i) l && mask i then byte_at data i else old i))).
Proof.
  intros N l. induction l as [|k l IH]; intros old g G.
  - exists g. split; [reflexivity|]. exact G.
  - unfold chosen. cbn [flat_map existsb]. destruct (mask k) eqn:Mk.
    + change ([Bytes q k (S k)] ++ flat_map (fun i => if mask i then [Bytes q i (S i)] else []) l) with (Bytes q k (S k) :: chosen mask q l).
      change (torn p data (Bytes q k (S k) :: chosen mask q l) (Saved q, f, g)) with
        (torn p data (chosen mask q l) (Saved q, f, take_bytes f g q k (S k))).
      destruct (IH (fun i => if Nat.eqb i k then byte_at data i else old i) (take_bytes f g q k (S k))) as (g' & E & H).
      { unfold take_bytes. rewrite N, G, node_holding, path_eqb_refl, pick_length. do 2 f_equal. apply map_ext_in. intros i Hi. apply in_seq in Hi.
        unfold byte_at at 2. erewrite nth_error_nth; [|apply pick_nth; lia].
        destruct (Nat.eqb_spec i k) as [->|Ne].
        - rewrite Nat.leb_refl, !(proj2 (Nat.ltb_lt _ _)) by lia. reflexivity.
        - destruct (Nat.leb_spec k i), (Nat.ltb_spec i (S k)); try lia; reflexivity. }
      exists g'. split; [exact E|]. rewrite H. do 2 f_equal. apply map_ext. intros i. destruct (Nat.eqb_spec i k) as [->|Ne]; cbn [orb].
      * rewrite Mk. now destruct (existsb (Nat.eqb k) l).
      * reflexivity.
    + change ([] ++ flat_map (fun i => if mask i then [Bytes q i (S i)] else []) l) with (chosen mask q l).
      destruct (IH old g G) as (g' & E & H). exists g'. split; [exact E|]. rewrite H. do 2 f_equal. apply map_ext. intros i.
      destruct (Nat.eqb_spec i k) as [->|Ne]; cbn [orb]; [|reflexivity]. rewrite Mk. now rewrite !andb_false_r.
Qed.

Theorem any_mixture : forall p data f q (mask : nat -> bool) (keep : bool), fs_creatable f p = true -> fs_target f p = Some q ->
  exists evs f' g', undisturbed_torn evs /\ torn p data evs (Opening, f, f) = (Saved q, f', g') /\
    fs_node f' q = Some (Regular data) /\
    fs_node g' q = Some (Regular (mixture mask data (if keep then held f q else []))).
Proof.
  intros p data f q mask keep C T.
  set (first := Now Created :: (if keep then [] else [Size q]) ++ [Now (Wrote (length data))]).
  assert (U1 : undisturbed_torn first).
  { intros h H. unfold first in H. destruct keep; cbn in H; intuition discriminate. }
  assert (S1 : exists f1 g1, torn p data first (Opening, f, f) = (Saved q, f1, g1) /\
             held g1 q = if keep then held f q else []).
  { assert (W : forall g, exists f1, torn p data [Now (Wrote (length data))] (advance data q 0, holding f q [], g) = (Saved q, f1, g)).
    { intros g. unfold advance. destruct data as [|x data']; cbn [length Nat.ltb Nat.leb].
      - cbn. eauto.
      - cbn [torn fold_left torn_step save_step skipn]. change (S (length data')) with (length (x :: data')). rewrite firstn_all.
        unfold advance. rewrite Nat.add_0_l, Nat.ltb_irrefl. eauto. }
    assert (St : save_step p data Created (Opening, f) = (advance data q 0, holding f q [])) by (cbn; now rewrite T, C).
    unfold first. destruct keep.
    - destruct (W f) as (f1 & E). exists f1, f. split; [|reflexivity].
      change (torn p data (Now Created :: [] ++ [Now (Wrote (length data))]) (Opening, f, f)) with
        (torn p data [Now (Wrote (length data))] (torn_step p data (Now Created) (Opening, f, f))).
      cbn [torn_step]. rewrite St. exact E.
    - destruct (W (take_size (holding f q []) f q)) as (f1 & E). exists f1, (take_size (holding f q []) f q). split.
      + change (torn p data (Now Created :: [Size q] ++ [Now (Wrote (length data))]) (Opening, f, f)) with
          (torn p data [Now (Wrote (length data))] (torn_step p data (Size q) (torn_step p data (Now Created) (Opening, f, f)))).
        cbn [torn_step]. rewrite St. exact E.
      + unfold take_size. rewrite node_holding, path_eqb_refl, held_holding, path_eqb_refl. reflexivity. }
  destruct S1 as (f1 & g1 & E1 & H1). pose proof (torn_saved _ _ _ _ _ _ _ _ U1 E1) as N.
  assert (G2 : fs_node (take_size f1 g1 q) q = Some (Regular (pick (length data) (byte_at (held g1 q))))).
  { unfold take_size. now rewrite N, node_holding, path_eqb_refl. }
  destruct (chosen_run p data mask q f1 N (seq 0 (length data)) _ _ G2) as (g' & E & H).
  exists (first ++ Size q :: chosen mask q (seq 0 (length data))), f1, g'. split.
  { intros h Hh. apply in_app_or in Hh as [Hh|[Hh|Hh]]; [now apply (U1 h)|discriminate|now apply (chosen_calm mask q (seq 0 (length data)) h)]. }
  split; [rewrite torn_app, E1; exact E|]. split; [exact N|]. rewrite H. do 2 f_equal. apply map_ext_in. intros i Hi.
  assert (X : existsb (Nat.eqb i) (seq 0 (length data)) = true) by (apply existsb_exists; exists i; split; [exact Hi|apply Nat.eqb_refl]).
  rewrite X. cbn [andb]. now rewrite H1.
Qed.

(** ** Reading what is left *)

Lemma torn_target p data evs : forall ph f g, let '(_, _, g') := torn p data evs (ph, f, g) in fs_target g' = fs_target g.
Proof.
  induction evs as [|[e|q|q lo hi] evs IH]; intros ph f g; [reflexivity| | |]; cbn [torn fold_left torn_step].
  - destruct (save_step p data e (ph, f)) as [ph1 f1]. apply IH.
  - specialize (IH ph f (take_size f g q)). unfold torn in IH. destruct (fold_left _ evs _) as [[ph' f'] g']. rewrite IH.
    unfold take_size. now destruct (fs_node f q) as [[|]|].
  - specialize (IH ph f (take_bytes f g q lo hi)). unfold torn in IH. destruct (fold_left _ evs _) as [[ph' f'] g']. rewrite IH.
    unfold take_bytes. destruct (fs_node f q) as [[|]|]; try reflexivity. now destruct (fs_node g q) as [[|]|].
Qed.
Lemma all_zero data : mixture (fun _ => false) data [] = enc (repeat 0%N (length data)).
Proof.
  unfold mixture. assert (Z : forall l : list nat, map (fun i => nth i (@nil byte) 0%N) l = enc (repeat 0%N (length l))).
  { induction l as [|i l IH]; [reflexivity|]. cbn [map length repeat]. rewrite IH. now destruct i. }
  rewrite Z. now rewrite seq_length.
Qed.
Theorem reads_zeros : forall al p data f q, fs_creatable f p = true -> fs_target f p = Some q ->
  exists evs f' g' b, undisturbed_torn evs /\ torn p data evs (Opening, f, f) = (Saved q, f', g') /\
    fs_node f' q = Some (Regular data) /\
    from_file al g' p = Ok (ROk b) /\ buf_data b = Ok (repeat 0%N (length data)) /\ buf_modified b = false.
Proof.
  intros al p data f q C T. destruct (any_mixture p data f q (fun _ => false) false C T) as (evs & f' & g' & U & E & N & G).
  pose proof (torn_target p data evs Opening f f) as Tg. rewrite E in Tg. rewrite all_zero in G.
  assert (R : read_to_string g' p = Some (repeat 0%N (length data))).
  { apply readable. split.
    - unfold valid_text. rewrite Forall_forall. intros c Hc. apply repeat_spec in Hc. now subst c.
    - unfold fs_read. now rewrite Tg, T, G. }
  destruct (load_ok g' p _ al R) as (b & cp & L & D & _ & M & _). exists evs, f', g', b. auto 8.
Qed.
