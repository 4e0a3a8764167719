(** Proofs about files that other programs replace by renaming. *)
From Verif Require Import Base Utf8 Utf8Proofs PathModel Buffer BufferIoProps HardLinks Saving SavingProofs Loading LoadingSpec LoadingProofs
  Renaming RenamingSpec.

(** ** Loads *)

Lemma iloading_app p es1 es2 s : iloading p (es1 ++ es2) s = iloading p es2 (iloading p es1 s).
Proof. apply fold_left_app. Qed.
Lemma iloading_snoc p es e s : iloading p (es ++ [e]) s = iload_step p e (iloading p es s).
Proof. now rewrite iloading_app. Qed.

Definition quiet (e : ihappening) : Prop := match e with IRenamed _ _ _ | IChanged _ => False | _ => True end.
Lemma istep_disk p e ph h : quiet e -> snd (iload_step p e (ph, h)) = h.
Proof.
  intros H. destruct e, ph; cbn; try reflexivity; try contradiction.
  - destruct (file_of h p) as [i|]; [|reflexivity]. now destruct (hd_node h i).
  - now destruct (firstn _ _).
Qed.

Lemma reads_file h p i : file_of h p = Some i -> reads h p = match hd_node h i with Regular bs => Some bs | Special => None end.
Proof.
  unfold file_of, reads, fs_read, seen. cbn. destruct (hd_target h p) as [q|]; [|discriminate]. now intros ->.
Qed.
Lemma reads_none h p : file_of h p = None -> reads h p = None.
Proof. unfold file_of, reads, fs_read, seen. cbn. destruct (hd_target h p) as [q|]; [|reflexivity]. now intros ->. Qed.

Lemma version_run p h : forall es, never_rewritten p es h ->
  match fst (iloading p es (IAsking, h)) with
  | IAsking => True
  | IReading i got => exists es1 es2 bs, es = es1 ++ es2 /\ file_of (disk_then p es1 h) p = Some i /\
      hd_node (disk_then p es1 h) i = Regular bs /\ got = firstn (length got) bs
  | ILoaded bs => exists es1 es2, es = es1 ++ es2 /\ reads (disk_then p es1 h) p = Some bs
  | IUnread => In INotOpened es \/ In IReadError es \/ exists es1 es2, es = es1 ++ es2 /\ reads (disk_then p es1 h) p = None
  end.
Proof.
  induction es as [|e es IH] using rev_ind; intros A; [exact I|].
  assert (A' : never_rewritten p es h).
  { intros es1 es2 es3 i ->. apply (A es1 es2 (es3 ++ [e])). now rewrite <- !app_assoc. }
  specialize (IH A').
  assert (Keep : match fst (iloading p es (IAsking, h)) with
    | IAsking => True
    | IReading i got => exists es1 es2 bs, es ++ [e] = es1 ++ es2 /\ file_of (disk_then p es1 h) p = Some i /\
        hd_node (disk_then p es1 h) i = Regular bs /\ got = firstn (length got) bs
    | ILoaded bs => exists es1 es2, es ++ [e] = es1 ++ es2 /\ reads (disk_then p es1 h) p = Some bs
    | IUnread => In INotOpened (es ++ [e]) \/ In IReadError (es ++ [e]) \/
        exists es1 es2, es ++ [e] = es1 ++ es2 /\ reads (disk_then p es1 h) p = None
    end).
  { destruct (fst (iloading p es (IAsking, h))) as [|i got|bs|]; [exact I|..].
    - destruct IH as (es1 & es2 & bs & -> & R). exists es1, (es2 ++ [e]), bs. now rewrite app_assoc.
    - destruct IH as (es1 & es2 & -> & R). exists es1, (es2 ++ [e]). now rewrite app_assoc.
    - destruct IH as [R|[R|(es1 & es2 & -> & R)]].
      + left. apply in_or_app. now left.
      + right; left. apply in_or_app. now left.
      + right; right. exists es1, (es2 ++ [e]). now rewrite app_assoc. }
  assert (D : snd (iloading p es (IAsking, h)) = disk_then p es h) by reflexivity.
  rewrite iloading_snoc. destruct (iloading p es (IAsking, h)) as [ph g] eqn:E. cbn [fst snd] in *.
  destruct e as [| |n| | |q new bs|h']; destruct ph as [|i got|bs'|]; cbn [iload_step fst]; try exact Keep; try exact I.
  - destruct (file_of g p) as [i|] eqn:Ef.
    + destruct (hd_node g i) as [bs|] eqn:En; cbn [fst].
      * exists es, [IOpened], bs. rewrite <- D. now repeat split.
      * right; right. exists es, [IOpened]. split; [reflexivity|]. rewrite <- D, (reads_file _ _ _ Ef). now rewrite En.
    + cbn. right; right. exists es, [IOpened]. split; [reflexivity|]. rewrite <- D. now apply reads_none.
  - cbn. left. apply in_or_app. right. now left.
  - clear Keep. destruct IH as (es1 & es2 & bs & -> & Hf & Hn & Hg).
    assert (Hc : contents g i = bs).
    { unfold contents. rewrite D, (A' es1 es2 [] i); [now rewrite Hn|now rewrite app_nil_r|assumption]. }
    rewrite Hc. destruct (firstn (n + 1) (skipn (length got) bs)) as [|y chunk] eqn:Ec; cbn [fst].
    + exists es1, (es2 ++ [ITook n]). split; [now rewrite app_assoc|]. rewrite (reads_file _ _ _ Hf), Hn. f_equal. symmetry.
      apply all_prefix; [assumption|]. now apply chunk_ne in Ec.
    + exists es1, (es2 ++ [ITook n]), bs. split; [now rewrite app_assoc|]. split; [assumption|]. split; [assumption|].
      rewrite <- Ec. now apply more_prefix.
  - right; left. apply in_or_app. right. now left.
Qed.

Lemma one_version p es h ph h' r : iloading p es (IAsking, h) = (ph, h') -> never_rewritten p es h -> iread_result ph = Some r ->
  (exists es1 es2, es = es1 ++ es2 /\ r = read_to_string (seen (disk_then p es1 h)) p) \/
  (r = None /\ (In INotOpened es \/ In IReadError es)).
Proof.
  intros E A R. pose proof (version_run p h es A) as X. rewrite E in X. cbn [fst] in X.
  destruct ph as [|i got|bs|]; try discriminate; injection R as <-.
  - destruct X as (es1 & es2 & H1 & H2). left. exists es1, es2. split; [assumption|]. unfold read_to_string. unfold reads in H2. now rewrite H2.
  - destruct X as [H|[H|(es1 & es2 & H1 & H2)]]; [auto..|]. left. exists es1, es2. split; [assumption|].
    unfold read_to_string. unfold reads in H2. now rewrite H2.
Qed.

(** Renaming writes no file that has a name. *)
Lemma new_files_app es1 es2 : new_files (es1 ++ es2) = new_files es1 ++ new_files es2.
Proof. apply flat_map_app. Qed.

Lemma numbers_run p h : forall es, (forall h', ~ In (IChanged h') es) -> forall x i, hd_file (disk_then p es h) x = Some i ->
  (exists y, hd_file h y = Some i) \/ In i (new_files es).
Proof.
  induction es as [|e es IH] using rev_ind; intros N x i.
  - intros H. left. now exists x.
  - assert (N' : forall h', ~ In (IChanged h') es) by (intros h' H; apply (N h'), in_or_app; now left). specialize (IH N').
    unfold disk_then in *. rewrite iloading_snoc, new_files_app, in_app_iff. destruct (iloading p es (IAsking, h)) as [ph g]. cbn [snd] in IH.
    assert (Q : quiet e -> hd_file (snd (iload_step p e (ph, g))) x = Some i ->
      (exists y, hd_file h y = Some i) \/ In i (new_files es) \/ In i (new_files [e])).
    { intros Q H. rewrite istep_disk in H by assumption. destruct (IH x i H); auto. }
    destruct e as [| |n| | |q new bs|h']; try (apply Q; exact I).
    + cbn. destruct (path_eqb x q); [intros [= ->]; right; right; now left|]. intros H. destruct (IH x i H); auto.
    + destruct (N h'). apply in_or_app. right. now left.
Qed.

Lemma renames_keep p h es : only_renames es h -> never_rewritten p es h.
Proof.
  intros (N & Nd & U) es1 es2 es3 i -> Hf. rewrite !new_files_app in Nd, U.
  assert (Hi : ~ In i (new_files es2)).
  { intros Hi. unfold file_of in Hf. destruct (hd_target (disk_then p es1 h) p) as [q|]; [|discriminate].
    apply numbers_run in Hf as [(y & Hy)|Hy].
    - rewrite Forall_forall in U. assert (Ui : unused h i) by (apply U, in_or_app; right; apply in_or_app; now left). now apply (Ui y).
    - clear - Nd Hi Hy. induction (new_files es1) as [|x l IH]; [contradiction|]. cbn [app] in Nd. apply NoDup_cons_iff in Nd as [H1 H2].
      destruct Hy as [->|Hy]; [|now apply IH]. apply H1, in_or_app. right. apply in_or_app. now left.
    - intros h' H. apply (N h'), in_or_app. now left. }
  assert (N2 : forall h', ~ In (IChanged h') es2) by (intros h' H; apply (N h'), in_or_app; right; apply in_or_app; now left).
  clear N Nd U Hf. revert Hi N2. induction es2 as [|e es2 IH] using rev_ind; intros Hi N2; [now rewrite app_nil_r|].
  rewrite new_files_app in Hi. rewrite app_assoc.
  rewrite <- IH; [|intros H; apply Hi, in_or_app; now left|intros h' H; apply (N2 h'), in_or_app; now left].
  unfold disk_then. rewrite iloading_snoc. destruct (iloading p (es1 ++ es2) (IAsking, h)) as [ph g].
  destruct e as [| |n| | |q new bs|h']; try (now rewrite istep_disk by exact I).
  - cbn. destruct (N.eqb_spec i new) as [->|]; [|reflexivity]. destruct Hi. apply in_or_app. right. now left.
  - destruct (N2 h'). apply in_or_app. right. now left.
Qed.

Lemma one_version_of_renamed p es h ph h' r : iloading p es (IAsking, h) = (ph, h') -> only_renames es h -> iread_result ph = Some r ->
  (exists es1 es2, es = es1 ++ es2 /\ r = read_to_string (seen (disk_then p es1 h)) p) \/
  (r = None /\ (In INotOpened es \/ In IReadError es)).
Proof. intros E O R. apply (one_version p es h ph h' r E); [now apply renames_keep|exact R]. Qed.

(** The load ends. *)
Lemma iloaded_stays p bs : forall es h, Forall ireadable es -> fst (iloading p es (ILoaded bs, h)) = ILoaded bs.
Proof.
  induction es as [|e es IH]; intros h H; [reflexivity|]. inversion_clear H as [|? ? He Hs].
  cbn [iloading fold_left]. change (fold_left _ es ?s) with (iloading p es s).
  destruct e; cbn in He; try contradiction; cbn [iload_step]; now apply IH.
Qed.
Lemma ireads_finish p i bs : forall es h got, hd_node h i = Regular bs -> ~ In i (new_files es) -> Forall ireadable es ->
  got = firstn (length got) bs -> length bs < length got + length (filter is_iread es) ->
  fst (iloading p es (IReading i got, h)) = ILoaded bs.
Proof.
  induction es as [|e es IH]; intros h got Hn Hi Hr Hg Hl.
  - cbn in Hl. assert (length got <= length bs) by (rewrite Hg, firstn_length; lia). lia.
  - inversion_clear Hr as [|? ? He Hs]. cbn [iloading fold_left]. change (fold_left _ es ?s) with (iloading p es s).
    change (e :: es) with ([e] ++ es) in Hi. rewrite new_files_app in Hi.
    assert (Hi' : ~ In i (new_files es)) by (intros H; apply Hi, in_or_app; now right).
    destruct e as [| |n| | |q new b|h']; cbn in He; try contradiction; cbn [filter is_iread length] in Hl; cbn [iload_step].
    + unfold contents. rewrite Hn. destruct (firstn (n + 1) (skipn (length got) bs)) as [|y chunk] eqn:Ec.
      * apply chunk_ne in Ec. rewrite (all_prefix _ _ Hg Ec). now apply iloaded_stays.
      * rewrite <- Ec. apply IH; try assumption; [now apply more_prefix|]. rewrite app_length, Ec. cbn. lia.
    + now apply IH.
    + apply IH; try assumption. cbn. destruct (N.eqb_spec i new) as [->|]; [|exact Hn]. destruct Hi. now left.
Qed.
Lemma iload_finishes p h bs es : reads h p = Some bs -> only_renames es h -> Forall ireadable es ->
  length bs < length (filter is_iread es) -> fst (iloading p (IOpened :: es) (IAsking, h)) = ILoaded bs.
Proof.
  intros Hr (_ & _ & U) He Hl. cbn [iloading fold_left]. change (fold_left _ es ?s) with (iloading p es s). cbn [iload_step].
  destruct (file_of h p) as [i|] eqn:Ef; [|rewrite (reads_none _ _ Ef) in Hr; discriminate].
  rewrite (reads_file _ _ _ Ef) in Hr. destruct (hd_node h i) as [bs'|] eqn:En; [|discriminate]. injection Hr as ->.
  apply ireads_finish; try assumption; [|reflexivity].
  intros Hi. rewrite Forall_forall in U. unfold file_of in Ef. destruct (hd_target h p) as [q|]; [|discriminate]. now apply (U i Hi q).
Qed.

(** ** The same by name *)

Definition named (h : hdisk) (ph : iphase) (lph : lphase) : Prop :=
  match ph, lph with
  | IAsking, Asking => True
  | IReading i got, Reading q got' => hd_file h q = Some i /\ got' = got
  | ILoaded bs, Loaded bs' => bs' = bs
  | IUnread, Unread => True
  | _, _ => False
  end.
Lemma seen_step p e ph lph h : (forall q new bs, e <> IRenamed q new bs) ->
  (forall h', e = IChanged h' -> hd_file h' = hd_file h) -> named h ph lph ->
  let '(ph', h') := iload_step p e (ph, h) in let '(lph', f') := load_step p (by_name e) (lph, seen h) in
  named h' ph' lph' /\ f' = seen h'.
Proof.
  intros Hr Hc N. destruct e as [| |n| | |q new bs|h']; try (now destruct (Hr q new bs)).
  - destruct ph, lph; cbn in N; try contradiction; try (now cbn). cbn [iload_step by_name load_step].
    unfold file_of. cbn. destruct (hd_target h p) as [q|]; [|now cbn]. destruct (hd_file h q) as [i|] eqn:E; [|now cbn].
    destruct (hd_node h i); now cbn.
  - destruct ph, lph; cbn in N; try contradiction; now cbn.
  - destruct ph, lph; cbn in N; try contradiction; try (now cbn). destruct N as [N ->]. cbn [iload_step by_name load_step].
    assert (H : held (seen h) q = contents h i) by (unfold held, contents, seen; cbn; now rewrite N). rewrite H.
    destruct (firstn _ _); now cbn.
  - destruct ph, lph; cbn in N; try contradiction; now cbn.
  - destruct ph, lph; cbn in N; try contradiction; now cbn.
  - cbn. split; [|reflexivity]. specialize (Hc h' eq_refl). destruct ph, lph; cbn in *; try assumption. now rewrite Hc.
Qed.
Lemma seen_run p : forall es h ph lph, in_place es h -> named h ph lph ->
  named (snd (iloading p es (ph, h))) (fst (iloading p es (ph, h))) (fst (loading p (map by_name es) (lph, seen h))) /\
  snd (loading p (map by_name es) (lph, seen h)) = seen (snd (iloading p es (ph, h))).
Proof.
  induction es as [|e es IH]; intros h ph lph [P1 P2] N; [now split|].
  cbn [map iloading loading fold_left]. change (fold_left _ es ?s) with (iloading p es s). change (fold_left _ (map by_name es) ?s) with (loading p (map by_name es) s).
  pose proof (seen_step p e ph lph h ltac:(intros q new bs ->; apply (P1 q new bs); now left)
    ltac:(intros h' ->; apply (P2 h'); now left) N) as X.
  assert (Hd : hd_target (snd (iload_step p e (ph, h))) = hd_target h /\ hd_file (snd (iload_step p e (ph, h))) = hd_file h).
  { destruct e as [| |n| | |q new bs|h']; try (now rewrite istep_disk by exact I).
    - destruct (P1 q new bs). now left.
    - apply P2. now left. }
  destruct (iload_step p e (ph, h)) as [ph' h']. destruct (load_step p (by_name e) (lph, seen h)) as [lph' f'].
  destruct X as [N' ->]. cbn [snd] in Hd. destruct Hd as [D1 D2]. apply IH; [|assumption]. split.
  - intros q new bs H. apply (P1 q new bs). now right.
  - intros h2 H. rewrite D1, D2. apply P2. now right.
Qed.
Lemma in_place_loads p es h ph h' : in_place es h -> iloading p es (IAsking, h) = (ph, h') ->
  exists lph, loading p (map by_name es) (Asking, seen h) = (lph, seen h') /\ read_result lph = iread_result ph.
Proof.
  intros P E. destruct (seen_run p es h IAsking Asking P I) as [N S]. rewrite E in N, S. cbn [fst snd] in N, S.
  destruct (loading p (map by_name es) (Asking, seen h)) as [lph f'] eqn:L. cbn [fst snd] in N, S. subst f'. exists lph. split; [reflexivity|].
  destruct ph, lph; cbn in N; try contradiction; try reflexivity. now subst.
Qed.

(** ** Saves *)

Lemma isaving_app p data es1 es2 s : isaving p data (es1 ++ es2) s = isaving p data es2 (isaving p data es1 s).
Proof. apply fold_left_app. Qed.
Lemma isaving_snoc p data es e s : isaving p data (es ++ [e]) s = isave_step p data e (isaving p data es s).
Proof. now rewrite isaving_app. Qed.
Lemma saved_files_app es1 es2 : saved_files (es1 ++ es2) = saved_files es1 ++ saved_files es2.
Proof. apply flat_map_app. Qed.

Definition open_file (ph : sphase) : option N :=
  match ph with SWriting i _ | SSaved i => Some i | SFailed o => o | SOpening => None end.

Section Save.
Context (p q : path) (data : list byte) (h0 : hdisk).
Hypothesis leads : hd_target h0 p = Some q.

Definition known (es : list shappening) (i : N) : Prop := (exists y, hd_file h0 y = Some i) \/ In i (saved_files es).
Definition put_there (es : list shappening) (bs : list byte) : Prop := exists es1 n es2, es = es1 ++ SRenamed q n bs :: es2.
Definition replaced (es : list shappening) (h : hdisk) (i : N) : Prop :=
  exists es1 n bs es2, es = es1 ++ SRenamed q n bs :: es2 /\ has_opened (fst (isaving p data es1 (SOpening, h0))) = true /\
    n <> i /\ hd_file h q = Some n /\ hd_node h n = Regular bs.
Definition wrote (es : list shappening) (h : hdisk) (i : N) (pos : nat) : Prop :=
  hd_node h i = Regular (firstn pos data) /\ (hd_file h q = Some i \/ replaced es h i).
Record sinv (es : list shappening) (ph : sphase) (h : hdisk) : Prop := SInv {
  si_target : hd_target h = hd_target h0;
  si_num : forall x i, hd_file h x = Some i -> known es i;
  si_open : forall i, open_file ph = Some i -> known es i;
  si_file : match ph with
    | SOpening | SFailed None => reads h p = reads h0 p \/ exists bs, put_there es bs /\ reads h p = Some bs
    | SWriting i pos => pos < length data /\ wrote es h i pos
    | SSaved i => wrote es h i (length data)
    | SFailed (Some i) => exists pos, wrote es h i pos
    end }.

Lemma known_snoc es e i : known es i -> known (es ++ [e]) i.
Proof. intros [H|H]; [now left|right]. rewrite saved_files_app. apply in_or_app. now left. Qed.
Lemma put_snoc es e bs : put_there es bs -> put_there (es ++ [e]) bs.
Proof. intros (es1 & n & es2 & ->). exists es1, n, (es2 ++ [e]). now rewrite <- app_assoc. Qed.
Lemma replaced_snoc es e h h' i : (forall n, hd_file h q = Some n -> n <> i -> hd_file h' q = Some n /\ hd_node h' n = hd_node h n) ->
  replaced es h i -> replaced (es ++ [e]) h' i.
Proof.
  intros K (es1 & n & bs & es2 & -> & O & Ne & F & B). destruct (K n F Ne) as [F' B'].
  exists es1, n, bs, (es2 ++ [e]). rewrite <- app_assoc. repeat split; try assumption. now rewrite B'.
Qed.
Lemma wrote_same es e h i pos : wrote es h i pos -> wrote (es ++ [e]) h i pos.
Proof. intros [A [B|B]]; split; try assumption; [now left|]. right. now apply (replaced_snoc es e h h i). Qed.
Lemma sinv_same es e ph h : sinv es ph h -> sinv (es ++ [e]) ph h.
Proof.
  intros [A B C D]. split; [assumption| | |].
  - intros x i H. eapply known_snoc, B, H.
  - intros i H. now apply known_snoc, C.
  - destruct ph as [|i pos|i|[i|]].
    + destruct D as [D|(bs & D & E)]; [now left|]. right. exists bs. split; [now apply put_snoc|assumption].
    + destruct D. split; [assumption|]. now apply wrote_same.
    + now apply wrote_same.
    + destruct D as [pos D]. exists pos. now apply wrote_same.
    + destruct D as [D|(bs & D & E)]; [now left|]. right. exists bs. split; [now apply put_snoc|assumption].
Qed.
Lemma reads_q h : hd_target h = hd_target h0 -> reads h p = match hd_file h q with
  | Some i => match hd_node h i with Regular bs => Some bs | Special => None end | None => None end.
Proof. intros E. unfold reads, fs_read, seen. cbn. rewrite E, leads. destruct (hd_file h q) as [i|]; [|reflexivity]. now destruct (hd_node h i). Qed.

Lemma wrote_renamed es ph g q' new bs i pos : isaving p data es (SOpening, h0) = (ph, g) -> has_opened ph = true ->
  i <> new -> (forall n, hd_file g q = Some n -> n <> new) ->
  wrote es g i pos -> wrote (es ++ [SRenamed q' new bs]) (hd_rename g q' new bs) i pos.
Proof.
  intros E O Ni Nq [A B]. split; [cbn; now apply N.eqb_neq in Ni as ->|]. cbn.
  destruct (path_eqb q q') eqn:Eq.
  - apply path_eqb_eq in Eq as <-. right. exists es, new, bs, []. rewrite E. cbn [fst]. split; [reflexivity|]. split; [exact O|].
    split; [now apply not_eq_sym|]. cbn. rewrite path_eqb_refl, N.eqb_refl. now split.
  - destruct B as [B|B]; [now left|right]. apply (replaced_snoc es _ g _ i); [|exact B]. intros n Hn _. cbn. rewrite Eq. split; [exact Hn|].
    specialize (Nq n Hn). now apply N.eqb_neq in Nq as ->.
Qed.

Lemma sinv_run : forall es, new_numbers es h0 -> forall ph h, isaving p data es (SOpening, h0) = (ph, h) -> sinv es ph h.
Proof.
  induction es as [|e es IH] using rev_ind; intros [Nd U] ph h E.
  - injection E as <- <-. split; [reflexivity|intros x i H; left; now exists x|discriminate|now left].
  - rewrite saved_files_app in Nd, U. rewrite isaving_snoc in E.
    assert (N' : new_numbers es h0).
    { split; [|now apply Forall_app in U as [U _]]. clear - Nd. induction (saved_files es) as [|x l IH]; [constructor|].
      cbn [app] in Nd. apply NoDup_cons_iff in Nd as [H1 H2]. constructor; [|now apply IH]. intros H. apply H1, in_or_app. now left. }
    specialize (IH N'). destruct (isaving p data es (SOpening, h0)) as [ph1 g] eqn:E1. specialize (IH _ _ eq_refl).
    assert (Fresh : forall n, In n (saved_files [e]) -> forall i, known es i -> n <> i).
    { intros n Hn i [(y & Hy)|Hi] ->.
      - apply Forall_app in U as [_ U]. rewrite Forall_forall in U. now apply (U i Hn y).
      - clear - Nd Hn Hi. induction (saved_files es) as [|x l IH]; [contradiction|]. cbn [app] in Nd. apply NoDup_cons_iff in Nd as [H1 H2].
        destruct Hi as [->|Hi]; [|now apply IH]. apply H1, in_or_app. now right. }
    pose proof (sinv_same es e ph1 g IH) as Same.
    assert (Names : forall q' new bs, e = SRenamed q' new bs -> forall x i, hd_file (hd_rename g q' new bs) x = Some i -> known (es ++ [e]) i).
    { intros q' new bs -> x j. cbn. destruct (path_eqb x q'); [intros [= <-]; right; rewrite saved_files_app; apply in_or_app; right; now left|].
      intros H. eapply (si_num _ _ _ Same), H. }
    assert (Opened : forall q' new bs, e = SRenamed q' new bs -> (forall i, open_file ph1 = Some i -> i <> new) /\ (forall n, hd_file g q = Some n -> n <> new)).
    { intros q' new bs ->. split; intros i H; apply not_eq_sym, (Fresh new); try (now left); [now apply (si_open _ _ _ IH)|eapply (si_num _ _ _ IH), H]. }
    assert (Unopened : forall q' new bs, e = SRenamed q' new bs -> hd_target g = hd_target h0 ->
      reads g p = reads h0 p \/ (exists bs, put_there (es ++ [e]) bs /\ reads g p = Some bs) ->
      reads (hd_rename g q' new bs) p = reads h0 p \/ exists bs', put_there (es ++ [e]) bs' /\ reads (hd_rename g q' new bs) p = Some bs').
    { intros q' new bs -> T R. rewrite (reads_q g) in R by exact T. rewrite (reads_q (hd_rename g q' new bs)) by exact T. cbn.
      destruct (path_eqb q q') eqn:Eq.
      - apply path_eqb_eq in Eq as <-. rewrite N.eqb_refl. right. exists bs. split; [now exists es, new, []|reflexivity].
      - destruct (hd_file g q) as [j|] eqn:Ef; [|exact R]. pose proof (proj2 (Opened q' new bs eq_refl) j eq_refl) as Nj. apply N.eqb_neq in Nj as ->. exact R. }
    destruct e as [new| |n| | |q' new bs]; [..|specialize (Names q' new bs eq_refl); specialize (Opened q' new bs eq_refl) as [Op1 Op2]; specialize (Unopened q' new bs eq_refl)];
      destruct ph1 as [|i pos|i|o]; cbn [isave_step] in E; try (injection E as <- <-; exact Same).
    + destruct (fs_creatable (seen g) p) eqn:Hc; [|injection E as <- <-; now destruct Same].
      pose proof (si_target _ _ _ IH) as T. unfold hd_write, file_of in E. rewrite T, leads in E.
      destruct (hd_file g q) as [i|] eqn:Ef.
      * cbn [hd_target hd_file] in E. rewrite leads, Ef in E. injection E as <- <-.
        assert (Nd' : wrote (es ++ [SCreated new]) (HD (hd_target h0) (hd_file g) (fun j => if N.eqb j i then Regular [] else hd_node g j)) i 0).
        { split; [cbn; now rewrite N.eqb_refl|]. now left. }
        split.
        -- reflexivity.
        -- intros x j H. eapply (si_num _ _ _ Same), H.
        -- unfold sadvance. intros j. destruct (0 <? length data); cbn; intros [= <-]; eapply (si_num _ _ _ Same), Ef.
        -- unfold sadvance. destruct (Nat.ltb_spec 0 (length data)) as [L|L]; [now split|]. replace (length data) with 0 by lia. exact Nd'.
      * cbn [hd_target hd_file] in E. rewrite leads, path_eqb_refl in E. injection E as <- <-.
        assert (K : known (es ++ [SCreated new]) new) by (right; rewrite saved_files_app; apply in_or_app; right; now left).
        assert (Nd' : wrote (es ++ [SCreated new]) (HD (hd_target h0) (fun x => if path_eqb x q then Some new else hd_file g x)
                        (fun j => if N.eqb j new then Regular [] else hd_node g j)) new 0).
        { split; [cbn; now rewrite N.eqb_refl|]. left. cbn. now rewrite path_eqb_refl. }
        split.
        -- reflexivity.
        -- intros x j. cbn. destruct (path_eqb x q); [now intros [= <-]|]. intros H. eapply (si_num _ _ _ Same), H.
        -- unfold sadvance. intros j. destruct (0 <? length data); cbn; now intros [= <-].
        -- unfold sadvance. destruct (Nat.ltb_spec 0 (length data)) as [L|L]; [now split|]. replace (length data) with 0 by lia. exact Nd'.
    + injection E as <- <-. now destruct Same.
    + pose proof (si_file _ _ _ IH) as (L & Hn & Hq). pose proof (firstn_more data pos n) as Hm.
      pose proof (firstn_more' data pos n) as Hl. rewrite Hm, firstn_length in Hl.
      destruct (firstn n (skipn pos data)) as [|x chunk] eqn:Ec.
      * injection E as <- <-. destruct Same as [S1 S2 S3 S4]. split; try assumption. exists pos. apply S4.
      * injection E as <- <-. cbn [length] in *.
        assert (Nc : write_at (contents g i) pos (x :: chunk) = firstn (pos + S (length chunk)) data).
        { unfold contents. rewrite Hn. rewrite <- Hm. pose proof (write_at_end (firstn pos data) (x :: chunk)) as W.
          rewrite firstn_length, Nat.min_l in W by lia. exact W. }
        assert (Nd' : wrote (es ++ [SWrote n]) (hd_holding g i (write_at (contents g i) pos (x :: chunk))) i (pos + S (length chunk))).
        { split; [cbn; now rewrite N.eqb_refl, Nc|]. destruct Hq as [Hq|Hq]; [now left|right]. apply (replaced_snoc es _ g _ i); [|exact Hq].
          intros m Hm' Nm. split; [exact Hm'|]. cbn. now apply N.eqb_neq in Nm as ->. }
        split.
        -- apply (si_target _ _ _ IH).
        -- intros y j H. eapply (si_num _ _ _ Same), H.
        -- intros j. unfold sadvance. destruct (_ <? _); cbn; intros [= <-]; now apply (si_open _ _ _ Same).
        -- unfold sadvance. destruct (Nat.ltb_spec (pos + S (length chunk)) (length data)) as [L2|L2]; [now split|].
           destruct Nd' as [A B]. split; [|exact B]. rewrite A. f_equal. rewrite firstn_all. now apply firstn_all2.
    + injection E as <- <-. destruct Same as [S1 S2 S3 S4]. split; try assumption. exists pos. apply S4.
    + injection E as <- <-. pose proof (si_target _ _ _ IH) as T.
      split; [exact T|exact Names|discriminate|]. pose proof (si_file _ _ _ Same) as R. now apply Unopened.
    + injection E as <- <-. pose proof (si_target _ _ _ IH) as T. pose proof (si_file _ _ _ IH) as (L & W).
      split; [exact T|exact Names|intros j H; now apply (si_open _ _ _ Same)|split; [exact L|]].
      apply (wrote_renamed es (SWriting i pos)); [exact E1|reflexivity|now apply Op1|exact Op2|exact W].
    + injection E as <- <-. pose proof (si_target _ _ _ IH) as T. pose proof (si_file _ _ _ IH) as W.
      split; [exact T|exact Names|intros j H; now apply (si_open _ _ _ Same)|].
      apply (wrote_renamed es (SSaved i)); [exact E1|reflexivity|now apply Op1|exact Op2|exact W].
    + injection E as <- <-. pose proof (si_target _ _ _ IH) as T.
      split; [exact T|exact Names|intros j H; now apply (si_open _ _ _ Same)|]. destruct o as [i|].
      * pose proof (si_file _ _ _ IH) as [pos W]. exists pos. apply (wrote_renamed es (SFailed (Some i))); [exact E1|reflexivity|now apply Op1|exact Op2|exact W].
      * pose proof (si_file _ _ _ Same) as R. now apply Unopened.
Qed.
End Save.

Lemma target_run p data : forall es ph h, hd_target (snd (isaving p data es (ph, h))) = hd_target h.
Proof.
  induction es as [|e es IH] using rev_ind; intros ph h; [reflexivity|]. rewrite isaving_snoc. specialize (IH ph h).
  destruct (isaving p data es (ph, h)) as [ph1 g]. cbn [snd] in IH. rewrite <- IH.
  destruct e, ph1; cbn; try reflexivity.
  - destruct (fs_creatable (seen g) p); [|reflexivity].
    assert (X : hd_target (hd_write g p [] new) = hd_target g) by (unfold hd_write; destruct (hd_target g p) as [q|]; [now destruct (hd_file g q)|reflexivity]).
    destruct (file_of (hd_write g p [] new) p); exact X.
  - now destruct (firstn n (skipn pos data)).
Qed.

Lemma save_succeeded p data es h i h' : new_numbers es h -> isaving p data es (SOpening, h) = (SSaved i, h') ->
  reads h' p = Some data \/
  exists es1 q new bs es2, es = es1 ++ SRenamed q new bs :: es2 /\ hd_target h p = Some q /\
    has_opened (fst (isaving p data es1 (SOpening, h))) = true /\ reads h' p = Some bs.
Proof.
  intros N E. destruct (hd_target h p) as [q|] eqn:T.
  - pose proof (sinv_run p q data h T es N _ _ E) as I. pose proof (si_file _ _ _ _ _ _ _ I) as [W R].
    rewrite (reads_q p q h T) by apply (si_target _ _ _ _ _ _ _ I). destruct R as [R|(es1 & n & bs & es2 & -> & O & Ne & F & B)].
    + left. rewrite R, W. now rewrite firstn_all.
    + right. exists es1, q, n, bs, es2. rewrite F, B. now repeat split.
  - exfalso. assert (X : forall es, fst (isaving p data es (SOpening, h)) = SOpening \/ fst (isaving p data es (SOpening, h)) = SFailed None).
    { clear E N es. induction es as [|e es IH] using rev_ind; [now left|]. rewrite isaving_snoc.
      pose proof (target_run p data es SOpening h) as Ht. destruct (isaving p data es (SOpening, h)) as [ph g]. cbn [fst snd] in *.
      destruct e, ph; cbn; try (destruct IH; discriminate); auto.
      replace (fs_creatable (seen g) p) with false; [now right|]. unfold fs_creatable, seen. cbn. now rewrite Ht, T. }
    specialize (X es). rewrite E in X. destruct X; discriminate.
Qed.

Lemma save_never_mixes p data es h ph h' : new_numbers es h -> isaving p data es (SOpening, h) = (ph, h') ->
  reads h' p = reads h p \/ (exists k, reads h' p = Some (firstn k data)) \/
  exists q new bs, In (SRenamed q new bs) es /\ hd_target h p = Some q /\ reads h' p = Some bs.
Proof.
  intros N E. destruct (hd_target h p) as [q|] eqn:T.
  - pose proof (sinv_run p q data h T es N _ _ E) as I. pose proof (si_file _ _ _ _ _ _ _ I) as F.
    assert (W : forall i pos, wrote p q data h es h' i pos -> reads h' p = reads h p \/ (exists k, reads h' p = Some (firstn k data)) \/
      exists q new bs, In (SRenamed q new bs) es /\ hd_target h p = Some q /\ reads h' p = Some bs).
    { intros i pos [W R]. right. rewrite (reads_q p q h T) by apply (si_target _ _ _ _ _ _ _ I).
      destruct R as [R|(es1 & n & bs & es2 & -> & O & Ne & Fq & B)].
      - left. exists pos. now rewrite R, W.
      - right. exists q, n, bs. rewrite Fq, B. repeat split; [|exact T]. apply in_or_app. right. now left. }
    assert (O : reads h' p = reads h p \/ (exists bs, put_there q es bs /\ reads h' p = Some bs) ->
      reads h' p = reads h p \/ (exists k, reads h' p = Some (firstn k data)) \/
      exists q new bs, In (SRenamed q new bs) es /\ hd_target h p = Some q /\ reads h' p = Some bs).
    { intros [R|(bs & (es1 & n & es2 & ->) & R)]; [now left|]. right; right. exists q, n, bs. repeat split; try assumption. apply in_or_app. right. now left. }
    rewrite <- T. destruct ph as [|i pos|i|[i|]].
    + now apply O.
    + destruct F as [_ F]. now apply (W i pos).
    + now apply (W i (length data)).
    + destruct F as [pos F]. now apply (W i pos).
    + now apply O.
  - left. pose proof (target_run p data es SOpening h) as Ht. rewrite E in Ht. cbn [snd] in Ht.
    unfold reads, fs_read, seen. cbn. now rewrite Ht, T.
Qed.

(** ** Undisturbed, it is the save in one step *)

Lemma file_of_write h p q bs new : hd_target h p = Some q ->
  file_of (hd_write h p bs new) p = Some (match hd_file h q with Some i => i | None => new end).
Proof.
  intros T. unfold hd_write, file_of. rewrite T. destruct (hd_file h q) as [i|] eqn:F; cbn; rewrite T; [exact F|]. now rewrite path_eqb_refl.
Qed.
Lemma write_twice h p bs bs' new i : file_of (hd_write h p bs new) p = Some i -> forall g, same_hdisk g (hd_write h p bs new) ->
  same_hdisk (hd_holding g i bs') (hd_write h p bs' new).
Proof.
  intros F g (G1 & G2 & G3). destruct (hd_target h p) as [q|] eqn:T.
  - rewrite (file_of_write _ _ _ _ _ T) in F. injection F as F. unfold hd_write in *. rewrite T in *. destruct (hd_file h q) as [j|].
    + subst j. repeat split; cbn in *; [assumption..|]. intros k. rewrite G3. now destruct (N.eqb k i).
    + subst new. repeat split; cbn in *; [assumption..|]. intros k. rewrite G3. now destruct (N.eqb k i).
  - unfold hd_write, file_of in F. now rewrite T, T in F.
Qed.
Lemma write_contents h p bs new i g : file_of (hd_write h p bs new) p = Some i -> same_hdisk g (hd_write h p bs new) -> contents g i = bs.
Proof.
  intros F (_ & _ & G3). unfold contents. rewrite G3. destruct (hd_target h p) as [q|] eqn:T.
  - rewrite (file_of_write _ _ _ _ _ T) in F. injection F as F. unfold hd_write. rewrite T. destruct (hd_file h q) as [j|]; subst; cbn; now rewrite N.eqb_refl.
  - unfold hd_write, file_of in F. now rewrite T, T in F.
Qed.

Lemma alone_run p data h : forall es, no_renames es -> let '(ph, g) := isaving p data es (SOpening, h) in
  match ph with
  | SOpening | SFailed None => g = h
  | SWriting i pos => fs_creatable (seen h) p = true /\ pos < length data /\ exists new, In (SCreated new) es /\ file_of (hd_write h p (firstn pos data) new) p = Some i /\
      same_hdisk g (hd_write h p (firstn pos data) new)
  | SSaved i => fs_creatable (seen h) p = true /\ exists new, In (SCreated new) es /\ same_hdisk g (hd_write h p data new)
  | SFailed (Some i) => fs_creatable (seen h) p = true /\ exists pos new, In (SCreated new) es /\ same_hdisk g (hd_write h p (firstn pos data) new)
  end.
Proof.
  induction es as [|e es IH] using rev_ind; intros R; [reflexivity|].
  assert (R' : no_renames es) by (intros q n bs H; apply (R q n bs), in_or_app; now left). specialize (IH R').
  rewrite isaving_snoc. destruct (isaving p data es (SOpening, h)) as [ph g].
  assert (More : forall n, In (SCreated n) es -> In (SCreated n) (es ++ [e])) by (intros; apply in_or_app; now left).
  assert (Keep : match ph with
    | SOpening | SFailed None => g = h
    | SWriting i pos => fs_creatable (seen h) p = true /\ pos < length data /\ exists new, In (SCreated new) (es ++ [e]) /\ file_of (hd_write h p (firstn pos data) new) p = Some i /\
        same_hdisk g (hd_write h p (firstn pos data) new)
    | SSaved i => fs_creatable (seen h) p = true /\ exists new, In (SCreated new) (es ++ [e]) /\ same_hdisk g (hd_write h p data new)
    | SFailed (Some i) => fs_creatable (seen h) p = true /\ exists pos new, In (SCreated new) (es ++ [e]) /\ same_hdisk g (hd_write h p (firstn pos data) new)
    end).
  { destruct ph as [|i pos|i|[i|]]; try exact IH.
    - destruct IH as (A & B & n & C & D). split; [exact A|]. split; [exact B|]. exists n. auto.
    - destruct IH as (A & n & C & D). split; [exact A|]. exists n. auto.
    - destruct IH as (A & k & n & C & D). split; [exact A|]. exists k, n. auto. }
  destruct e as [new| |n| | |q n bs]; [..|destruct (R q n bs); apply in_or_app; right; now left];
    destruct ph as [|i pos|i|o]; cbn [isave_step]; try exact Keep.
  - subst g. destruct (fs_creatable (seen h) p) eqn:C; [|reflexivity].
    unfold fs_creatable, seen in C. cbn in C. destruct (hd_target h p) as [q|] eqn:T; [|discriminate].
    rewrite (file_of_write h p q [] new T).
    assert (In (SCreated new) (es ++ [SCreated new])) by (apply in_or_app; right; now left).
    unfold sadvance. destruct (Nat.ltb_spec 0 (length data)) as [L|L].
    + split; [reflexivity|]. split; [exact L|]. exists new. split; [assumption|]. split; [apply (file_of_write h p q [] new T)|]. now repeat split.
    + split; [reflexivity|]. exists new. split; [assumption|]. destruct data; [|cbn in L; lia]. now repeat split.
  - destruct Keep as (C & L & new & Hn & F & S). pose proof (firstn_more data pos n) as Hm.
    pose proof (firstn_more' data pos n) as Hl. rewrite Hm, firstn_length in Hl.
    destruct (firstn n (skipn pos data)) as [|x chunk] eqn:Ec.
    + split; [exact C|]. now exists pos, new.
    + assert (W : write_at (contents g i) pos (x :: chunk) = firstn (pos + length (x :: chunk)) data).
      { rewrite (write_contents _ _ _ _ _ _ F S), <- Hm. pose proof (write_at_end (firstn pos data) (x :: chunk)) as W.
        rewrite firstn_length, Nat.min_l in W by lia. exact W. }
      rewrite W. pose proof (write_twice _ _ _ (firstn (pos + length (x :: chunk)) data) _ _ F g S) as S'.
      assert (F' : file_of (hd_write h p (firstn (pos + length (x :: chunk)) data) new) p = Some i).
      { destruct (hd_target h p) as [q|] eqn:T; [|unfold hd_write, file_of in F; now rewrite T, T in F]. rewrite (file_of_write h p q _ new T) in F. rewrite (file_of_write h p q _ new T). exact F. }
      unfold sadvance. destruct (Nat.ltb_spec (pos + length (x :: chunk)) (length data)) as [L2|L2].
      * split; [exact C|]. split; [exact L2|]. exists new. auto.
      * split; [exact C|]. exists new. split; [exact Hn|]. rewrite firstn_all2 in S' by exact L2. rewrite firstn_all2 by exact L2. exact S'.
  - destruct Keep as (C & L & new & Hn & F & S). split; [exact C|]. now exists pos, new.
Qed.

Lemma alone_save p es h ph h' r b t : b_path b = Some p -> buf_data b = Ok t -> no_renames es ->
  isaving p (enc t) es (SOpening, h) = (ph, h') -> ianswer ph = Some r ->
  exists w new b' h'', hard_save h w new b = Ok (r, b', h'') /\ same_hdisk h' h''.
Proof.
  intros Hp Hd R E A. pose proof (alone_run p (enc t) h es R) as X. rewrite E in X. unfold hard_save. rewrite Hp, Hd. unfold outcome.
  destruct ph as [|i pos|i|[i|]]; try discriminate; injection A as <-.
  - destruct X as (C & new & _ & S). exists WriteSucceeds, new. rewrite C. cbn [bind]. eexists _, _. split; [reflexivity|exact S].
  - destruct X as (C & k & new & _ & S). exists (WriteFails k), new. rewrite C. cbn [bind]. eexists _, _. split; [reflexivity|exact S].
  - subst h'. exists CreateFails, 0%N. exists b, h. destruct (fs_creatable (seen h) p); now repeat split.
Qed.

(** ** The save ends *)

Lemma ssaved_stays p data i : forall es h, Forall saccepting es -> fst (isaving p data es (SSaved i, h)) = SSaved i.
Proof.
  induction es as [|e es IH]; intros h H; [reflexivity|]. inversion_clear H as [|? ? He Hs].
  cbn [isaving fold_left]. change (fold_left _ es ?s) with (isaving p data es s).
  destruct e; cbn in He; try contradiction; cbn [isave_step]; now apply IH.
Qed.
Lemma swrites_finish p data i : forall es h pos, Forall saccepting es -> pos < length data ->
  length data <= pos + length (filter is_swrite es) -> fst (isaving p data es (SWriting i pos, h)) = SSaved i.
Proof.
  induction es as [|e es IH]; intros h pos Ha Hp Hl; [cbn in Hl; lia|]. inversion_clear Ha as [|? ? He Hs].
  cbn [isaving fold_left]. change (fold_left _ es ?s) with (isaving p data es s).
  destruct e as [new| |n| | |q new bs]; cbn in He; try contradiction; cbn [filter is_swrite length] in Hl; cbn [isave_step]; try (now apply IH).
  assert (L : length (firstn n (skipn pos data)) = min n (length data - pos)) by now rewrite firstn_length, skipn_length.
  destruct (firstn n (skipn pos data)) as [|x chunk] eqn:Ec; [cbn in L; lia|]. unfold sadvance.
  destruct (Nat.ltb_spec (pos + length (x :: chunk)) (length data)) as [L2|L2]; [apply IH; cbn [length] in *; try assumption; lia|].
  now apply ssaved_stays.
Qed.
Lemma isave_finishes p data es h new : fs_creatable (seen h) p = true -> Forall saccepting es ->
  length data <= length (filter is_swrite es) -> exists i, fst (isaving p data (SCreated new :: es) (SOpening, h)) = SSaved i.
Proof.
  intros C Ha Hl. cbn [isaving fold_left]. change (fold_left _ es ?s) with (isaving p data es s). cbn [isave_step]. rewrite C.
  unfold fs_creatable in C. cbn in C. destruct (hd_target h p) as [q|] eqn:T; [|discriminate].
  rewrite (file_of_write h p q [] new T). eexists. unfold sadvance. destruct (Nat.ltb_spec 0 (length data)) as [L|L].
  - now apply swrites_finish.
  - now apply ssaved_stays.
Qed.
