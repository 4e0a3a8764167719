(** The gap buffer is a marked text, for every text. *)
From Verif Require Import Base Utf8 Utf8Proofs Grapheme GraphemeProofs UnicodeTable Position GapBuffer
  Cursor PathModel Buffer BufferCalls
  GapBufferProofs Spec Calls TextProofs UaxProofs HalvesProofs ShapeProofs TextFacts AnyTextProofs SearchProofs MarkSpec.

Definition msim (g : gapbuf) (m : marked) : Prop :=
  rep g (ahead m) (behind m) /\ gap_length g = room m.

Lemma walk_gsplit gs : forall here p, walk gs here p =
  match gsplit gs here p with Some (pre, post) => Some (concat pre, concat post) | None => None end.
Proof.
  induction gs as [|g gs IH]; intros here p; cbn [walk gsplit].
  - now destruct (pos_eqb here p).
  - destruct (pos_eqb here p); [reflexivity|].
    replace (if list_eq_dec N.eq_dec g [LF] then Pos (line here + 1) 0 else Pos (line here) (offset here + 1)) with (adv here g).
    2:{ unfold adv, is_lf, list_N_eqb. now destruct (list_eq_dec N.eq_dec g [LF]). }
    rewrite IH. destruct (gsplit gs (adv here g) p) as [[pre post]|]; reflexivity.
Qed.

Lemma locate_hsplit brk m p : locate brk m p =
  match hsplit brk (ahead m) (behind m) p with Some (pre, post) => Some (concat pre, concat post) | None => None end.
Proof. apply walk_gsplit. Qed.

Lemma sim_room g m : msim g m -> vlen (gb_data g) = blen (whole m) + room m.
Proof. intros [H E]. rewrite (rep_vlen _ _ _ H), E. unfold whole. rewrite blen_app. lia. Qed.

Lemma sim_of g s1 s2 n : rep g s1 s2 -> vlen (gb_data g) = blen s1 + blen s2 + n -> msim g (Marked s1 s2 n).
Proof. intros H E. split; [exact H|]. rewrite (rep_vlen _ _ _ H) in E. cbn. lia. Qed.

Lemma new_msim al s : valid_text s -> exists g, gb_new al s = Ok g /\ msim g (m_new al s).
Proof.
  intros V. destruct (new_ok al s V) as (g & E & H). exists g. split; [exact E|]. split; [exact H|]. cbn.
  revert E. unfold gb_new, vcap, vlen. cbn [v_init v_spare]. destruct (usub _ _) as [gl|] eqn:U; [|discriminate]. cbn [bind].
  destruct (vset_len _ _); [|discriminate]. cbn [bind]. intros X. injection X as <-. cbn [gap_length].
  unfold usub in U. destruct (_ <=? _); [|discriminate]. injection U as <-. unfold blen. lia.
Qed.

Lemma insert_msim brk al g m data p : alloc_ok al -> valid_text data -> msim g m ->
  exists g', gb_insert brk al g data p = Ok g' /\ msim g' (m_insert brk al data p m).
Proof.
  intros Hal V S. pose proof S as [Hrep Hroom].
  pose proof (insert_halves brk al g _ _ data p Hal Hrep V) as X.
  assert (Em : lookup_halves g data (ahead m) (behind m) = (ahead (make_room al data m), behind (make_room al data m))).
  { unfold lookup_halves, make_room. rewrite Hroom. fold (blen data). now destruct (room m <? blen data). }
  assert (En : forall g', gb_insert brk al g data p = Ok g' ->
     vlen (gb_data g') = blen (whole (make_room al data m)) + room (make_room al data m)).
  { intros g' E. rewrite (insert_vlen _ _ _ _ _ _ _ _ Hal Hrep E), (sim_room _ _ S), Hroom. unfold make_room. fold (blen data).
    destruct (room m <? blen data); [|reflexivity]. cbn [whole ahead behind room]. unfold whole at 3. cbn [ahead behind].
    rewrite app_nil_r. unfold blen. lia. }
  rewrite Em in X. destruct X as (g' & E & X). exists g'. split; [exact E|]. specialize (En _ E).
  assert (Hfit : blen data <= room (make_room al data m)).
  { unfold make_room. fold (blen data). destruct (Nat.ltb_spec (room m) (blen data)); cbn [room]; [|lia].
    pose proof (Hal (length (enc (whole m)) + room m) (length (enc data))) as Y. unfold blen. lia. }
  unfold m_insert. rewrite locate_hsplit.
  destruct (hsplit brk (ahead (make_room al data m)) (behind (make_room al data m)) p) as [[pre post]|] eqn:Es.
  - apply sim_of; [exact X|]. rewrite En. apply hsplit_concat in Es. unfold whole. rewrite Es, !blen_app.
    fold (blen data). lia.
  - destruct (make_room al data m) as [a b n] eqn:Er. apply sim_of; [exact X|]. rewrite En. unfold whole. cbn [ahead behind room].
    rewrite blen_app. lia.
Qed.

Lemma delete_msim brk g m p q : order_safe brk -> msim g m ->
  exists g', gb_delete brk g (range_new p q) = Ok g' /\ msim g' (m_delete brk p q m).
Proof.
  intros Hos S. pose proof S as [Hrep Hroom]. rewrite range_new_ordered.
  pose proof (delete_ok brk g _ _ (first_of p q) (second_of p q) Hrep) as X.
  pose proof (first_second_ple p q) as Hle.
  unfold m_delete. rewrite locate_hsplit.
  destruct (hsplit brk (ahead m) (behind m) (first_of p q)) as [[pre post]|] eqn:Es.
  2:{ exists g. now split. }
  assert (Hn : ple (first_of p q) (Pos (line (second_of p q) + 1) 0)).
  { eapply ple_trans; [exact Hle|]. right. unfold plt; simpl; lia. }
  pose proof (found_not_before _ _ _ _ _ _ _ Hos Es Hle) as N1.
  pose proof (found_not_before _ _ _ _ _ _ _ Hos Es Hn) as N2.
  set (rest := match locate brk (Marked (concat pre) (concat post) (room m)) (second_of p q) with Some (_, b') => b' | None => _ end).
  assert (D : delete_halves brk (concat pre) (concat post) (second_of p q) = Some rest /\ blen rest <= blen (concat post)).
  { assert (T : forall x, delete_to brk (concat pre) (concat post) x <> Some None ->
      match locate brk (Marked (concat pre) (concat post) (room m)) x with
      | Some (_, b') => delete_to brk (concat pre) (concat post) x = Some (Some b') /\ blen b' <= blen (concat post)
      | None => delete_to brk (concat pre) (concat post) x = None
      end).
    { intros x N. rewrite locate_hsplit. cbn [ahead behind]. unfold delete_to in *.
      destruct (hsplit brk (concat pre) (concat post) x) as [[a b]|] eqn:Ex; [|reflexivity].
      destruct (Nat.ltb_spec (blen (concat a)) (blen (concat pre))) as [|Hge]; [now destruct N|]. split; [reflexivity|].
      apply hsplit_concat in Ex. destruct (app_split_le _ _ _ _ Ex Hge) as (k & _ & ->). rewrite blen_app. lia. }
    subst rest. unfold delete_halves. pose proof (T _ N1) as T1. pose proof (T _ N2) as T2.
    destruct (locate brk _ (second_of p q)) as [[? r]|].
    - destruct T1 as [-> L]. split; [reflexivity|exact L].
    - rewrite T1. destruct (locate brk _ (Pos _ 0)) as [[? r]|].
      + destruct T2 as [-> L]. split; [reflexivity|exact L].
      + rewrite T2. split; [reflexivity|]. cbn. lia. }
  destruct D as [D L]. rewrite D in X. destruct X as (g' & E & X). exists g'. split; [exact E|].
  apply sim_of; [exact X|]. rewrite (delete_vlen _ _ _ _ E), (sim_room _ _ S). unfold whole.
  rewrite (hsplit_concat _ _ _ _ _ _ Es), blen_app. fold (blen rest) (blen (concat post)). lia.
Qed.

Lemma read_msim brk g m p q : msim g m -> gb_read brk g (range_new p q) = Ok (m_read brk p q m).
Proof.
  intros [Hrep _]. rewrite range_new_ordered, (read_halves _ _ _ _ _ _ Hrep (first_second_ple p q)).
  unfold m_read. rewrite !locate_hsplit. f_equal.
  destruct (hsplit brk _ _ (first_of p q)) as [[pre post]|] eqn:E1; [|reflexivity].
  destruct (hsplit brk _ _ (second_of p q)) as [[pre' post']|] eqn:E2; [|reflexivity].
  destruct (gsplit_mono _ _ _ _ _ _ _ _ E1 E2 (first_second_ple p q)) as (k & -> & _).
  rewrite concat_app, !skipn_app, !skipn_all, !Nat.sub_diag. reflexivity.
Qed.

Lemma bounds_msim brk g m p : msim g m ->
  in_bounds brk g p = Ok (match locate brk m p with Some _ => true | None => false end).
Proof.
  intros [Hrep _]. rewrite (in_bounds_halves _ _ _ _ _ Hrep), locate_hsplit.
  now destruct (hsplit brk _ _ p) as [[? ?]|].
Qed.

Lemma exec_msim brk al c g m : order_safe brk -> alloc_ok al ->
  match c with GInsert d _ => valid_text d | _ => True end -> msim g m ->
  exists g', gexec brk al c g = Ok (fst (m_call brk al c m), g') /\ msim g' (snd (m_call brk al c m)).
Proof.
  intros Hos Hal V S. destruct c as [d p|p q|p q|p|]; cbn [gexec m_call fst snd].
  - destruct (insert_msim brk al g m d p Hal V S) as (g' & -> & S'). cbn [bind]. eauto.
  - destruct (delete_msim brk g m p q Hos S) as (g' & -> & S'). cbn [bind]. eauto.
  - rewrite (read_msim _ _ _ _ _ S). cbn [bind]. eauto.
  - rewrite (bounds_msim _ _ _ _ S). cbn [bind]. eauto.
  - destruct S as [H E]. rewrite (to_string_ok _ _ _ H). cbn [bind]. exists g. split; [reflexivity|now split].
Qed.

Lemma run_msim brk cs : order_safe brk -> forall g m,
  Forall (fun ac => alloc_ok (fst ac)) cs ->
  Forall (fun ac => match snd ac with GInsert d _ => valid_text d | _ => True end) cs ->
  msim g m -> exists g', grun brk cs g = Ok (fst (m_calls brk cs m), g') /\ msim g' (snd (m_calls brk cs m)).
Proof.
  intros Hos. induction cs as [|[al c] cs IH]; intros g m Hal Hv S; cbn [grun m_calls].
  - eauto.
  - inversion_clear Hal as [|? ? Ha Hal']. inversion_clear Hv as [|? ? Hd Hv'].
    destruct (exec_msim brk al c g m Hos Ha Hd S) as (g1 & E1 & S1).
    destruct (m_call brk al c m) as [o m1]. cbn [fst snd] in *. rewrite E1. cbn [bind].
    destruct (IH g1 m1 Hal' Hv' S1) as (g2 & E2 & S2). destruct (m_calls brk cs m1) as [os m2]. cbn [fst snd] in *.
    rewrite E2. cbn [bind]. eauto.
Qed.

Lemma session_marked cls al s cs : cls LF = GC_LF -> valid_text s ->
  Forall (fun ac => alloc_ok (fst ac)) cs ->
  Forall (fun ac => match snd ac with GInsert d _ => valid_text d | _ => True end) cs ->
  exists g, gsession (uax29 cls) al s cs = Ok (fst (m_calls (uax29 cls) cs (m_new al s)), g).
Proof.
  intros Hc V Hal Hv. unfold gsession. destruct (new_msim al s V) as (g & -> & S). cbn [bind].
  destruct (run_msim _ cs (uax29_order_safe cls Hc) g _ Hal Hv S) as (g' & E & _). eauto.
Qed.

(** ** Lines that can be addressed *)

Definition lf_clusters (gs : list grapheme) : nat := length (filter is_lf gs).

Lemma widths_length gs : length (widths gs) = lf_clusters gs + 1.
Proof.
  induction gs as [|g gs IH]; [reflexivity|]. cbn [widths]. unfold lf_clusters in *. cbn [filter].
  destruct (is_lf g); cbn [length]; [lia|]. pose proof (widths_ne gs). destruct (widths gs); [contradiction|]. cbn [length] in *. lia.
Qed.

Lemma line_start_bounds brk g s1 s2 l : rep g s1 s2 ->
  in_bounds brk g (Pos l 0) = Ok (l <? lf_clusters (hgs brk s1 s2) + 1).
Proof.
  intros Hrep. rewrite (in_bounds_halves _ _ _ _ _ Hrep). f_equal. apply eq_true_iff_eq.
  unfold hsplit. rewrite gsplit_within, Nat.ltb_lt, <- widths_length. unfold within. cbn [line offset].
  pose proof (widths_ne (hgs brk s1 s2)) as Hw. destruct (widths (hgs brk s1 s2)) as [|w ws]; [contradiction|]. cbn [hd tl length].
  split.
  - intros [[-> _]|[H (x & E & _)]]; [lia|]. assert (l - 0 - 1 < length ws) by (apply nth_error_Some; congruence). lia.
  - intros H. destruct l as [|l]; [left; lia|right]. split; [lia|]. replace (S l - 0 - 1) with l by lia.
    destruct (nth_error ws l) as [x|] eqn:E; [exists x; split; [reflexivity|lia]|]. apply nth_error_None in E. lia.
Qed.

Lemma filter_cons_app a b : lf_clusters (a ++ b) = lf_clusters a + lf_clusters b.
Proof. unfold lf_clusters. now rewrite filter_app, app_length. Qed.

Section Crlf.
  Variable cls : char -> gcb.
  Hypothesis HL : cls LF = GC_LF.
  Hypothesis HC : forall c, cls c = GC_CR <-> c = CR.

  Lemma seg_lf s : forall cur z, lf_clusters (seg_from (uax29 cls) (cur ++ [z]) s) + crlfs (z :: s) =
    lf_clusters [cur ++ [z]] + count_lf s.
  Proof.
    induction s as [|c s IH]; intros cur z; [cbn [seg_from crlfs count_lf filter length]; lia|].
    cbn [seg_from].
    assert (Eb : uax29 cls (cur ++ [z]) c = uax29_cls (cls z :: rev (map cls cur)) (cls c)).
    { unfold uax29. now rewrite map_app, rev_app_distr. }
    assert (Ec : count_lf (c :: s) = (if N.eqb c LF then 1 else 0) + count_lf s).
    { unfold count_lf. cbn [filter]. rewrite N.eqb_sym. now destruct (N.eqb c LF). }
    assert (Ex : crlfs (z :: c :: s) = (if N.eqb z CR && N.eqb c LF then 1 else 0) + crlfs (c :: s)) by reflexivity.
    rewrite Eb, Ec, Ex. destruct (uax29_cls (cls z :: rev (map cls cur)) (cls c)) eqn:B.
    - specialize (IH [] c). cbn [app] in IH.
      change (lf_clusters ((cur ++ [z]) :: seg_from (uax29 cls) [c] s))
        with (lf_clusters ([cur ++ [z]] ++ seg_from (uax29 cls) [c] s)).
      rewrite filter_cons_app.
      assert (N.eqb z CR && N.eqb c LF = false) as ->.
      { destruct (N.eqb_spec z CR) as [->|]; [|reflexivity]. destruct (N.eqb_spec c LF) as [->|]; [|reflexivity].
        rewrite HL in B. rewrite (proj2 (HC CR) eq_refl) in B. discriminate B. }
      assert (lf_clusters [[c]] = if N.eqb c LF then 1 else 0) as E1.
      { unfold lf_clusters. cbn [filter]. unfold is_lf, list_N_eqb. destruct (list_eq_dec N.eq_dec [c] [LF]) as [X|X].
        - injection X as ->. reflexivity.
        - destruct (N.eqb_spec c LF) as [->|]; [contradiction|reflexivity]. }
      lia.
    - specialize (IH (cur ++ [z]) c).
      assert (lf_clusters [(cur ++ [z]) ++ [c]] = 0) as E0.
      { unfold lf_clusters. cbn [filter]. unfold is_lf, list_N_eqb. destruct (list_eq_dec N.eq_dec _ [LF]) as [X|X]; [|reflexivity].
        apply (f_equal (@length _)) in X. rewrite !app_length in X. cbn in X. lia. }
      assert (lf_clusters [cur ++ [z]] = 0) as E1.
      { unfold lf_clusters. cbn [filter]. unfold is_lf, list_N_eqb. destruct (list_eq_dec N.eq_dec _ [LF]) as [X|X]; [|reflexivity].
        destruct cur as [|k [|k' cur]]; [|discriminate X|discriminate X]. injection X as ->. rewrite HL in B. discriminate B. }
      assert ((if N.eqb z CR && N.eqb c LF then 1 else 0) = if N.eqb c LF then 1 else 0) as E2.
      { destruct (N.eqb_spec c LF) as [->|]; [|now rewrite andb_false_r]. rewrite andb_true_r.
        rewrite HL in B. destruct (N.eqb_spec z CR) as [|Hz]; [reflexivity|]. exfalso. apply Hz, HC.
        cbn [uax29_cls] in B. destruct (cls z); try discriminate B. reflexivity. }
      lia.
  Qed.

  Lemma graphemes_lf s : lf_clusters (graphemes (uax29 cls) s) + crlfs s = count_lf s.
  Proof.
    destruct s as [|c s]; [reflexivity|]. cbn [graphemes]. pose proof (seg_lf s [] c) as X. cbn [app] in X. rewrite X.
    unfold count_lf, lf_clusters. cbn [filter]. rewrite N.eqb_sym. unfold is_lf, list_N_eqb.
    destruct (list_eq_dec N.eq_dec [c] [LF]) as [Y|Y]; [injection Y as ->; reflexivity|].
    destruct (N.eqb_spec c LF) as [->|]; [contradiction|reflexivity].
  Qed.

  Lemma rep_lines g s1 s2 l : rep g s1 s2 ->
    in_bounds (uax29 cls) g (Pos l 0) = Ok (l + crlfs s1 + crlfs s2 <? length (lines_of (s1 ++ s2))).
  Proof.
    intros H. rewrite (line_start_bounds _ _ _ _ _ H). unfold hgs. rewrite filter_cons_app, lines_count, count_lf_app.
    pose proof (graphemes_lf s1) as A. pose proof (graphemes_lf s2) as B. f_equal.
    apply eq_true_iff_eq. rewrite !Nat.ltb_lt. lia.
  Qed.
End Crlf.

Lemma gcb15_cr c : gcb15 c = GC_CR <-> c = CR.
Proof.
  split; [|intros ->; vm_compute; reflexivity]. unfold gcb15.
  destruct ((44032 <=? c)%N && (c <=? 55203)%N); [destruct (_ =? 0)%N; discriminate|].
  destruct (find _ gcb_ranges) as [[[lo hi] k]|] eqn:E; [|discriminate]. cbn [snd]. intros ->.
  apply find_some in E as [I B]. cbn [fst snd] in B.
  assert (X : In (lo, hi, GC_CR) (filter (fun r => gcb_eqb (snd r) GC_CR) gcb_ranges)) by (apply filter_In; split; [exact I|reflexivity]).
  assert (Y : filter (fun r => gcb_eqb (snd r) GC_CR) gcb_ranges = [(13, 13, GC_CR)]%N) by (vm_compute; reflexivity).
  rewrite Y in X. destruct X as [X|[]]. injection X as <- <-.
  apply andb_true_iff in B as [B1 B2]. apply N.leb_le in B1, B2. unfold CR. lia.
Qed.

Lemma buffer_lines cls b f t : cls LF = GC_LF -> (forall c, cls c = GC_CR <-> c = CR) ->
  reachable_buffer (uax29 cls) b f -> buf_data b = Ok t ->
  exists a c n, t = a ++ c /\ buf_line_count b = Ok n /\
    forall l, in_bounds (uax29 cls) (b_data b) (Pos l 0) = Ok (l + crlfs a + crlfs c <? n).
Proof.
  intros HL HC R Et. rewrite (line_count_lines _ _ _ _ R Et). apply reachable_wfb, wfb_data in R.
  destruct R as (a & c & R). unfold buf_data in Et. rewrite (to_string_ok _ _ _ R) in Et. injection Et as <-.
  exists a, c, (length (lines_of (a ++ c))). repeat split. intros l. now apply rep_lines.
Qed.

Lemma new_lines cls al s : cls LF = GC_LF -> (forall c, cls c = GC_CR <-> c = CR) -> valid_text s ->
  exists g, gb_new al s = Ok g /\
    forall l, in_bounds (uax29 cls) g (Pos l 0) = Ok (l + crlfs s <? length (lines_of s)).
Proof.
  intros HL HC V. destruct (new_ok al s V) as (g & E & R). exists g. split; [exact E|]. intros l.
  rewrite (rep_lines cls HL HC _ _ _ l R). cbn [crlfs]. now rewrite Nat.add_0_r, app_nil_r.
Qed.

Lemma reachable_marked brk g : reachable brk g -> exists m,
  gb_to_string g = Ok (whole m)
  /\ (forall p, in_bounds brk g p = Ok (match locate brk m p with Some _ => true | None => false end))
  /\ (forall p q, gb_read brk g (range_new p q) = Ok (m_read brk p q m)).
Proof.
  intros R. apply reachable_rep in R as (a & c & R). pose (m := Marked a c (gap_length g)).
  assert (S : msim g m) by (split; [exact R|reflexivity]). exists m. split; [now apply to_string_ok|].
  split; [intros p; now apply bounds_msim|intros p q; now apply read_msim].
Qed.

Lemma fitting_insert brk al g data p t : reachable brk g -> alloc_ok al -> valid_text data ->
  blen data <= gap_length g -> in_bounds brk g p = Ok false -> gb_to_string g = Ok t ->
  exists g', gb_insert brk al g data p = Ok g' /\ gb_to_string g' = Ok t.
Proof.
  intros R Ha V Hf Hb Et. apply reachable_rep in R as (a & c & R). pose (m := Marked a c (gap_length g)).
  assert (S : msim g m) by (split; [exact R|reflexivity]).
  destruct (insert_msim brk al g m data p Ha V S) as (g' & E & R' & _). exists g'. split; [exact E|].
  rewrite (bounds_msim _ _ _ _ S) in Hb. revert R'. unfold m_insert, make_room. cbn [room m].
  destruct (Nat.ltb_spec (gap_length g) (length (enc data))) as [X|_]; [unfold blen in Hf; lia|].
  fold m. destruct (locate brk m p) as [[? ?]|]; [discriminate|]. cbn [ahead behind m]. intros R'.
  rewrite (to_string_ok _ _ _ R'), <- Et. symmetry. now apply to_string_ok.
Qed.

Lemma locate_room brk a c n n' p : locate brk (Marked a c n) p = locate brk (Marked a c n') p.
Proof. reflexivity. Qed.

Lemma calls_room brk cs : forall a c n n', bytes_inserted cs <= n -> bytes_inserted cs <= n' ->
  forall als, length als = length cs ->
  fst (m_calls brk cs (Marked a c n)) = fst (m_calls brk (combine als (map snd cs)) (Marked a c n')).
Proof.
  induction cs as [|[al k] cs IH]; intros a c n n' Hn Hn' [|al' als] Hl; try discriminate; [reflexivity|].
  cbn [bytes_inserted fold_right snd] in Hn, Hn'. fold (bytes_inserted cs) in Hn, Hn'.
  cbn [map combine m_calls snd]. injection Hl as Hl.
  assert (X : exists o a1 c1 n1 n1', m_call brk al k (Marked a c n) = (o, Marked a1 c1 n1)
    /\ m_call brk al' k (Marked a c n') = (o, Marked a1 c1 n1')
    /\ bytes_inserted cs <= n1 /\ bytes_inserted cs <= n1').
  { destruct k as [d p|p q|p q|p|]; cbn [m_call].
    - unfold m_insert, make_room. cbn [room].
      destruct (Nat.ltb_spec n (length (enc d))); [lia|]. destruct (Nat.ltb_spec n' (length (enc d))); [lia|].
      rewrite (locate_room _ _ _ n' n). cbn [room]. destruct (locate brk _ p) as [[x y]|]; do 5 eexists; repeat split; lia.
    - unfold m_delete. rewrite (locate_room _ _ _ n' n). cbn [room].
      destruct (locate brk (Marked a c n) _) as [[x y]|].
      + rewrite !(locate_room _ _ _ n' n). do 5 eexists. repeat split; lia.
      + do 5 eexists. repeat split; lia.
    - do 5 eexists. repeat split; lia.
    - do 5 eexists. repeat split; lia.
    - do 5 eexists. repeat split; lia. }
  destruct X as (o & a1 & c1 & n1 & n1' & -> & -> & H1 & H2).
  specialize (IH a1 c1 n1 n1' H1 H2 als Hl).
  destruct (m_calls brk cs _), (m_calls brk (combine _ _) _). cbn [fst] in *. now rewrite IH.
Qed.

Lemma enough_room cls al al' s cs als : cls LF = GC_LF -> valid_text s ->
  Forall (fun ac => alloc_ok (fst ac)) cs -> Forall alloc_ok als -> length als = length cs ->
  Forall (fun ac => match snd ac with GInsert d _ => valid_text d | _ => True end) cs ->
  bytes_inserted cs <= length (al (length (enc s)) 0) -> bytes_inserted cs <= length (al' (length (enc s)) 0) ->
  outputs (gsession (uax29 cls) al s cs) = outputs (gsession (uax29 cls) al' s (combine als (map snd cs))).
Proof.
  intros HL V Ha Ha' Hl Hv H1 H2.
  destruct (session_marked cls al s cs HL V Ha Hv) as (g & ->).
  destruct (session_marked cls al' s (combine als (map snd cs)) HL V) as (g' & ->).
  - clear -Ha' Hl. revert als Ha' Hl. induction cs as [|k cs IH]; intros [|x als] H L; try discriminate; constructor.
    + now inversion H.
    + apply IH; [now inversion H|now injection L].
  - clear -Hv Hl. revert als Hl. induction cs as [|k cs IH]; intros [|x als] L; try discriminate; constructor.
    + now inversion Hv.
    + apply IH; [now inversion Hv|now injection L].
  - cbn [outputs]. f_equal. now apply calls_room.
Qed.
