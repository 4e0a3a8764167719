(** Programs with a workspace that only edit through the buffers themselves: the
    workspace is a list of separate buffers. *)
From Coq Require Import Permutation.
From Verif Require Import Base Utf8 Utf8Proofs Grapheme GraphemeProofs Position GapBuffer
  GapBufferProofs Cursor PathModel Buffer Spec CursorSpec Calls CursorCalls TextProofs UaxProofs HalvesProofs TextFacts
  GapProps CursorProofs OpProofs BufferCalls Timeline TimelineProofs AnyTextProofs BufferProps
  BufferIoProps BufferFacts Token Workspace WorkspaceSpec WorkspaceProofs Shared SharedSpec SharedProofs World WorldSpec WorldProofs
  Desk DeskSpec DeskProofs.

(** ** Lists of buffers and what is seen of them *)

Lemma forall2_length A B (R : A -> B -> Prop) l m : Forall2 R l m -> length l = length m.
Proof. intros F. induction F; cbn; congruence. Qed.
Definition sees (h : heap) (b : rbuffer) (v : buffer) : Prop := seen h b = Some v.

Lemma sees_facts h b v : sees h b v -> b_path v = rb_path b /\ b_syntax v = rb_syntax b /\
  (forall i, sees h (rset_id b i) (set_id v i)) /\ (forall y, sees h (rset_syntax b y) (set_syntax v y)) /\
  (forall n, sees h (rset_callback b (Some n)) (set_callback v true)).
Proof.
  unfold sees, seen. cbn. destruct (nth_error h (rb_data b)); [|discriminate]. intros [= <-]. now repeat split.
Qed.
Lemma sees_low h b v : sees h b v -> rb_data b < length h.
Proof. unfold sees, seen. intros E. apply nth_error_Some. now destruct (nth_error h (rb_data b)). Qed.
Lemma sees_grown h h' bs vs : grown h h' -> Forall2 (sees h) bs vs -> Forall2 (sees h') bs vs.
Proof.
  intros G F. induction F as [|b v bs vs S F IH]; constructor; [|assumption]. unfold sees in *. rewrite <- S.
  apply seen_grown; [assumption|]. eapply sees_low. exact S.
Qed.
Lemma sees_nth h bs vs i b : Forall2 (sees h) bs vs -> nth_error bs i = Some b -> exists v, nth_error vs i = Some v /\ sees h b v.
Proof.
  intros F. revert i. induction F as [|b0 v bs vs S F IH]; intros [|i]; try discriminate; [|apply IH]. intros [= <-]. now exists v.
Qed.
Lemma sees_none h bs vs i : Forall2 (sees h) bs vs -> nth_error bs i = None -> nth_error vs i = None.
Proof. intros F E. apply nth_error_None in E. apply nth_error_None. now rewrite <- (forall2_length _ _ _ _ _ F). Qed.
Lemma sees_firstn h bs vs i : Forall2 (sees h) bs vs -> Forall2 (sees h) (firstn i bs) (firstn i vs).
Proof. intros F. revert i. induction F; intros [|i]; cbn; constructor; auto. Qed.
Lemma sees_skipn h bs vs i : Forall2 (sees h) bs vs -> Forall2 (sees h) (skipn i bs) (skipn i vs).
Proof. intros F. revert i. induction F; intros [|i]; cbn; try constructor; auto. Qed.
Lemma sees_put h bs vs i b v : Forall2 (sees h) bs vs -> sees h b v -> Forall2 (sees h) (put_at bs i b) (put_at vs i v).
Proof. intros F S. apply Forall2_app; [now apply sees_firstn|]. constructor; [assumption|now apply sees_skipn]. Qed.
Lemma sees_insert h bs vs i b v : Forall2 (sees h) bs vs -> sees h b v -> Forall2 (sees h) (insert_at bs i b) (insert_at vs i v).
Proof. intros F S. apply Forall2_app; [now apply sees_firstn|]. constructor; [assumption|now apply sees_skipn]. Qed.
Lemma sees_without h bs vs i : Forall2 (sees h) bs vs -> Forall2 (sees h) (without bs i) (without vs i).
Proof. intros F. apply Forall2_app; [now apply sees_firstn|now apply sees_skipn]. Qed.
Lemma sees_viewed bs vs ks gs h f : Forall2 (sees h) bs vs <-> viewed (World bs ks gs h f) vs.
Proof.
  unfold viewed, view. cbn. split.
  - intros F. split; [symmetry; exact (forall2_length _ _ _ _ _ F)|]. intros i. destruct (nth_error bs i) as [b|] eqn:E.
    + destruct (sees_nth h bs vs i b F E) as (v & -> & S). exact S.
    + now rewrite (sees_none h bs vs i F E).
  - intros [L V]. revert vs L V. induction bs as [|b bs IH]; intros [|v vs] L V; try discriminate; constructor.
    + exact (V 0).
    + apply IH; [now injection L|]. intros i. exact (V (S i)).
Qed.
Lemma sees_map h bs vs : Forall2 (sees h) bs vs -> map Some vs = map (seen h) bs.
Proof. intros F. induction F as [|b v bs vs S F IH]; [reflexivity|]. cbn. now rewrite IH, <- S. Qed.

Lemma syntax_sees ss h b v : sees h b v -> syntax_for ss v = rsyntax_for ss b.
Proof.
  intros S. apply sees_facts in S as (Ep & _). unfold syntax_for, rsyntax_for, buf_file_extension, buf_file_name, rfile_extension, rfile_name.
  now rewrite Ep.
Qed.
Lemma has_path_sees cp h b v : sees h b v -> has_path cp v = rhas_path cp b.
Proof. intros S. apply sees_facts in S as (Ep & _). unfold has_path, rhas_path. now rewrite Ep. Qed.
Lemma first_with_sees cp h bs vs : Forall2 (sees h) bs vs -> first_with cp vs = rfirst_with cp bs.
Proof. intros F. induction F as [|b v bs vs S F IH]; [reflexivity|]. cbn. now rewrite (has_path_sees cp h b v S), IH. Qed.

(** The list of the workspace and the list of separate buffers. *)
Record same_list (h : heap) (rs : rshelf) (sh : shelf) : Prop := Same {
  sl_path : s_path sh = rs_path rs;
  sl_buffers : Forall2 (sees h) (rs_buffers rs) (s_buffers sh);
  sl_selected : s_selected sh = rs_selected rs;
  sl_given : s_given sh = rs_given rs;
  sl_syntaxes : s_syntaxes sh = rs_syntaxes rs }.

Lemma same_selected h rs sh b : same_list h rs sh -> rselected rs = Some b -> exists v, selected sh = Some v /\ sees h b v.
Proof.
  intros [_ F E _ _]. unfold rselected, selected. rewrite E. destruct (rs_selected rs) as [i|]; [|discriminate]. now apply sees_nth.
Qed.
Lemma same_unselected h rs sh : same_list h rs sh -> rselected rs = None -> selected sh = None.
Proof.
  intros [_ F E _ _]. unfold rselected, selected. rewrite E. destruct (rs_selected rs) as [i|]; [|reflexivity]. now apply (sees_none h (rs_buffers rs)).
Qed.
Lemma same_grown h h' rs sh : grown h h' -> same_list h rs sh -> same_list h' rs sh.
Proof. intros G [E1 E2 E3 E4 E5]. split; try assumption. now apply (sees_grown h). Qed.
Lemma same_replace h rs sh b v : same_list h rs sh -> sees h b v -> same_list h (rreplace_selected rs b) (replace_selected sh v).
Proof.
  intros [E1 E2 E3 E4 E5] S. unfold rreplace_selected, replace_selected. rewrite E3. destruct (rs_selected rs) as [i|] eqn:Ei; [|split; congruence].
  split; try assumption; [|reflexivity]. cbn. now apply sees_put.
Qed.
Lemma same_put h rs sh b v : same_list h rs sh -> sees h b v -> same_list h (rput rs b) (WorkspaceSpec.put sh v).
Proof.
  intros [E1 E2 E3 E4 E5] S. unfold rput, WorkspaceSpec.put. rewrite E3. destruct (sees_facts h b v S) as (_ & Ey & Hi & Hy & _).
  split; try assumption; [|reflexivity|cbn; now rewrite E4]. cbn [s_buffers rs_buffers]. apply sees_insert; [assumption|]. rewrite Ey, E4, E5.
  rewrite (syntax_sees (rs_syntaxes rs) h b v S). destruct (rb_syntax b); [apply Hi|].
  now apply (proj1 (proj2 (proj2 (proj2 (sees_facts _ _ _ (Hi (Some (rs_given rs)))))))).
Qed.
Lemma same_select h rs sh i : same_list h rs sh -> same_list h (rselect rs i) (select sh i).
Proof. intros [E1 E2 E3 E4 E5]. now split. Qed.
Lemma same_turn h rs sh k : same_list h rs sh -> same_list h (rturn rs k) (turn sh k).
Proof.
  intros E. unfold rturn, turn. rewrite (sl_selected _ _ _ E). destruct (rs_selected rs) as [i|]; [|assumption].
  rewrite <- (forall2_length _ _ _ _ _ (sl_buffers _ _ _ E)). now apply same_select.
Qed.
Lemma same_close h rs sh : same_list h rs sh -> same_list h (rspec_close rs) (spec_close sh).
Proof.
  intros [E1 E2 E3 E4 E5]. unfold rspec_close, spec_close. rewrite E3. destruct (rs_selected rs) as [i|] eqn:Ei; [|split; congruence].
  pose proof (sees_without h _ _ i E2) as F. change (firstn i (s_buffers sh) ++ skipn (S i) (s_buffers sh)) with (without (s_buffers sh) i).
  split; cbn [s_path s_buffers s_selected s_given s_syntaxes rs_path rs_buffers rs_selected rs_given rs_syntaxes]; try assumption.
  now destruct F.
Qed.

Lemma put_size {A} (l : list A) i x : i < length l -> length (put_at l i x) = length l.
Proof. intros H. unfold put_at. rewrite app_length, firstn_length. cbn [length]. rewrite skipn_length. lia. Qed.
Lemma app_parts {A} (l1 l2 m1 m2 : list A) : l1 ++ m1 = l2 ++ m2 -> length l1 = length l2 -> l1 = l2 /\ m1 = m2.
Proof.
  revert l2. induction l1 as [|x l1 IH]; intros [|y l2] E L; try discriminate; [now split|]. cbn in *. injection E as -> E.
  destruct (IH l2 E) as [-> ->]; [now injection L|]. now split.
Qed.

Section Values.
Variable brk : brk_rule.
Variable code : closures.
Hypothesis Hos : order_safe brk.
Hypothesis Hcode : closures_ok code.
Hypothesis Hlook : only_look code.

Lemma vexec_behind al c L vs f :
  vexec brk al (shift (length L) c) (L ++ vs) f =
  match vexec brk al c vs f with Ok (o, vs', f') => Ok (o, L ++ vs', f') | Panic => Panic end.
Proof.
  destruct c; cbn [shift vexec]; rewrite ?nth_behind; try reflexivity.
  - destruct (buffer_new al); cbn; [|reflexivity]. now rewrite app_assoc.
  - destruct (from_file al f p) as [[b|e]|]; cbn; [|reflexivity..]. now rewrite app_assoc.
  - destruct (nth_error vs i); [|reflexivity]. destruct (bexec brk al c b f) as [[[o b'] f']|]; cbn; [|reflexivity]. now rewrite put_behind.
  - destruct (nth_error vs i); [|reflexivity]. now destruct (buf_data b).
  - destruct (nth_error vs i); [|reflexivity]. now destruct (buf_read brk b (range_new p q)).
  - destruct (nth_error vs i); [|reflexivity]. cbn. now rewrite put_behind.
Qed.

Definition dval (s : desk) (v : vdesk) : Prop :=
  exists rs, rsim (d_ws s) rs /\ winv code (whole rs (d_world s)) /\ wo_guards (d_world s) = [] /\
    Forall tied (rs_buffers rs ++ wo_buffers (d_world s)) /\ same_list (d_heap s) rs (vd_shelf v) /\
    Forall2 (sees (d_heap s)) (wo_buffers (d_world s)) (vd_own v).

Lemma dval_inv s v : dval s v -> dinv code s.
Proof. intros (rs & S & I & _). now exists rs. Qed.
Lemma dval_shows s v : dval s v -> desk_shows s v.
Proof.
  intros (rs & S & I & _ & _ & E & F). unfold desk_shows, d_index, d_current, d_lineup.
  rewrite (rselected_sim _ _ S), (rindex_sim _ _ S), (lineup_sim _ _ S). destruct (rest_sim _ _ S) as (-> & _ & ->).
  split; [apply E|]. split; [apply E|]. split; [apply E|]. split; [|split; [apply (sees_map _ _ _ (sl_buffers _ _ _ E))|now apply sees_map]].
  destruct (rselected rs) as [b|] eqn:Eb.
  - destruct (same_selected _ _ _ _ E Eb) as (x & -> & Sx). cbn. now rewrite Sx.
  - now rewrite (same_unselected _ _ _ E Eb).
Qed.

Lemma rsim_unique w a b : rsim w a -> rsim w b -> a = b.
Proof.
  intros A B. destruct (rest_sim _ _ A) as (a1 & a2 & a3). destruct (rest_sim _ _ B) as (b1 & b2 & b3).
  pose proof (lineup_sim _ _ A) as a4. pose proof (lineup_sim _ _ B) as b4. pose proof (rindex_sim _ _ A) as a5. pose proof (rindex_sim _ _ B) as b5.
  destruct a, b. cbn in *. congruence.
Qed.
Definition looks (w : world) (rs : rshelf) (v : vdesk) : Prop :=
  wo_guards w = [] /\ Forall tied (rs_buffers rs ++ wo_buffers w) /\ same_list (wo_heap w) rs (vd_shelf v) /\
  Forall2 (sees (wo_heap w)) (wo_buffers w) (vd_own v).
Lemma dval_intro s v : dinv code s -> (exists rs, rsim (d_ws s) rs /\ looks (d_world s) rs v) -> dval s v.
Proof.
  intros (r1 & S1 & I) (rs & S & L). rewrite (rsim_unique _ _ _ S1 S) in I. exists rs. now destruct L as (? & ? & ? & ?).
Qed.
Lemma forall_insert {A} (P : A -> Prop) l k x : P x -> Forall P l -> Forall P (insert_at l k x).
Proof.
  rewrite !Forall_forall. intros Px F y Hy. apply (Permutation_in _ (Permutation_sym (insert_perm l k x))) in Hy. destruct Hy as [<-|Hy]; auto.
Qed.
Lemma forall_put {A} (P : A -> Prop) l k x : P x -> Forall P l -> Forall P (put_at l k x).
Proof.
  intros Px F. apply (forall_without P l k) in F. unfold without in F. apply Forall_app in F as [F1 F2]. apply Forall_app. split; [assumption|now constructor].
Qed.
Lemma entered_tied b b' : entered b b' -> tied b -> tied b'.
Proof. intros (i & y & ->). exact (fun x => x). Qed.
Lemma rput_tied rs b : tied b -> Forall tied (rs_buffers rs) -> Forall tied (rs_buffers (rput rs b)).
Proof.
  intros Tb F. destruct (rput_entered rs b) as (b' & E & ->). apply forall_insert; [now apply (entered_tied b)|assumption].
Qed.
Lemma looks_grown bs ks gs h h' f rs rs' sh sh' vs : looks (World bs ks gs h f) rs (VDesk vs sh) -> grown h h' ->
  Forall tied (rs_buffers rs') -> same_list h' rs' sh' -> looks (World bs ks gs h' f) rs' (VDesk vs sh').
Proof.
  intros (G & T & E & F) Gr T' E'. cbn in *. split; [assumption|]. split; [|split; [assumption|now apply (sees_grown h)]]. cbn.
  apply Forall_app in T as [_ T]. now apply Forall_app.
Qed.
Lemma same_open al f p h rs sh : same_list h rs sh -> Forall tied (rs_buffers rs) -> 
  match rspec_open al f rs p h with
  | Ok (r, rs', h1) => grown h h1 /\ Forall tied (rs_buffers rs') /\ exists sh', spec_open al f sh p = Ok (WResult r, sh') /\ same_list h1 rs' sh'
  | Panic => True
  end.
Proof.
  intros E T.
  assert (Ld : match rload al f rs p h with
    | Ok (r, rs', h1) => grown h h1 /\ Forall tied (rs_buffers rs') /\ exists sh', load al f sh p = Ok (WResult r, sh') /\ same_list h1 rs' sh'
    | Panic => True end).
  { unfold rload, load. destruct (opened_buffer h al f p) as (r & h1 & -> & X). cbn [bind].
    destruct X as [(-> & e & -> & ->)|(g & -> & Wg & X)].
    - split; [apply grown_refl|]. split; [assumption|]. eexists. now split.
    - destruct r as [b|e].
      + destruct X as (_ & Tb & _ & _ & x & -> & Sx). split; [now apply grown_one|]. split; [now apply rput_tied|]. eexists. split; [reflexivity|].
        apply same_put; [|exact Sx]. apply (same_grown h); [now apply grown_one|assumption].
      + rewrite X. split; [now apply grown_one|]. split; [assumption|]. eexists. split; [reflexivity|]. apply (same_grown h); [now apply grown_one|assumption]. }
  unfold rspec_open, spec_open. destruct (fs_canon f p) as [cp|]; [|exact Ld].
  assert (Eh : match selected sh with Some b => has_path cp b | None => false end = match rselected rs with Some b => rhas_path cp b | None => false end).
  { destruct (rselected rs) as [b|] eqn:Eb.
    - destruct (same_selected _ _ _ _ E Eb) as (x & -> & Sx). now apply (has_path_sees cp h).
    - now rewrite (same_unselected _ _ _ E Eb). }
  rewrite Eh. destruct (match rselected rs with Some b => rhas_path cp b | None => false end).
  - split; [apply grown_refl|]. split; [assumption|]. eexists. now split.
  - rewrite (first_with_sees cp h _ _ (sl_buffers _ _ _ E)). destruct (rfirst_with cp (rs_buffers rs)) as [i|]; [|exact Ld].
    split; [apply grown_refl|]. split; [assumption|]. eexists. split; [reflexivity|]. now apply same_select.
Qed.

Lemma dexec_value al c s v o s' : alloc_ok al -> dcall_ok code s c -> desk_plain c -> dval s v ->
  dexec brk code al c s = Ok (o, s') ->
  exists v', dvexec brk al c v (wo_disk (d_world s)) = Ok (from_desk o, v', wo_disk (d_world s')) /\ dval s' v'.
Proof.
  intros Ha Hc Hp V Ex. pose proof (dexec_steps brk code Hos Hcode al c s Ha Hc (dval_inv s v V)) as St. rewrite Ex in St. destruct St as (I' & _).
  cut (exists v', dvexec brk al c v (wo_disk (d_world s)) = Ok (from_desk o, v', wo_disk (d_world s')) /\
    exists rs, rsim (d_ws s') rs /\ looks (d_world s') rs v').
  { intros (v' & E & L). exists v'. split; [assumption|now apply dval_intro]. }
  destruct V as (rs & S & I & G & T & E & F). destruct s as [[bs ks gs h f] ws]. destruct v as [vs sh]. unfold d_heap in *.
  cbn [d_world d_ws wo_buffers wo_cursors wo_guards wo_heap wo_disk vd_own vd_shelf] in *. subst gs.
  pose proof (rselected_sim ws rs S) as HC. unfold whole, behind in I. cbn [wo_buffers wo_cursors wo_guards wo_heap wo_disk] in I.
  assert (Lk : looks (World bs ks [] h f) rs (VDesk vs sh)) by exact (conj eq_refl (conj T (conj E F))).
  pose proof T as TT. apply Forall_app in TT as [T1 T2].
  assert (Stay : forall o1, from_desk o1 = o1 -> Ok (o1, Desk (World bs ks [] h f) ws) = Ok (o, s') ->
    exists v', Ok (o1, VDesk vs sh, f) = Ok (from_desk o, v', wo_disk (d_world s')) /\ exists rs, rsim (d_ws s') rs /\ looks (d_world s') rs v').
  { intros o1 E1 [= <- <-]. rewrite E1. eexists. split; [reflexivity|]. now exists rs. }
  assert (Vall : forall i b, rs_selected rs = Some i -> nth_error (rs_buffers rs) i = Some b -> forall c' o' w', plain c' ->
    ncall_ok code (World (rs_buffers rs ++ bs) ks [] h f) c' ->
    nexec brk code al c' (World (rs_buffers rs ++ bs) ks [] h f) = Ok (o', w') ->
    wo_guards w' = [] /\ Forall tied (wo_buffers w') /\ exists vs', vexec brk al c' (s_buffers sh ++ vs) f = Ok (from_buffers o', vs', wo_disk w') /\
      Forall2 (sees (wo_heap w')) (wo_buffers w') vs').
  { intros i b _ _ c' o' w' Hp' Hc' Ex'.
    destruct (nexec_value brk code Hos Hcode Hlook al c' (World (rs_buffers rs ++ bs) ks [] h f) o' w' (s_buffers sh ++ vs) Ha Hc' Hp' I eq_refl T) as (G' & T' & vs' & Ev & V').
    - apply sees_viewed. apply Forall2_app; [apply E|assumption].
    - exact Ex'.
    - split; [assumption|]. split; [assumption|]. exists vs'. split; [assumption|]. destruct w'. now apply sees_viewed in V'. }
  unfold dexec in Ex. unfold dvexec.
  destruct c; cbn [dcall_ok desk_plain arranging] in *; rewrite ?HC in Ex; try contradiction.
  - (* DWorld *)
    pose proof (nexec_behind brk code al c (rs_buffers rs) (World bs ks [] h f)) as B.
    destruct (nexec brk code al c (World bs ks [] h f)) as [[o1 w1]|] eqn:E1; [|discriminate]. injection Ex as <- <-.
    destruct (nexec_value brk code Hos Hcode Hlook al (shift (length (rs_buffers rs)) c) (behind (rs_buffers rs) (World bs ks [] h f)) o1
      (behind (rs_buffers rs) w1) (s_buffers sh ++ vs)) as (G' & T' & vs' & Ev & V').
    + assumption.
    + now apply ok_behind.
    + now destruct c.
    + exact I.
    + reflexivity.
    + exact T.
    + apply sees_viewed. apply Forall2_app; [apply E|assumption].
    + exact B.
    + cbn [behind wo_disk] in Ev. rewrite (forall2_length _ _ _ _ _ (sl_buffers _ _ _ E)) in Ev. rewrite vexec_behind in Ev.
      destruct (vexec brk al c vs f) as [[[o2 vs2] f2]|]; [|discriminate]. injection Ev as -> <- ->. cbn [bind]. eexists. split; [reflexivity|].
      exists rs. split; [assumption|]. destruct w1 as [bs1 ks1 gs1 h1 f1]. cbn in G', T'. apply sees_viewed in V'. cbn.
      apply Forall2_app_inv_l in V' as (va & vb & Va & Vb & Eq).
      assert (La : length va = length (s_buffers sh)).
      { rewrite <- (forall2_length _ _ _ _ _ Va). apply (forall2_length _ _ _ _ _ (sl_buffers _ _ _ E)). }
      destruct (app_parts _ _ _ _ Eq (eq_sym La)) as [<- <-]. split; [assumption|]. split; [assumption|]. split; [|assumption].
      destruct E as [e1 e2 e3 e4 e5]. now split.
  - (* DAdd *)
    destruct (nth_error bs i) as [b|] eqn:Ei.
    2:{ rewrite (sees_none h bs vs i F Ei). now apply Stay. }
    destruct (sees_nth h bs vs i b F Ei) as (x & Ex' & Sx). rewrite Ex'.
    destruct (radd_sim al ws rs b h S) as (ws' & h' & Er & Gr & S'). rewrite Er in Ex. injection Ex as <- <-. eexists. split; [reflexivity|].
    exists (rput rs b). split; [assumption|]. cbn. split; [reflexivity|]. cbn. split; [|split].
    + apply Forall_app. split; [|now apply forall_without]. apply rput_tied; [|assumption]. rewrite Forall_forall in T2. apply T2. eapply nth_error_In; eassumption.
    + apply same_put; [now apply (same_grown h)|]. unfold sees. rewrite <- Sx. apply seen_grown; [assumption|]. now apply (sees_low h b x).
    + apply (sees_grown h); [assumption|]. now apply sees_without.
  - (* DOpen *)
    pose proof (ropen_sim al f ws rs p h S) as X. pose proof (same_open al f p h rs sh E T1) as Y.
    destruct (rspec_open al f rs p h) as [[[r rs'] h1]|] eqn:Eo; [|now destruct X].
    destruct X as (ws' & h' & Er & Gr & S'). destruct Y as (Y1 & Y2 & sh' & Y3 & Y4). rewrite Er in Ex. injection Ex as <- <-.
    cbn [spec_wcall]. rewrite Y3. cbn [bind answer from_desk]. eexists. split; [reflexivity|]. exists rs'. split; [assumption|].
    apply (looks_grown _ _ _ h _ _ rs _ sh); [assumption|now apply (grown_trans _ h1)|assumption|now apply (same_grown h1)].
  - (* DClose *)
    destruct (rclose_sim al ws rs h S) as (ws' & h' & Er & Gr & S'). rewrite Er in Ex. injection Ex as <- <-. eexists. split; [reflexivity|].
    eexists. split; [exact S'|]. apply (looks_grown _ _ _ h _ _ rs _ sh); [assumption|assumption| |].
    + unfold rspec_close. destruct (rs_selected rs); [|assumption]. now apply forall_without.
    + apply same_close. now apply (same_grown h).
  - (* DNext *)
    destruct (rnext_sim al ws rs h S) as (ws' & h' & Er & Gr & S'). rewrite Er in Ex. injection Ex as <- <-. eexists. split; [reflexivity|].
    eexists. split; [exact S'|]. apply (looks_grown _ _ _ h _ _ rs _ sh); [assumption|assumption| |].
    + unfold rturn. now destruct (rs_selected rs).
    + apply same_turn. now apply (same_grown h).
  - (* DPrevious *)
    destruct (rprevious_sim al ws rs h S) as (ws' & h' & Er & Gr & S'). rewrite Er in Ex. injection Ex as <- <-. eexists. split; [reflexivity|].
    eexists. split; [exact S'|]. apply (looks_grown _ _ _ h _ _ rs _ sh); [assumption|assumption| |].
    + unfold rturn. now destruct (rs_selected rs).
    + rewrite <- (forall2_length _ _ _ _ _ (sl_buffers _ _ _ E)). apply same_turn. now apply (same_grown h).
  - (* DSyntax *)
    cbn [spec_wcall]. destruct (rselected rs) as [b|] eqn:Eb.
    + destruct (rupdate_sim ws rs S) as (b0 & ws' & E0 & Er & S'); [congruence|]. rewrite Eb in E0. injection E0 as <-. rewrite Er in Ex.
      injection Ex as <- <-. destruct (same_selected _ _ _ _ E Eb) as (x & -> & Sx). cbn [bind answer from_desk]. eexists. split; [reflexivity|].
      eexists. split; [exact S'|]. apply (looks_grown _ _ _ h _ _ rs _ sh); [assumption|apply grown_refl| |].
      * unfold rreplace_selected. destruct (rs_selected rs); [|assumption]. apply forall_put; [|assumption].
        destruct (rselected_at rs b Eb) as (i & _ & E2 & _). rewrite Forall_forall in T1. apply (entered_tied b).
        { exists (rb_id b). eexists. destruct b. reflexivity. }
        apply T1. eapply nth_error_In; eassumption.
      * apply same_replace; [assumption|]. rewrite (sl_syntaxes _ _ _ E), (syntax_sees _ h b x Sx). now apply (sees_facts h b x Sx).
    + rewrite (same_unselected _ _ _ E Eb). unfold rupdate_syntax in Ex. rewrite HC in Ex. now apply Stay.
  - (* DTokens *)
    unfold rcurrent_tokens in Ex. rewrite HC in Ex. destruct (rselected rs) as [b|] eqn:Eb.
    2:{ rewrite (same_unselected _ _ _ E Eb). now apply Stay. }
    destruct (same_selected _ _ _ _ E Eb) as (x & Ex' & Sx). rewrite Ex'. destruct (rselected_at rs b Eb) as (i & E1 & E2 & E3).
    assert (E4 : nth_error (s_buffers sh) i = Some x) by (unfold selected in Ex'; now rewrite (sl_selected _ _ _ E), E1 in Ex').
    unfold mbind in Ex. destruct (rdata b h) as [[t h']|] eqn:Ed; [|discriminate]. cbn [bind] in Ex.
    assert (B : based code h b). { destruct I as [_ _ I3 _ _]. cbn in I3. rewrite Forall_forall in I3. apply (I3 b). apply in_or_app. left. eapply nth_error_In; eassumption. }
    pose proof (rdata_keeps code (lease_of []) b h (wi_kept _ _ I) B) as X. rewrite Ed in X. destruct X as [-> _].
    destruct (Vall i b E1 E2 (NText i) (UText t) (World (rs_buffers rs ++ bs) ks [] h f)) as (_ & _ & vs' & Ev & _).
    { exact Logic.I. }
    { exact Logic.I. }
    { unfold nexec. rewrite nth_error_app1, E2 by assumption. rewrite Ed. reflexivity. }
    cbn [vexec] in Ev. rewrite nth_error_app1, E4 in Ev by (apply nth_error_Some; congruence).
    destruct (buf_data x) as [t'|]; [|discriminate]. injection Ev as <- _. cbn [bind].
    destruct (sees_facts h b x Sx) as (_ & -> & _). destruct (rb_syntax b); (apply Stay; [reflexivity|exact Ex]).
  - (* DSetPath *)
    injection Ex as <- <-. eexists. split; [reflexivity|]. exists (RShelf p (rs_buffers rs) (rs_selected rs) (rs_given rs) (rs_syntaxes rs)). split.
    { cbn [d_ws]. rewrite <- HC. clear - S. destruct S; cbn; now constructor. }
    destruct E as [e1 e2 e3 e4 e5]. now repeat split.
  - (* DSetSyntaxes *)
    injection Ex as <- <-. eexists. split; [reflexivity|]. exists (RShelf (rs_path rs) (rs_buffers rs) (rs_selected rs) (rs_given rs) ss). split.
    { cbn [d_ws]. rewrite <- HC. clear - S. destruct S; cbn; now constructor. }
    destruct E as [e1 e2 e3 e4 e5]. now repeat split.
  - (* DBuffer *)
    cbn [spec_wcall]. destruct (rselected rs) as [b|] eqn:Eb.
    2:{ rewrite (same_unselected _ _ _ E Eb). now apply Stay. }
    destruct (same_selected _ _ _ _ E Eb) as (x & Ex' & Sx). rewrite Ex'. destruct (rselected_at rs b Eb) as (i & E1 & E2 & E3).
    assert (E4 : nth_error (s_buffers sh) i = Some x) by (unfold selected in Ex'; now rewrite (sl_selected _ _ _ E), E1 in Ex').
    destruct (pbuffer brk (told brk code) al c b f h) as [[[[o1 b1] f1] h1]|] eqn:Ed; [|discriminate]. injection Ex as <- <-.
    destruct (Vall i b E1 E2 (NBuffer i c) (UBuffer o1) (World (put_at (rs_buffers rs ++ bs) i b1) ks [] h1 f1)) as (G' & T' & vs' & Ev & V').
    { exact Logic.I. }
    { exact Hc. }
    { unfold nexec. rewrite nth_error_app1, E2 by assumption. rewrite Ed. reflexivity. }
    assert (L4 : i < length (s_buffers sh)) by (apply nth_error_Some; congruence).
    cbn [vexec] in Ev. rewrite nth_error_app1, E4 in Ev by assumption.
    destruct (bexec brk al c x f) as [[[o2 x2] f2]|]; [|discriminate]. injection Ev as -> <- ->. cbn [bind answer from_desk from_buffers].
    eexists. split; [reflexivity|]. exists (rreplace_selected rs b1). split; [apply on_sim; [assumption|congruence]|].
    cbn [wo_buffers wo_heap wo_disk] in T', V'. rewrite put_before in T' by assumption. rewrite !put_before in V' by assumption.
    apply Forall2_app_inv_l in V' as (va & vb & Va & Vb & Eq).
    assert (La : length va = length (put_at (s_buffers sh) i x2)).
    { rewrite <- (forall2_length _ _ _ _ _ Va). rewrite !put_size by assumption.
      apply (forall2_length _ _ _ _ _ (sl_buffers _ _ _ E)). }
    destruct (app_parts _ _ _ _ Eq (eq_sym La)) as [<- <-].
    destruct E as [e1 e2 e3 e4 e5]. unfold rreplace_selected, replace_selected. rewrite e3, E1. split; [reflexivity|]. split; [assumption|]. split; [|assumption].
    split; try assumption; reflexivity.
  - (* DCallback *)
    destruct (rselected rs) as [b|] eqn:Eb.
    2:{ rewrite (same_unselected _ _ _ E Eb). now apply Stay. }
    destruct (same_selected _ _ _ _ E Eb) as (x & -> & Sx). injection Ex as <- <-. eexists. split; [reflexivity|].
    eexists. split; [apply (on_sim ws rs (rset_callback b (Some n)) S); congruence|].
    apply (looks_grown _ _ _ h _ _ rs _ sh); [assumption|apply grown_refl| |].
    + destruct (rselected_at rs b Eb) as (i & E1 & E2 & _). unfold rreplace_selected. rewrite E1. apply forall_put; [|assumption].
      rewrite Forall_forall in T1. pose proof (T1 b (nth_error_In _ _ E2)) as Tb. exact Tb.
    + apply same_replace; [assumption|]. now apply (sees_facts h b x Sx).
  - (* DClone *)
    destruct (rselected rs) as [b|] eqn:Eb; [|now apply Stay]. injection Ex as <- <-. eexists. split; [reflexivity|]. now exists rs.
  - (* DDrop *)
    injection Ex as <- <-. eexists. split; [reflexivity|]. exists rs. split; [assumption|]. split; [reflexivity|]. split; [|split; [assumption|now apply sees_without]].
    apply Forall_app. split; [assumption|now apply forall_without].
  - (* DForget *)
    injection Ex as <- <-. eexists. split; [reflexivity|]. now exists rs.
Qed.

Lemma dvrun_snoc cs al c : forall v f os v1 f1 o v2 f2, dvrun brk cs v f = Ok (os, v1, f1) ->
  dvexec brk al c v1 f1 = Ok (o, v2, f2) -> dvrun brk (cs ++ [(al, c)]) v f = Ok (os ++ [o], v2, f2).
Proof.
  induction cs as [|[al' c'] cs IH]; intros v f os v1 f1 o v2 f2; cbn [dvrun app].
  - intros [= <- <- <-] E. now rewrite E.
  - destruct (dvexec brk al' c' v f) as [[[o1 b1] f1']|]; [|discriminate]. cbn [bind].
    destruct (dvrun brk cs b1 f1') as [[[os1 b2] f2']|] eqn:E1; [|discriminate]. cbn [bind]. intros [= <- <- <-] E.
    rewrite (IH _ _ _ _ _ _ _ _ E1 E). reflexivity.
Qed.
End Values.

(** ** As the properties state them *)

Section Reaching.
Variable brk : brk_rule.
Notation reaches f := (fun v => reachable_buffer brk v f).

Lemma reach_disk al f f1 v : alloc_ok al -> reachable_buffer brk v f -> reachable_buffer brk v f1.
Proof.
  intros Ha R. eapply (reach_call brk v f al (BDisk f1)); [exact R|exact Ha|exact I|reflexivity].
Qed.
Lemma reach_all al f f1 vs : alloc_ok al -> Forall (reaches f) vs -> Forall (reaches f1) vs.
Proof. intros Ha F. eapply Forall_impl; [|exact F]. intros v. now apply (reach_disk al). Qed.
Lemma reach_fresh f v : fresh_buffer f v -> reachable_buffer brk v f.
Proof. intros H. exists v, f, [], []. split; [assumption|]. split; [constructor|reflexivity]. Qed.
Lemma reach_replace f sh v : Forall (reaches f) (s_buffers sh) -> reachable_buffer brk v f -> Forall (reaches f) (s_buffers (replace_selected sh v)).
Proof. intros F R. unfold replace_selected. destruct (s_selected sh) as [i|]; [|assumption]. now apply (forall_put (reaches f) (s_buffers sh) i v). Qed.
Lemma reach_selected f sh v : Forall (reaches f) (s_buffers sh) -> selected sh = Some v -> reachable_buffer brk v f.
Proof.
  intros F. unfold selected. destruct (s_selected sh) as [i|]; [|discriminate]. intros E. rewrite Forall_forall in F. apply F. eapply nth_error_In; eassumption.
Qed.
Lemma reach_put al f sh v : alloc_ok al -> Forall (reaches f) (s_buffers sh) -> reachable_buffer brk v f ->
  Forall (reaches f) (s_buffers (WorkspaceSpec.put sh v)).
Proof.
  intros Ha F R. unfold WorkspaceSpec.put. cbn [s_buffers]. apply (forall_insert (reaches f)); [|assumption].
  assert (R1 : reachable_buffer brk (set_id v (Some (s_given sh))) f).
  { eapply (reach_call brk v f al (BSetId _)); [exact R|exact Ha|exact I|reflexivity]. }
  destruct (b_syntax v); [assumption|]. eapply (reach_call brk _ f al (BSetSyntax _)); [exact R1|exact Ha|exact I|reflexivity].
Qed.
Lemma reach_open al f p sh o sh' : alloc_ok al -> Forall (reaches f) (s_buffers sh) -> spec_open al f sh p = Ok (o, sh') ->
  Forall (reaches f) (s_buffers sh').
Proof.
  intros Ha F. assert (Ld : load al f sh p = Ok (o, sh') -> Forall (reaches f) (s_buffers sh')).
  { unfold load. destruct (from_file al f p) as [[b|e]|] eqn:E; [..|discriminate]; intros [= _ <-]; [|assumption].
    apply (reach_put al); [assumption..|]. apply reach_fresh. right. eauto. }
  unfold spec_open. destruct (fs_canon f p) as [cp|]; [|exact Ld].
  destruct (match selected sh with Some b => has_path cp b | None => false end); [now intros [= _ <-]|].
  destruct (first_with cp (s_buffers sh)); [now intros [= _ <-]|exact Ld].
Qed.
Lemma dvexec_reaches al c v f o v' f' : alloc_ok al ->
  match c with DBuffer c | DWorld (NBuffer _ c) => call_ok c | _ => True end ->
  Forall (reaches f) (vd_own v) -> Forall (reaches f) (s_buffers (vd_shelf v)) -> dvexec brk al c v f = Ok (o, v', f') ->
  Forall (reaches f') (vd_own v') /\ Forall (reaches f') (s_buffers (vd_shelf v')).
Proof.
  intros Ha Hc F1 F2. destruct v as [vs sh]. cbn [vd_own vd_shelf] in *. unfold dvexec. destruct c; cbn [arranging spec_wcall bind].
  - destruct (vexec brk al c vs f) as [[[o1 vs1] f1]|] eqn:E; [|discriminate]. intros [= _ <- <-]. split; [|now apply (reach_all al f)].
    eapply (vexec_reaches brk al c); [exact Ha| |exact F1|exact E]. now destruct c.
  - destruct (nth_error vs i) as [b|] eqn:Ei; intros [= _ <- <-]; [|now split]. cbn. split; [now apply forall_without|]. apply (reach_put al); try assumption.
    rewrite Forall_forall in F1. apply F1. eapply nth_error_In; eassumption.
  - destruct (spec_open al f sh p) as [[o1 sh1]|] eqn:E; [|discriminate]. intros [= _ <- <-]. split; [assumption|]. now apply (reach_open al f p sh o1).
  - intros [= _ <- <-]. split; [assumption|]. cbn. unfold spec_close. destruct (s_selected sh) as [i|]; [|assumption]. now apply (forall_without _ _ i).
  - intros [= _ <- <-]. split; [assumption|]. cbn [vd_shelf]. unfold turn. now destruct (s_selected sh).
  - intros [= _ <- <-]. split; [assumption|]. cbn [vd_shelf]. unfold turn. now destruct (s_selected sh).
  - destruct (selected sh) as [b|] eqn:Es; intros [= _ <- <-]; [|now split]. split; [assumption|]. apply reach_replace; [assumption|].
    eapply (reach_call brk b f al (BSetSyntax _)); [|exact Ha|exact I|reflexivity]. now apply (reach_selected f sh).
  - destruct (selected sh) as [b|]; [|intros [= _ <- <-]; now split]. destruct (buf_data b); [|discriminate]. intros [= _ <- <-]. now split.
  - intros [= _ <- <-]. now split.
  - intros [= _ <- <-]. now split.
  - destruct (selected sh) as [b|] eqn:Es; [|intros [= _ <- <-]; now split]. destruct (bexec brk al c b f) as [[[o1 b1] f1]|] eqn:E; [|discriminate].
    intros [= _ <- <-]. split; [now apply (reach_all al f)|]. apply reach_replace; [now apply (reach_all al f)|].
    eapply (reach_call brk b f al c); [now apply (reach_selected f sh)|exact Ha|exact Hc|exact E].
  - destruct (selected sh) as [b|] eqn:Es; intros [= _ <- <-]; [|now split]. split; [assumption|]. apply reach_replace; [assumption|].
    eapply (reach_call brk b f al (BSetCallback true)); [|exact Ha|exact I|reflexivity]. now apply (reach_selected f sh).
  - intros [= _ <- <-]. now split.
  - intros [= _ <- <-]. now split.
  - intros [= _ <- <-]. split; [now apply forall_without|assumption].
  - intros [= _ <- <-]. now split.
Qed.
End Reaching.

Section Stated.
Variable brk : brk_rule.
Variable code : closures.
Hypothesis Hos : order_safe brk.
Hypothesis Hcode : closures_ok code.

Lemma new_sim f p ss ws : rws_new f p (Some ss) = ROk ws -> exists cp, ws = RWS cp [] 0 None None ss /\ rsim ws (RShelf cp [] None 0 ss).
Proof. unfold rws_new. destruct (fs_canon f p) as [cp|]; [|discriminate]. intros [= <-]. exists cp. split; [reflexivity|constructor]. Qed.
Lemma winv_none f : winv code (World [] [] [] [] f).
Proof. split; cbn; [|now left|constructor..]. split; [now intros [|r] c E|reflexivity]. Qed.
Lemma desk_inv Q f p ss ws cs os s : rws_new f p (Some ss) = ROk ws -> desk_session brk code Q f ws cs os s -> dinv code s.
Proof.
  intros E0 H. destruct (new_sim _ _ _ _ E0) as (cp & _ & S). induction H as [|cs os s al c o s' H IH Ha Hc HQ E].
  - eexists. split; [exact S|]. apply winv_none.
  - pose proof (dexec_steps brk code Hos Hcode al c s Ha Hc IH) as X. rewrite E in X. apply X.
Qed.
Lemma reached_inv s : desk_reached brk code s -> dinv code s.
Proof. intros (f & p & ss & ws & cs & os & E & H). exact (desk_inv _ _ _ _ _ _ _ _ E H). Qed.

Lemma desk_arranged s al c o s' : desk_reached brk code s -> alloc_ok al -> dcall_ok code s c ->
  dexec brk code al c s = Ok (o, s') -> arranged c s o s'.
Proof. intros R Ha Hc E. pose proof (dexec_steps brk code Hos Hcode al c s Ha Hc (reached_inv s R)) as X. rewrite E in X. apply X. Qed.
Lemma desk_keeps s al c o s' : desk_reached brk code s -> alloc_ok al -> dcall_ok code s c -> arranges c ->
  dexec brk code al c s = Ok (o, s') ->
  (exists new, d_heap s' = d_heap s ++ new) /\ wo_cursors (d_world s') = wo_cursors (d_world s) /\
  wo_guards (d_world s') = wo_guards (d_world s) /\ wo_disk (d_world s') = wo_disk (d_world s).
Proof.
  intros R Ha Hc A E. pose proof (dexec_steps brk code Hos Hcode al c s Ha Hc (reached_inv s R)) as X. rewrite E in X.
  destruct X as (_ & _ & X & _). destruct (X A) as ((new & G & _) & X2). split; [now exists new|assumption].
Qed.
Lemma desk_runs s al c : desk_reached brk code s -> alloc_ok al -> dcall_ok code s c ->
  (forall r, desk_needs code s c r -> ~ guarded (d_world s) r) -> exists o s', dexec brk code al c s = Ok (o, s').
Proof.
  intros R Ha Hc N. pose proof (dexec_steps brk code Hos Hcode al c s Ha Hc (reached_inv s R)) as X.
  destruct (dexec brk code al c s) as [[o s']|]; [eauto|]. exfalso. apply X. intros r Hr. apply lease_free. exact (N r Hr).
Qed.
Lemma desk_arranges_runs s al c : desk_reached brk code s -> alloc_ok al -> arranges c -> exists o s', dexec brk code al c s = Ok (o, s').
Proof.
  intros R Ha A. apply desk_runs; try assumption.
  - now destruct c.
  - intros r Hr. now destruct c.
Qed.
Lemma desk_own_storage s : desk_reached brk code s -> NoDup (map rb_data (d_lineup s ++ wo_buffers (d_world s))).
Proof. intros R. destruct (reached_inv s R) as (rs & S & I). unfold d_lineup. rewrite (lineup_sim _ _ S). apply I. Qed.
Lemma desk_isolated s al c o s' b : desk_reached brk code s -> alloc_ok al -> dcall_ok code s c ->
  dexec brk code al c s = Ok (o, s') -> In b (d_lineup s) -> ~ desk_concerns code s c b ->
  In b (d_lineup s') /\ seen (d_heap s') b = seen (d_heap s) b.
Proof. intros R Ha Hc E. pose proof (dexec_steps brk code Hos Hcode al c s Ha Hc (reached_inv s R)) as X. rewrite E in X. apply X. Qed.
Lemma desk_values f p ss ws cs os s : only_look code -> rws_new f p (Some ss) = ROk ws ->
  desk_session brk code desk_plain f ws cs os s ->
  exists dir v, fs_canon f p = Some dir /\
    dvrun brk cs (VDesk [] (Shelf dir [] None 0 ss)) f = Ok (map from_desk os, v, wo_disk (d_world s)) /\ desk_shows s v.
Proof.
  intros Hl E0 H. exists (rw_path ws).
  assert (Ec : fs_canon f p = Some (rw_path ws)).
  { unfold rws_new in E0. destruct (fs_canon f p); [|discriminate]. now injection E0 as <-. } destruct (new_sim _ _ _ _ E0) as (cp & Ew & S).
  cut (exists v, dvrun brk cs (VDesk [] (Shelf (rw_path ws) [] None 0 ss)) f = Ok (map from_desk os, v, wo_disk (d_world s)) /\ dval code s v).
  { intros (v & E & D). exists v. split; [assumption|]. split; [assumption|now apply (dval_shows code)]. }
  induction H as [|cs os s al c o s' H IH Ha Hc HQ E].
  - eexists. split; [reflexivity|]. eexists. split; [exact S|]. split; [apply winv_none|]. rewrite Ew. cbn.
    split; [reflexivity|]. split; [constructor|]. split; [|constructor]. split; cbn; try reflexivity. constructor.
  - destruct IH as (v & Er & V). destruct (dexec_value brk code Hos Hcode Hl al c s v o s' Ha Hc HQ V E) as (v' & Ev & V').
    exists v'. split; [|assumption]. rewrite map_app. eapply dvrun_snoc; eassumption.
Qed.
Lemma desk_reachable f p ss ws cs os s b : only_look code -> rws_new f p (Some ss) = ROk ws ->
  desk_session brk code desk_plain f ws cs os s -> In b (d_lineup s ++ wo_buffers (d_world s)) ->
  exists v, seen (d_heap s) b = Some v /\ reachable_buffer brk v (wo_disk (d_world s)).
Proof.
  intros Hl E0 H Hb. destruct (new_sim _ _ _ _ E0) as (cp & Ew & S).
  assert (X : exists v, dval code s v /\ Forall (fun v => reachable_buffer brk v (wo_disk (d_world s))) (vd_own v) /\
    Forall (fun v => reachable_buffer brk v (wo_disk (d_world s))) (s_buffers (vd_shelf v))).
  { clear b Hb. induction H as [|cs os s al c o s' H IH Ha Hc HQ E].
    - exists (VDesk [] (Shelf (rw_path ws) [] None 0 ss)). split; [|split; constructor]. eexists. split; [exact S|]. split; [apply winv_none|]. rewrite Ew. cbn.
      split; [reflexivity|]. split; [constructor|]. split; [|constructor]. split; cbn; try reflexivity. constructor.
    - destruct IH as (v & V & F1 & F2). destruct (dexec_value brk code Hos Hcode Hl al c s v o s' Ha Hc HQ V E) as (v' & Ev & V').
      exists v'. split; [assumption|]. eapply (dvexec_reaches brk al c v _ _ _ _ Ha); [|exact F1|exact F2|exact Ev].
      destruct c; try exact I; cbn in Hc; destruct c; try exact I; try exact Hc; destruct c; try exact I; exact Hc. }
  destruct X as (v & (rs & S' & _ & _ & _ & E & F) & F1 & F2). unfold d_lineup in Hb. rewrite (lineup_sim _ _ S') in Hb.
  apply in_app_or in Hb as [Hb|Hb]; apply In_nth_error in Hb as (i & Ei).
  - destruct (sees_nth _ _ _ i b (sl_buffers _ _ _ E) Ei) as (x & Ex & Sx). exists x. split; [assumption|]. rewrite Forall_forall in F2.
    apply F2. eapply nth_error_In; eassumption.
  - destruct (sees_nth _ _ _ i b F Ei) as (x & Ex & Sx). exists x. split; [assumption|]. rewrite Forall_forall in F1.
    apply F1. eapply nth_error_In; eassumption.
Qed.
End Stated.
