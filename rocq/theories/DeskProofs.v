(** Programs with a workspace over shared storages. *)
From Coq Require Import Permutation.
From Verif Require Import Base Utf8 Utf8Proofs Grapheme GraphemeProofs Position GapBuffer
  GapBufferProofs Cursor PathModel Buffer Spec CursorSpec Calls CursorCalls TextProofs UaxProofs HalvesProofs TextFacts
  GapProps CursorProofs OpProofs BufferCalls Timeline TimelineProofs AnyTextProofs BufferProps
  BufferIoProps BufferFacts Token Workspace WorkspaceSpec WorkspaceProofs Shared SharedSpec SharedProofs World WorldSpec WorldProofs
  Desk DeskSpec.

(** ** The workspace *)

(** The list it stands for. *)
Record rshelf := RShelf {
  rs_path : path;
  rs_buffers : list rbuffer;
  rs_selected : option nat;
  rs_given : nat;
  rs_syntaxes : syntax_set }.
Inductive rsim : rworkspace -> rshelf -> Prop :=
| rsim_empty p n ss : rsim (RWS p [] n None None ss) (RShelf p [] None n ss)
| rsim_some p pre blank post n b ss : rb_path blank = None ->
  rsim (RWS p (pre ++ blank :: post) n (Some b) (Some (length pre)) ss)
       (RShelf p (pre ++ b :: post) (Some (length pre)) n ss).

Definition grown (h h' : heap) : Prop :=
  exists new, h' = h ++ new /\ Forall (fun c => wf (c_gap c) /\ c_lease c = Free) new.
Lemma grown_refl h : grown h h.
Proof. exists []. now rewrite app_nil_r. Qed.
Lemma grown_one h g : wf g -> grown h (h ++ [Cell g Free]).
Proof. intros W. exists [Cell g Free]. split; [reflexivity|]. now repeat constructor. Qed.
Lemma grown_trans h1 h2 h3 : grown h1 h2 -> grown h2 h3 -> grown h1 h3.
Proof.
  intros (n1 & -> & F1) (n2 & -> & F2). exists (n1 ++ n2). split; [now rewrite app_assoc|]. apply Forall_app. now split.
Qed.

Lemma blank_made al h : exists b h', rbuffer_new al h = Ok (b, h') /\ grown h h' /\ rb_path b = None.
Proof.
  destruct (new_ok al [] ltac:(constructor)) as (g & E & R). unfold rbuffer_new, mbind, lift. rewrite E. cbn.
  eexists _, _. split; [reflexivity|]. split; [|reflexivity]. apply grown_one. now exists [], [].
Qed.

Lemma rsim_at p pre blank post n b ss i : rb_path blank = None -> length pre = i ->
  rsim (RWS p (pre ++ blank :: post) n (Some b) (Some i) ss) (RShelf p (pre ++ b :: post) (Some i) n ss).
Proof. intros H <-. now constructor. Qed.

Lemma rcheck_out al p bs n ix ss j h : j < length bs ->
  exists w' h', rselect_buffer al (RWS p bs n None ix ss) j h = Ok ((true, w'), h') /\ grown h h' /\
    rsim w' (RShelf p bs (Some j) n ss).
Proof.
  intros H. destruct (nth_error bs j) as [t|] eqn:E; [|now apply nth_error_None in E; lia].
  destruct (split_at _ _ _ E) as (a & b & -> & L). destruct (blank_made al h) as (bl & h' & Eb & G & Hb).
  unfold rselect_buffer, mbind, ret, lift. cbn [rw_current rw_buffers bind rw_path rw_next_id rw_syntaxes]. rewrite E, Eb. cbn [bind].
  rewrite upd_app by auto. cbn [bind]. eexists _, _. split; [reflexivity|]. split; [assumption|]. now apply rsim_at.
Qed.
Lemma rcheck_in al p pre blank post n b ss j h :
  j < length (pre ++ b :: post) -> exists w' h',
  rselect_buffer al (RWS p (pre ++ blank :: post) n (Some b) (Some (length pre)) ss) j h = Ok ((true, w'), h') /\ grown h h'
  /\ rsim w' (RShelf p (pre ++ b :: post) (Some j) n ss).
Proof.
  intros H. destruct (rcheck_out al p (pre ++ b :: post) n (Some (length pre)) ss j h H) as (w' & h' & E & S).
  exists w', h'. split; [|assumption]. rewrite <- E. unfold rselect_buffer, mbind, ret, lift.
  cbn [rw_current rw_index rw_buffers rw_path rw_next_id rw_syntaxes].
  rewrite get_app, upd_app by auto. cbn [bind rw_current rw_index rw_buffers rw_path rw_next_id rw_syntaxes].
  destruct (nth_error (pre ++ b :: post) j) eqn:X; [reflexivity|]. apply nth_error_None in X. lia.
Qed.

Definition rselect (s : rshelf) (i : nat) : rshelf :=
  RShelf (rs_path s) (rs_buffers s) (Some i) (rs_given s) (rs_syntaxes s).
Definition rselected (s : rshelf) : option rbuffer :=
  match rs_selected s with Some i => nth_error (rs_buffers s) i | None => None end.
Definition rreplace_selected (s : rshelf) (b : rbuffer) : rshelf :=
  match rs_selected s with
  | Some i => RShelf (rs_path s) (put_at (rs_buffers s) i b) (rs_selected s) (rs_given s) (rs_syntaxes s)
  | None => s
  end.
Definition rsyntax_for (ss : syntax_set) (b : rbuffer) : syntax :=
  let look := fun n => match ss_find ss n with Some s => s | None => ss_plain ss end in
  match rfile_extension b, rfile_name b with
  | Some e, _ => look e
  | None, Some n => look n
  | None, None => ss_plain ss
  end.
Definition rput (s : rshelf) (b : rbuffer) : rshelf :=
  let i := match rs_selected s with Some i => S i | None => 0 end in
  let b1 := rset_id b (Some (rs_given s)) in
  let b2 := match rb_syntax b with
            | Some _ => b1
            | None => rset_syntax b1 (Some (rsyntax_for (rs_syntaxes s) b))
            end in
  RShelf (rs_path s) (insert_at (rs_buffers s) i b2) (Some i) (S (rs_given s)) (rs_syntaxes s).

Lemma rselect_sim al w s j h : rsim w s -> rs_selected s <> None -> j < length (rs_buffers s) ->
  exists w' h', rselect_buffer al w j h = Ok ((true, w'), h') /\ grown h h' /\ rsim w' (rselect s j).
Proof.
  intros [p n ss|p pre blank post n b ss Hb] H L; [now destruct H|]. cbn [rs_buffers] in L. now apply rcheck_in.
Qed.

Lemma rupdate_sim w s : rsim w s -> rselected s <> None ->
  exists b w', rselected s = Some b /\ rupdate_syntax w = (ROk tt, w')
    /\ rsim w' (rreplace_selected s (rset_syntax b (Some (rsyntax_for (rs_syntaxes s) b)))).
Proof.
  intros [p n ss|p pre blank post n b ss Hb] H; [now destruct H|].
  unfold rselected, rreplace_selected, put_at. cbn [rs_selected rs_buffers rs_path rs_given rs_syntaxes].
  rewrite nth_pre, firstn_pre, skipn_S_pre. eexists. eexists. split; [reflexivity|].
  unfold rupdate_syntax. cbn [rw_current rw_buffers rw_path rw_next_id rw_syntaxes rw_index].
  split; [reflexivity|].
  assert (E : (match (match (match rfile_extension b with Some e => Some e | None => rfile_name b end) with
              | Some ex => ss_find ss ex | None => None end) with
              | Some s => Some s | None => Some (ss_plain ss) end) = Some (rsyntax_for ss b)).
  { unfold rsyntax_for. destruct (rfile_extension b) as [e|]; [now destruct (ss_find ss e)|].
    destruct (rfile_name b) as [m|]; [now destruct (ss_find ss m)|reflexivity]. }
  rewrite E. now constructor.
Qed.

Lemma radd_sim al w s b h : rsim w s -> exists w' h', radd_buffer al w b h = Ok (w', h') /\ grown h h' /\ rsim w' (rput s b).
Proof.
  intros S. unfold radd_buffer, mbind, lift, ret.
  assert (X : exists bs, let i := match rs_selected s with Some i => Datatypes.S i | None => 0 end in
    vec_insert (rw_buffers w) (match rw_index w with Some i => i + 1 | None => 0 end) (rset_id b (Some (rw_next_id w))) = Ok bs /\
    exists w' h', rselect_buffer al (RWS (rw_path w) bs (rw_next_id w + 1) (rw_current w) (rw_index w) (rw_syntaxes w))
      (match rw_index w with Some i => i + 1 | None => 0 end) h = Ok ((true, w'), h') /\ grown h h'
    /\ rsim w' (RShelf (rs_path s) (firstn i (rs_buffers s) ++ rset_id b (Some (rs_given s)) :: skipn i (rs_buffers s)) (Some i)
                     (Datatypes.S (rs_given s)) (rs_syntaxes s))).
  { destruct S as [p n ss|p pre blank post n c ss Hb]; cbn [rw_index rw_buffers rw_current rw_path rw_next_id rw_syntaxes
      rs_selected rs_buffers rs_path rs_given rs_syntaxes].
    - eexists. split; [reflexivity|]. rewrite Nat.add_1_r. cbn [firstn skipn app].
      apply rcheck_out. cbn. lia.
    - unfold vec_insert. rewrite !Nat.add_1_r, firstn_S_pre, skipn_S_pre, firstn_S_pre, skipn_S_pre.
      destruct (Nat.leb_spec (Datatypes.S (length pre)) (length (pre ++ blank :: post))) as [_|L];
        [|rewrite app_length in L; cbn in L; lia].
      eexists. split; [reflexivity|]. rewrite <- !app_assoc. cbn [app].
      apply rcheck_in. rewrite app_length. cbn. lia. }
  destruct X as (bs & E & w' & h' & E' & G & S'). rewrite E. cbn [bind]. rewrite E'. cbn [bind]. unfold rput, insert_at.
  set (i := match rs_selected s with Some i => Datatypes.S i | None => 0 end) in *.
  set (pre := firstn i (rs_buffers s)) in *. set (post := skipn i (rs_buffers s)) in *.
  assert (Li : length pre = i).
  { unfold pre, i. apply firstn_length_le. destruct S; cbn; [lia|]. rewrite app_length. cbn. lia. }
  assert (C : rw_current w' = Some (rset_id b (Some (rs_given s)))).
  { clear - S' Li. remember (RShelf _ _ _ _ _) as s' eqn:Es in S'. destruct S' as [|p pre' bl post' n c ss Hb]; [discriminate|].
    injection Es as _ Eb El _ _. cbn. f_equal.
    assert (L' : length pre' = length pre) by congruence.
    assert (N : nth_error (pre' ++ c :: post') (length pre') = nth_error (pre ++ rset_id b (Some (rs_given s)) :: post) (length pre)).
    { now rewrite Eb, L'. }
    rewrite !nth_pre in N. now injection N. }
  rewrite C. cbn [rb_syntax rset_id]. destruct (rb_syntax b) as [y|] eqn:Ey; [now exists w', h'|].
  destruct (rupdate_sim _ _ S') as (c & w2 & Ec & Eu & S2).
  { unfold rselected. cbn [rs_selected rs_buffers]. rewrite <- Li, nth_pre. discriminate. }
  rewrite Eu. cbn [snd]. exists w2, h'. split; [reflexivity|]. split; [assumption|].
  unfold rselected in Ec. cbn [rs_selected rs_buffers] in Ec. rewrite <- Li, nth_pre in Ec. injection Ec as <-.
  unfold rreplace_selected, put_at in S2. cbn [rs_selected rs_buffers rs_path rs_given rs_syntaxes] in S2.
  rewrite <- Li, firstn_pre, skipn_S_pre, Li in S2. exact S2.
Qed.

Definition rhas_path (cp : path) (b : rbuffer) : bool :=
  match rb_path b with Some p => if path_eq_dec p cp then true else false | None => false end.
Fixpoint rfirst_with (cp : path) (bs : list rbuffer) : option nat :=
  match bs with
  | [] => None
  | b :: bs' => if rhas_path cp b then Some 0 else option_map S (rfirst_with cp bs')
  end.
Lemma rpath_is_has cp b : path_is (rb_path b) cp = rhas_path cp b.
Proof. unfold path_is, rhas_path, path_eqb. now destruct (rb_path b). Qed.
Lemma rfind_first cp bs : find_index (fun b => path_is (rb_path b) cp) bs = rfirst_with cp bs.
Proof.
  induction bs as [|b bs IH]; cbn [find_index rfirst_with]; [reflexivity|].
  rewrite rpath_is_has, IH. destruct (rhas_path cp b); [reflexivity|]. now destruct (rfirst_with cp bs).
Qed.
Lemma rfirst_skip cp pre b c post : rhas_path cp b = false -> rhas_path cp c = false ->
  rfirst_with cp (pre ++ b :: post) = rfirst_with cp (pre ++ c :: post).
Proof.
  intros Hb Hc. induction pre as [|d pre IH]; cbn [app rfirst_with]; [now rewrite Hb, Hc|now rewrite IH].
Qed.
Lemma rfirst_bound cp bs i : rfirst_with cp bs = Some i -> exists b, nth_error bs i = Some b /\ rhas_path cp b = true.
Proof.
  revert i. induction bs as [|b bs IH]; intros i; cbn [rfirst_with]; [discriminate|].
  destruct (rhas_path cp b) eqn:E; [intros H; injection H as <-; exists b; now split|].
  destruct (rfirst_with cp bs) as [j|]; [|discriminate]. intros H. injection H as <-.
  destruct (IH j eq_refl) as (x & Hx). now exists x.
Qed.
Lemma rfirst_none cp bs : rfirst_with cp bs = None -> forall b, In b bs -> rb_path b <> Some cp.
Proof.
  induction bs as [|x bs IH]; cbn; intros E b; [intros []|]. destruct (rhas_path cp x) eqn:Ex; [discriminate|].
  destruct (rfirst_with cp bs) eqn:Er; [discriminate|]. intros [->|Hb]; [|now apply IH].
  intros Eb. unfold rhas_path in Ex. rewrite Eb in Ex. revert Ex. unfold path_eqb. now destruct (path_eq_dec cp cp).
Qed.
Lemma rhas_path_is cp b : rhas_path cp b = true -> rb_path b = Some cp.
Proof. unfold rhas_path. destruct (rb_path b); [|discriminate]. destruct (path_eq_dec _ _); congruence. Qed.

Definition rload (al : allocator) (f : fsys) (s : rshelf) (p : path) (h : heap) : res (result unit * rshelf * heap) :=
  let* (r, h') := rfrom_file al f p h in
  match r with
  | RErr e => Ok (RErr e, s, h')
  | ROk b => Ok (ROk tt, rput s b, h')
  end.
Definition rspec_open (al : allocator) (f : fsys) (s : rshelf) (p : path) (h : heap) : res (result unit * rshelf * heap) :=
  match fs_canon f p with
  | None => rload al f s p h
  | Some cp =>
    if match rselected s with Some b => rhas_path cp b | None => false end
    then Ok (ROk tt, s, h)
    else match rfirst_with cp (rs_buffers s) with
         | Some i => Ok (ROk tt, rselect s i, h)
         | None => rload al f s p h
         end
  end.
Lemma rload_sim al f w s p h : rsim w s ->
  match rload al f s p h with
  | Ok (r, s', h1) => exists w' h', (let* (r, h0) := rfrom_file al f p h in
      match r with RErr e => ret (RErr e, w) | ROk b => mbind (radd_buffer al w b) (fun w2 => ret (ROk tt, w2)) end h0) = Ok ((r, w'), h')
      /\ grown h1 h' /\ rsim w' s'
  | Panic => False
  end.
Proof.
  intros S. unfold rload. destruct (opened_buffer h al f p) as (r & h1 & E & _). rewrite E. destruct r as [b|e]; cbn [bind].
  - destruct (radd_sim al w s b h1 S) as (w' & h' & Ea & G & S'). unfold mbind. rewrite Ea. cbn [bind]. eexists _, _.
    split; [reflexivity|]. now split.
  - eexists _, _. split; [reflexivity|]. split; [apply grown_refl|assumption].
Qed.
Lemma rselected_sim w s : rsim w s -> rw_current w = rselected s.
Proof. intros [|p pre blank post n b ss Hb]; [reflexivity|]. unfold rselected. cbn. now rewrite nth_pre. Qed.
Lemma rindex_sim w s : rsim w s -> rw_index w = rs_selected s.
Proof. now intros []. Qed.

Lemma ropen_sim al f w s p h : rsim w s ->
  match rspec_open al f s p h with
  | Ok (r, s', h1) => exists w' h', ropen_buffer al f w p h = Ok ((r, w'), h') /\ grown h1 h' /\ rsim w' s'
  | Panic => False
  end.
Proof.
  intros S. unfold rspec_open, ropen_buffer, rselect_by_path. pose proof (rload_sim al f w s p h S) as L.
  unfold mbind at 1. destruct (fs_canon f p) as [cp|]; [|exact L].
  rewrite (rselected_sim w s S). destruct (rselected s) as [b|] eqn:Es.
  - rewrite rpath_is_has. destruct (rhas_path cp b) eqn:Hp.
    { cbn. eexists _, _. split; [reflexivity|]. split; [apply grown_refl|assumption]. }
    rewrite rfind_first.
    assert (F : rfirst_with cp (rw_buffers w) = rfirst_with cp (rs_buffers s)).
    { destruct S as [|p0 pre blank post n c ss Hb]; [reflexivity|]. cbn [rw_buffers rs_buffers].
      unfold rselected in Es. cbn [rs_selected rs_buffers] in Es. rewrite nth_pre in Es. injection Es as ->.
      apply rfirst_skip; [|assumption]. unfold rhas_path. now rewrite Hb. }
    rewrite F. destruct (rfirst_with cp (rs_buffers s)) as [i|] eqn:Ei; [|exact L].
    destruct (rfirst_bound _ _ _ Ei) as (x & Hx & _).
    destruct (rselect_sim al w s i h S) as (w' & h' & E & G & S').
    { unfold rselected in Es. now destruct (rs_selected s). }
    { apply nth_error_Some. congruence. }
    rewrite E. cbn [bind]. eexists _, _. split; [reflexivity|]. now split.
  - destruct S as [p0 n ss|p0 pre blank post n c ss Hb].
    + cbn. exact L.
    + unfold rselected in Es. cbn [rs_selected rs_buffers] in Es. rewrite nth_pre in Es. discriminate.
Qed.

Definition rspec_close (s : rshelf) : rshelf :=
  match rs_selected s with
  | None => s
  | Some i =>
    let bs := without (rs_buffers s) i in
    RShelf (rs_path s) bs (match bs with [] => None | _ => Some (i - 1) end) (rs_given s) (rs_syntaxes s)
  end.
Lemma rclose_sim al w s h : rsim w s -> exists w' h', rclose_current al w h = Ok (w', h') /\ grown h h' /\ rsim w' (rspec_close s).
Proof.
  intros [p n ss|p pre blank post n b ss Hb]; unfold rclose_current, rspec_close, mbind, ret, lift, without.
  - eexists _, _. split; [reflexivity|]. split; [apply grown_refl|constructor].
  - cbn [rw_index rw_buffers rw_path rw_next_id rw_syntaxes rs_selected rs_buffers rs_path rs_given rs_syntaxes].
    unfold vec_remove. destruct (Nat.ltb_spec (length pre) (length (pre ++ blank :: post))) as [_|L];
      [|rewrite app_length in L; cbn in L; lia].
    rewrite !firstn_pre, !skipn_S_pre. cbn [bind]. destruct (pre ++ post) as [|c r] eqn:E.
    + eexists _, _. split; [reflexivity|]. split; [apply grown_refl|constructor].
    + destruct (rcheck_out al p (c :: r) n (Some (length pre)) ss (length pre - 1) h) as (w' & h' & E' & G & S').
      { rewrite <- E, app_length. destruct post; cbn; [|lia]. destruct pre; [discriminate|]. cbn. lia. }
      rewrite E'. cbn [bind]. eexists _, _. split; [reflexivity|]. now split.
Qed.

Definition rturn (s : rshelf) (k : nat) : rshelf :=
  match rs_selected s with
  | None => s
  | Some i => rselect s ((i + k) mod length (rs_buffers s))
  end.
Lemma rnext_sim al w s h : rsim w s -> exists w' h', rnext_buffer al w h = Ok (w', h') /\ grown h h' /\ rsim w' (rturn s 1).
Proof.
  unfold rnext_buffer, mbind, ret, lift. intros [p n ss|p pre blank post n b ss Hb].
  - cbn. eexists _, _. split; [reflexivity|]. split; [apply grown_refl|constructor].
  - cbn [rw_index rw_buffers]. unfold rturn. cbn [rs_selected rs_buffers]. unfold usub.
    set (m := length (pre ++ b :: post)).
    assert (Lm : length (pre ++ blank :: post) = m) by (unfold m; rewrite !app_length; reflexivity).
    assert (Lp : length pre < m) by (unfold m; rewrite app_length; cbn; lia).
    rewrite Lm. destruct (Nat.leb_spec 1 m) as [_|?]; [|lia]. cbn [bind].
    destruct (Nat.eqb_spec (length pre) (m - 1)) as [E|E].
    + destruct (rcheck_in al p pre blank post n b ss 0 h) as (w' & h' & E' & G & S'); [fold m; lia|].
      rewrite E'. cbn [bind]. replace ((length pre + 1) mod m) with 0; [eauto 6|].
      rewrite E. replace (m - 1 + 1) with m by lia. symmetry. apply Nat.mod_same. lia.
    + destruct (rcheck_in al p pre blank post n b ss (length pre + 1) h) as (w' & h' & E' & G & S'); [fold m; lia|].
      rewrite E'. cbn [bind]. rewrite Nat.mod_small by lia. eauto 6.
Qed.
Lemma rprevious_sim al w s h : rsim w s ->
  exists w' h', rprevious_buffer al w h = Ok (w', h') /\ grown h h' /\ rsim w' (rturn s (length (rs_buffers s) - 1)).
Proof.
  unfold rprevious_buffer, mbind, ret, lift. intros [p n ss|p pre blank post n b ss Hb].
  - cbn. eexists _, _. split; [reflexivity|]. split; [apply grown_refl|constructor].
  - cbn [rw_index rw_buffers]. unfold rturn. cbn [rs_selected rs_buffers]. unfold usub.
    set (m := length (pre ++ b :: post)).
    assert (Lm : length (pre ++ blank :: post) = m) by (unfold m; rewrite !app_length; reflexivity).
    assert (Lp : length pre < m) by (unfold m; rewrite app_length; cbn; lia).
    rewrite Lm. destruct (Nat.ltb_spec 0 (length pre)) as [E|E].
    + destruct (rcheck_in al p pre blank post n b ss (length pre - 1) h) as (w' & h' & E' & G & S'); [fold m; lia|].
      rewrite E'. cbn [bind]. replace ((length pre + (m - 1)) mod m) with (length pre - 1); [eauto 6|].
      replace (length pre + (m - 1)) with (length pre - 1 + 1 * m) by lia.
      rewrite Nat.mod_add, Nat.mod_small by lia. reflexivity.
    + destruct (Nat.leb_spec 1 m) as [_|?]; [|lia]. cbn [bind].
      destruct (rcheck_in al p pre blank post n b ss (m - 1) h) as (w' & h' & E' & G & S'); [fold m; lia|].
      rewrite E'. cbn [bind]. replace (length pre + (m - 1)) with (m - 1) by lia. rewrite Nat.mod_small by lia. eauto 6.
Qed.

Lemma lineup_sim w s : rsim w s -> lineup w = rs_buffers s.
Proof.
  intros [|p pre blank post n b ss Hb]; [reflexivity|]. unfold lineup, put_at.
  cbn [rw_index rw_current rw_buffers rs_buffers]. now rewrite firstn_pre, skipn_S_pre.
Qed.
Lemma rest_sim w s : rsim w s -> rw_path w = rs_path s /\ rw_next_id w = rs_given s /\ rw_syntaxes w = rs_syntaxes s.
Proof. now intros []. Qed.

(** ** Programs *)

Definition shift (n : nat) (c : ncall) : ncall :=
  match c with
  | NBuffer i c => NBuffer (n + i) c
  | NText i => NText (n + i)
  | NRead i p q => NRead (n + i) p q
  | NCallback i m => NCallback (n + i) m
  | NClone i => NClone (n + i)
  | NAssign i k => NAssign (n + i) k
  | _ => c
  end.
Definition behind (L : list rbuffer) (w : world) : world :=
  World (L ++ wo_buffers w) (wo_cursors w) (wo_guards w) (wo_heap w) (wo_disk w).

Lemma nth_behind {A} (L l : list A) i : nth_error (L ++ l) (length L + i) = nth_error l i.
Proof. rewrite nth_error_app2 by lia. f_equal. lia. Qed.
Lemma put_behind {A} (L l : list A) i x : put_at (L ++ l) (length L + i) x = L ++ put_at l i x.
Proof.
  unfold put_at. rewrite firstn_app, firstn_all2 by lia. rewrite skipn_app, skipn_all2 by lia.
  replace (length L + i - length L) with i by lia. replace (S (length L + i) - length L) with (S i) by lia.
  cbn [app]. now rewrite <- app_assoc.
Qed.
Lemma put_before {A} (L l : list A) i x : i < length L -> put_at (L ++ l) i x = put_at L i x ++ l.
Proof.
  intros H. unfold put_at. rewrite firstn_app, skipn_app. replace (i - length L) with 0 by lia.
  replace (S i - length L) with 0 by lia. cbn [firstn skipn]. rewrite app_nil_r, <- app_assoc. reflexivity.
Qed.

Section Steps.
Variable brk : brk_rule.
Variable code : closures.

Lemma nexec_behind al c L w :
  nexec brk code al (shift (length L) c) (behind L w) =
  match nexec brk code al c w with Ok (o, w') => Ok (o, behind L w') | Panic => Panic end.
Proof.
  destruct w as [bs ks gs h f]. unfold behind. destruct c; cbn [shift nexec wo_buffers wo_cursors wo_guards wo_heap wo_disk]; rewrite ?nth_behind.
  - destruct (rbuffer_new al h) as [[b h']|]; cbn; [|reflexivity]. now rewrite app_assoc.
  - destruct (rfrom_file al f p h) as [[[b|e] h']|]; cbn; [|reflexivity..]. now rewrite app_assoc.
  - destruct (nth_error bs i) as [b|]; [|reflexivity]. destruct (pbuffer _ _ _ _ _ _ _) as [[[[o b'] f'] h']|]; cbn; [|reflexivity]. now rewrite put_behind.
  - destruct (nth_error bs i) as [b|]; [|reflexivity]. now destruct (rdata b h) as [[t h']|].
  - destruct (nth_error bs i) as [b|]; [|reflexivity]. now destruct (rread brk b _ h) as [[t h']|].
  - destruct (nth_error bs i) as [b|]; [|reflexivity]. cbn. now rewrite put_behind.
  - now destruct (nth_error bs i) as [b|].
  - destruct (nth_error bs i) as [b|]; [|reflexivity]. destruct (nth_error ks k); [|reflexivity]. cbn. now rewrite put_behind.
  - destruct (gb_new al t); [|reflexivity]. reflexivity.
  - destruct (nth_error ks k); [|reflexivity]. now destruct (rmove brk m r h) as [[x' h']|].
  - now destruct (nth_error ks k).
  - destruct (nth_error ks k); [|reflexivity]. now destruct (nth_error ks j).
  - destruct (nth_error ks k); [|reflexivity]. now destruct (pstorage brk al c _ h) as [[x' h']|].
  - destruct (nth_error ks k); [|reflexivity]. now destruct (hold _ h) as [[x' h']|].
  - destruct (nth_error gs n); [|reflexivity]. now destruct (release _ h) as [[x' h']|].
  - reflexivity.
Qed.
Lemma ok_behind c L w : ncall_ok code w c -> ncall_ok code (behind L w) (shift (length L) c).
Proof. now destruct c. Qed.

Hypothesis Hos : order_safe brk.
Hypothesis Hcode : closures_ok code.

Definition whole (s : rshelf) (w : world) : world := behind (rs_buffers s) w.
Definition dinv (s : desk) : Prop := exists rs, rsim (d_ws s) rs /\ winv code (whole rs (d_world s)).

Lemma winv_grown bs ks gs h f h' : winv code (World bs ks gs h f) -> grown h h' -> winv code (World bs ks gs h' f).
Proof.
  intros I (new & -> & F). revert h I. induction F as [|c new [W Ef] F IH]; intros h I; [now rewrite app_nil_r|].
  replace (h ++ c :: new) with ((h ++ [c]) ++ new) by now rewrite <- app_assoc. apply IH.
  destruct c as [g l]. cbn in *. subst l. exact (winv_grow code (World bs ks gs h f) g I W).
Qed.
Lemma winv_part bs bs' gone ks gs h f : winv code (World bs ks gs h f) -> Permutation bs (gone ++ bs') -> winv code (World bs' ks gs h f).
Proof.
  intros [I1 I2 I3 I4 I5] P. split; cbn in *; try assumption.
  - apply (Permutation_Forall P) in I3. now apply Forall_app in I3 as [_ ?].
  - apply (Permutation_map rb_data) in P. apply (Permutation_NoDup P) in I5. rewrite map_app in I5.
    clear - I5. induction (map rb_data gone) as [|x l IH]; [assumption|]. apply IH. now inversion I5.
Qed.
(** Another id or syntax. *)
Lemma winv_same bs bs' ks gs h f : winv code (World bs ks gs h f) -> Forall2 entered bs bs' -> winv code (World bs' ks gs h f).
Proof.
  intros [I1 I2 I3 I4 I5] E. assert (X : map rb_data bs' = map rb_data bs).
  { clear - E. induction E as [|b b' bs bs' (i & y & ->) E IH]; [reflexivity|]. cbn. now rewrite IH. }
  split; cbn in *; try assumption; [|now rewrite X].
  clear - I3 E. induction E as [|b b' bs bs' (i & y & ->) E IH]; [constructor|]. inversion I3 as [|? ? [B O] F]; subst.
  constructor; [|auto]. split; [exact B|exact O].
Qed.
Lemma entered_self b : entered b b.
Proof. exists (rb_id b), (rb_syntax b). now destruct b. Qed.
Lemma entered_all bs : Forall2 entered bs bs.
Proof. induction bs; constructor; auto using entered_self. Qed.
Lemma seen_grown h h' b : grown h h' -> rb_data b < length h -> seen h' b = seen h b.
Proof. intros (new & -> & _) H. apply seen_frame. now rewrite nth_error_app1. Qed.
Lemma on_sim w s b : rsim w s -> rselected s <> None ->
  rsim (RWS (rw_path w) (rw_buffers w) (rw_next_id w) (Some b) (rw_index w) (rw_syntaxes w)) (rreplace_selected s b).
Proof.
  intros [p n ss|p pre blank post n c ss Hb] H; [now destruct H|]. unfold rreplace_selected, put_at.
  cbn [rs_selected rs_buffers rs_path rs_given rs_syntaxes rw_path rw_buffers rw_next_id rw_index rw_syntaxes].
  rewrite firstn_pre, skipn_S_pre. now constructor.
Qed.
Lemma rselected_at s b : rselected s = Some b -> exists i, rs_selected s = Some i /\ nth_error (rs_buffers s) i = Some b /\ i < length (rs_buffers s).
Proof.
  unfold rselected. destruct (rs_selected s) as [i|]; [|discriminate]. intros E. exists i. split; [reflexivity|]. split; [assumption|].
  apply nth_error_Some. congruence.
Qed.
Lemma rselected_some w s i : rsim w s -> rs_selected s = Some i -> exists b, rselected s = Some b.
Proof.
  intros [|p pre blank post n b ss Hb]; [discriminate|]. intros [= <-]. exists b. unfold rselected. cbn. apply nth_pre.
Qed.
Lemma in_insert_at {A} (l : list A) k x y : In y l -> In y (insert_at l k x).
Proof.
  intros H. rewrite <- (firstn_skipn k l) in H. unfold insert_at. apply in_app_or in H. apply in_or_app. cbn. tauto.
Qed.
Lemma insert_perm {A} (l : list A) k x : Permutation (x :: l) (insert_at l k x).
Proof. unfold insert_at. rewrite <- (firstn_skipn k l) at 1. apply Permutation_middle. Qed.
Lemma without_perm {A} (l : list A) i x : nth_error l i = Some x -> Permutation l (x :: without l i).
Proof.
  intros E. destruct (split_at _ _ _ E) as (a & b & -> & <-). unfold without. rewrite firstn_pre, skipn_S_pre.
  symmetry. apply Permutation_middle.
Qed.
Lemma forall_without {A} (P : A -> Prop) l k : Forall P l -> Forall P (without l k).
Proof.
  rewrite !Forall_forall. intros F y Hy. apply F. unfold without in Hy. rewrite <- (firstn_skipn k l). apply in_app_or in Hy. apply in_or_app.
  destruct Hy as [Hy|Hy]; [now left|right]. change (Datatypes.S k) with (1 + k) in Hy.
  clear F. revert l Hy. induction k as [|k IH]; intros [|z l] Hy; cbn in *; auto.
Qed.
Lemma in_without {A} (l : list A) i x y : nth_error l i = Some x -> In y l -> y <> x -> In y (without l i).
Proof.
  intros E H N. apply (Permutation_in _ (without_perm l i x E)) in H. destruct H as [->|H]; [now destruct N|assumption].
Qed.
Lemma in_put_at {A} (l : list A) i x y z : nth_error l i = Some x -> In y l -> y <> x -> In y (put_at l i z).
Proof.
  intros E H N. destruct (split_at _ _ _ E) as (a & b & -> & <-). unfold put_at. rewrite firstn_pre, skipn_S_pre.
  apply in_app_or in H. apply in_or_app. cbn in *. destruct H as [H|[H|H]]; [auto|congruence|auto].
Qed.
Lemma rput_entered rs b : exists b', entered b b' /\ rs_buffers (rput rs b) =
  insert_at (rs_buffers rs) (match rs_selected rs with Some i => S i | None => 0 end) b'.
Proof.
  unfold rput. cbn [rs_buffers]. eexists. split; [|reflexivity]. destruct (rb_syntax b) as [y|] eqn:E.
  - exists (Some (rs_given rs)), (Some y). destruct b; cbn in *. now rewrite E.
  - eexists _, _. reflexivity.
Qed.
Lemma winv_rput rs b bs ks gs h f : winv code (World (b :: rs_buffers rs ++ bs) ks gs h f) ->
  winv code (World (rs_buffers (rput rs b) ++ bs) ks gs h f).
Proof.
  intros I. destruct (rput_entered rs b) as (b' & E & ->).
  apply (winv_part ((b' :: rs_buffers rs) ++ bs) _ []).
  - apply (winv_same (b :: rs_buffers rs ++ bs)); [assumption|]. cbn. constructor; [assumption|apply entered_all].
  - cbn [app]. change (b' :: rs_buffers rs ++ bs) with ((b' :: rs_buffers rs) ++ bs). apply Permutation_app_tail, insert_perm.
Qed.

Definition kept_apart (s s' : desk) : Prop :=
  grown (d_heap s) (d_heap s') /\ wo_cursors (d_world s') = wo_cursors (d_world s) /\
  wo_guards (d_world s') = wo_guards (d_world s) /\ wo_disk (d_world s') = wo_disk (d_world s).

Lemma dexec_steps al c s : alloc_ok al -> dcall_ok code s c -> dinv s ->
  match dexec brk code al c s with
  | Ok (o, s') => dinv s' /\ arranged c s o s' /\ (arranges c -> kept_apart s s') /\
      (forall b, In b (d_lineup s) -> ~ desk_concerns code s c b ->
         In b (d_lineup s') /\ seen (d_heap s') b = seen (d_heap s) b)
  | Panic => ~ (forall r, desk_needs code s c r -> lease_ok (d_world s) r)
  end.
Proof.
  intros Ha Hc (rs & S & I). destruct s as [[bs ks gs h f] ws].
  unfold d_lineup, d_heap, d_index, d_current, kept_apart, arranged in *. cbn [d_world d_ws] in *. unfold d_index, d_lineup, d_heap, d_current, kept_apart in *.
  cbn [d_world d_ws wo_buffers wo_cursors wo_guards wo_heap wo_disk] in *.
  pose proof (lineup_sim ws rs S) as HL. pose proof (rindex_sim ws rs S) as HI. pose proof (rselected_sim ws rs S) as HC.
  rewrite HL, HI, ?HC in *. unfold whole, behind in I. cbn [wo_buffers wo_cursors wo_guards wo_heap wo_disk] in I.
  assert (Low : forall b, In b (rs_buffers rs) -> rb_data b < length h).
  { intros b Hb. destruct I as [_ _ I3 _ _]. cbn in I3. rewrite Forall_forall in I3. apply (I3 b). apply in_or_app. now left. }
  unfold dexec. destruct c; cbn [dcall_ok desk_needs arranges desk_concerns] in *; unfold d_current; cbn [d_ws d_world wo_buffers wo_cursors]; rewrite ?HC.
  - (* DWorld *)
    pose proof (nexec_steps brk code Hos Hcode al (shift (length (rs_buffers rs)) c) (behind (rs_buffers rs) (World bs ks gs h f)) Ha
      (ok_behind c (rs_buffers rs) (World bs ks gs h f) Hc) I) as X.
    rewrite nexec_behind in X. destruct (nexec brk code al c (World bs ks gs h f)) as [[o w']|] eqn:E; cbn [bind].
    + destruct X as [X1 X2]. split; [exists rs; now split|]. cbn [d_ws d_world]. rewrite HL, HI. split; [now split|]. split; [now intros []|].
      intros b Hb Hn. split; [assumption|]. apply In_nth_error in Hb as (j & Ej). assert (Hj : j < length (rs_buffers rs)) by (apply nth_error_Some; congruence).
      specialize (X2 j). unfold view, behind in X2. cbn [wo_buffers wo_heap] in X2. rewrite !nth_error_app1, Ej in X2 by assumption. apply X2.
      * rewrite app_length. lia.
      * intros Hx. apply Hn. destruct c; cbn [shift concerns] in Hx; try contradiction; try lia.
        -- destruct Hx as [Hx|(b0 & n & b' & H1 & H2 & H3 & H4)]; [lia|]. cbn [wo_buffers] in *. rewrite nth_behind in H1.
           rewrite nth_error_app1, Ej in H3 by assumption. injection H3 as <-. eauto.
        -- destruct Hx as (H1 & x & b' & H2 & H3 & H4). cbn [wo_buffers wo_cursors] in *. rewrite nth_error_app1, Ej in H3 by assumption.
           injection H3 as <-. eauto.
    + intros Hf. apply X. intros r Hr. unfold lease_ok in *. cbn [wo_guards behind] in *. apply Hf.
      destruct c; cbn [shift needs wo_buffers wo_cursors behind] in *; rewrite ?nth_behind in Hr; exact Hr.
  - (* DAdd *)
    destruct (nth_error bs i) as [b|] eqn:Ei.
    2:{ split; [exists rs; now split|]. cbn [d_ws d_world]. rewrite HL, HI. split; [now repeat split|]. split; [|now split].
        intros _. split; [apply grown_refl|now repeat split]. }
    destruct (radd_sim al ws rs b h S) as (ws' & h' & E & G & S'). rewrite E. cbn [bind d_ws d_world wo_buffers wo_cursors wo_guards wo_heap wo_disk].
    destruct (rput_entered rs b) as (b' & Eb & Ep). rewrite (lineup_sim _ _ S'), (rindex_sim _ _ S'), Ep.
    split; [|split; [|split]].
    + exists (rput rs b). split; [assumption|]. unfold whole, behind. cbn [wo_buffers wo_cursors wo_guards wo_heap wo_disk d_world].
      apply (winv_grown _ _ _ h f); [|assumption]. apply winv_rput. apply (winv_part (rs_buffers rs ++ bs) _ []); [assumption|].
      cbn [app]. rewrite (without_perm bs i b Ei) at 1. symmetry. apply Permutation_middle.
    + split; [reflexivity|]. exists b'. now split.
    + intros _. now repeat split.
    + intros x Hx _. split; [now apply in_insert_at|]. now apply seen_grown, Low.
  - (* DOpen *)
    pose proof (ropen_sim al f ws rs p h S) as X. destruct (rspec_open al f rs p h) as [[[r rs'] h1]|] eqn:Eo; [|now destruct X].
    destruct X as (ws' & h' & E & G & S'). rewrite E. cbn [bind d_ws d_world wo_buffers wo_cursors wo_guards wo_heap wo_disk].
    rewrite (lineup_sim _ _ S'), (rindex_sim _ _ S').
    assert (Y : grown h h1 /\ winv code (World (rs_buffers rs' ++ bs) ks gs h1 f) /\
      match r with
      | RErr _ => rs_buffers rs' = rs_buffers rs /\ rs_selected rs' = rs_selected rs
      | ROk _ => exists cp, fs_canon f p = Some cp /\
          ((exists i b, nth_error (rs_buffers rs) i = Some b /\ rb_path b = Some cp /\ rs_buffers rs' = rs_buffers rs /\ rs_selected rs' = Some i) \/
           ((forall b, In b (rs_buffers rs) -> rb_path b <> Some cp) /\ exists b, length h <= rb_data b /\ rb_path b = Some cp /\ rc_data (rb_cursor b) = rb_data b /\ rb_callback b = None /\
              rs_buffers rs' = insert_at (rs_buffers rs) (match rs_selected rs with Some i => Datatypes.S i | None => 0 end) b /\
              rs_selected rs' = Some (match rs_selected rs with Some i => Datatypes.S i | None => 0 end)))
      end).
    { assert (Ld : rload al f rs p h = Ok (r, rs', h1) -> grown h h1 /\ winv code (World (rs_buffers rs' ++ bs) ks gs h1 f) /\
        match r with
        | RErr _ => rs_buffers rs' = rs_buffers rs /\ rs_selected rs' = rs_selected rs
        | ROk _ => exists cp, fs_canon f p = Some cp /\ exists b, length h <= rb_data b /\ rb_path b = Some cp /\ rc_data (rb_cursor b) = rb_data b /\ rb_callback b = None /\
              rs_buffers rs' = insert_at (rs_buffers rs) (match rs_selected rs with Some i => Datatypes.S i | None => 0 end) b /\
              rs_selected rs' = Some (match rs_selected rs with Some i => Datatypes.S i | None => 0 end)
        end).
      { unfold rload. destruct (opened_buffer h al f p) as (r0 & h0 & Er & X). rewrite Er. cbn [bind]. intros El.
        destruct X as [(-> & e & -> & _)|(g & -> & Wg & X)].
        - injection El as <- <- <-. split; [apply grown_refl|]. now split.
        - destruct r0 as [b|e]; injection El as <- <- <-; (split; [now apply grown_one|]).
          + destruct X as (H1 & H2 & H3 & H4 & _). split.
            * apply winv_rput. pose proof (winv_add code (World (rs_buffers rs ++ bs) ks gs h f) b g I Wg H1 H2 H3 H4) as J. cbn in J.
              apply (winv_part _ _ [] _ _ _ _ J). cbn [app]. symmetry. apply Permutation_cons_append.
            * assert (Ec : exists cp, fs_canon f p = Some cp /\ rb_path b = Some cp).
              { clear - Er. unfold rfrom_file in Er. destruct (read_to_string f p) as [t|]; [|discriminate]. unfold mbind, lift, ret, new_cell in Er.
                destruct (gb_new al t); [|discriminate]. cbn in Er. destruct (fs_canon f p) as [cp|]; [|discriminate]. injection Er as <- _. eauto. }
              destruct Ec as (cp & Ec & Ep). exists cp. split; [assumption|]. destruct (rput_entered rs b) as (b' & (i & y & ->) & ->).
              eexists. split; [|split; [|split; [|split; [|split; reflexivity]]]]; cbn; [lia|assumption|exact H2|assumption].
          + split; [now apply (winv_grow code (World (rs_buffers rs ++ bs) ks gs h f))|now split]. }
      unfold rspec_open in Eo. destruct (fs_canon f p) as [cp|] eqn:Ec.
      2:{ destruct (Ld Eo) as (L1 & L2 & L3). split; [assumption|]. split; [assumption|]. destruct r; [|assumption].
          destruct L3 as (cp & [=] & _). }
      assert (Sel : forall i b, nth_error (rs_buffers rs) i = Some b -> rhas_path cp b = true ->
        grown h h /\ winv code (World (rs_buffers rs ++ bs) ks gs h f) /\ exists cp0, Some cp = Some cp0 /\
          ((exists i b, nth_error (rs_buffers rs) i = Some b /\ rb_path b = Some cp0 /\ rs_buffers rs = rs_buffers rs /\ Some i = Some i) \/ False)).
      { intros i b Ei Hp. split; [apply grown_refl|]. split; [assumption|]. exists cp. split; [reflexivity|]. left. exists i, b.
        repeat split; [assumption|now apply rhas_path_is]. }
      destruct (match rselected rs with Some b => rhas_path cp b | None => false end) eqn:Eh.
      - injection Eo as <- <- <-. split; [apply grown_refl|]. split; [assumption|]. exists cp. split; [reflexivity|]. left.
        destruct (rselected rs) as [b|] eqn:Es; [|discriminate]. destruct (rselected_at rs b Es) as (i & E1 & E2 & _).
        exists i, b. repeat split; try assumption. now apply rhas_path_is.
      - destruct (rfirst_with cp (rs_buffers rs)) as [i|] eqn:Ei.
        + injection Eo as <- <- <-. split; [apply grown_refl|]. split; [assumption|]. exists cp. split; [reflexivity|]. left.
          destruct (rfirst_bound _ _ _ Ei) as (b & E1 & E2). exists i, b. repeat split; try assumption. now apply rhas_path_is.
        + destruct (Ld Eo) as (L1 & L2 & L3). split; [assumption|]. split; [assumption|]. destruct r; [|assumption].
          destruct L3 as (cp0 & E0 & L3). exists cp0. split; [assumption|]. right. split; [|assumption]. injection E0 as <-.
          intros x Hx Ex. exact (rfirst_none cp _ Ei x Hx Ex). }
    destruct Y as (Y1 & Y2 & Y3). pose proof (grown_trans _ _ _ Y1 G) as G2. split; [|split; [|split]].
    + exists rs'. split; [assumption|]. now apply (winv_grown _ _ _ h1 f).
    + destruct r; exact Y3.
    + intros _. now repeat split.
    + intros x Hx _. split; [|now apply seen_grown, Low]. destruct r.
      * destruct Y3 as (cp & _ & [(i & b & _ & _ & -> & _)|(_ & b & _ & _ & _ & _ & -> & _)]); [assumption|now apply in_insert_at].
      * destruct Y3 as [-> _]. assumption.
  - (* DClose *)
    destruct (rclose_sim al ws rs h S) as (ws' & h' & E & G & S'). rewrite E. cbn [bind d_ws d_world wo_buffers wo_cursors wo_guards wo_heap wo_disk].
    rewrite (lineup_sim _ _ S'), (rindex_sim _ _ S'). split; [|split; [|split]].
    + exists (rspec_close rs). split; [assumption|]. unfold whole, behind. cbn [wo_buffers wo_cursors wo_guards wo_heap wo_disk d_world].
      apply (winv_grown _ _ _ h f); [|assumption]. unfold rspec_close. destruct (rs_selected rs) as [i|] eqn:Ei; [|assumption]. cbn [rs_buffers].
      destruct (rselected_some ws rs i S Ei) as (b & Eb). destruct (rselected_at rs b Eb) as (i' & E1 & E2 & _). rewrite Ei in E1. injection E1 as <-.
      apply (winv_part _ _ [b] _ _ _ _ I). cbn [app]. change (b :: without (rs_buffers rs) i ++ bs) with ((b :: without (rs_buffers rs) i) ++ bs).
      apply Permutation_app_tail. now apply without_perm.
    + unfold rspec_close. destruct (rs_selected rs) as [i|] eqn:Ei; [|now split]. cbn [rs_buffers rs_selected]. split; [reflexivity|].
      destruct (rselected_some ws rs i S Ei) as (b & Eb). destruct (rselected_at rs b Eb) as (i' & E1 & E2 & _). rewrite Ei in E1. injection E1 as <-.
      pose proof (Permutation_length (without_perm _ _ _ E2)) as Hl. cbn in Hl. destruct (without (rs_buffers rs) i) as [|y l]; rewrite Hl; reflexivity.
    + intros _. now repeat split.
    + intros x Hx Hn. split; [|now apply seen_grown, Low]. unfold rspec_close. destruct (rs_selected rs) as [i|] eqn:Ei; [|assumption]. cbn [rs_buffers].
      destruct (rselected_some ws rs i S Ei) as (b & Eb). destruct (rselected_at rs b Eb) as (i' & E1 & E2 & _). rewrite Ei in E1. injection E1 as <-.
      apply (in_without _ _ b); [assumption..|]. intros ->. now apply Hn.
  - (* DNext *)
    destruct (rnext_sim al ws rs h S) as (ws' & h' & E & G & S'). rewrite E. cbn [bind d_ws d_world wo_buffers wo_cursors wo_guards wo_heap wo_disk].
    rewrite (lineup_sim _ _ S'), (rindex_sim _ _ S'). assert (B : rs_buffers (rturn rs 1) = rs_buffers rs) by (unfold rturn; now destruct (rs_selected rs)).
    rewrite B. split; [|split; [|split]].
    + exists (rturn rs 1). split; [assumption|]. unfold whole, behind. cbn [wo_buffers wo_cursors wo_guards wo_heap wo_disk d_world]. rewrite B. now apply (winv_grown _ _ _ h f).
    + split; [reflexivity|]. unfold rturn. destruct (rs_selected rs) as [i|] eqn:Ei; [reflexivity|]. now rewrite Ei.
    + intros _. now repeat split.
    + intros x Hx _. split; [assumption|]. now apply seen_grown, Low.
  - (* DPrevious *)
    destruct (rprevious_sim al ws rs h S) as (ws' & h' & E & G & S'). rewrite E. cbn [bind d_ws d_world wo_buffers wo_cursors wo_guards wo_heap wo_disk].
    rewrite (lineup_sim _ _ S'), (rindex_sim _ _ S'). assert (B : forall k, rs_buffers (rturn rs k) = rs_buffers rs) by (intros; unfold rturn; now destruct (rs_selected rs)).
    rewrite B. split; [|split; [|split]].
    + eexists. split; [exact S'|]. unfold whole, behind. cbn [wo_buffers wo_cursors wo_guards wo_heap wo_disk d_world]. rewrite B. now apply (winv_grown _ _ _ h f).
    + split; [reflexivity|]. unfold rturn. destruct (rs_selected rs) as [i|] eqn:Ei; [reflexivity|]. now rewrite Ei.
    + intros _. now repeat split.
    + intros x Hx _. split; [assumption|]. now apply seen_grown, Low.
  - (* DSyntax *)
    destruct (rselected rs) as [b|] eqn:Eb.
    + destruct (rupdate_sim ws rs S) as (b0 & ws' & E0 & E & S'); [congruence|]. rewrite Eb in E0. injection E0 as <-. rewrite E.
      cbn [d_ws d_world wo_buffers wo_cursors wo_guards wo_heap wo_disk]. rewrite (lineup_sim _ _ S'), (rindex_sim _ _ S').
      destruct (rselected_at rs b Eb) as (i & E1 & E2 & E3). unfold rreplace_selected in *. rewrite E1 in *. cbn [rs_buffers rs_selected]. split; [|split; [|split]].
      * eexists. split; [exact S'|]. unfold whole, behind. cbn [wo_buffers wo_cursors wo_guards wo_heap wo_disk d_world rs_buffers].
        apply (winv_same _ _ _ _ _ _ I). apply Forall2_app; [|apply entered_all]. destruct (split_at _ _ _ E2) as (a & z & Ea & Hl). rewrite Ea. rewrite <- Hl. unfold put_at.
        rewrite firstn_pre, skipn_S_pre. apply Forall2_app; [apply entered_all|]. constructor; [|apply entered_all].
        exists (rb_id b). eexists. destruct b. reflexivity.
      * eexists. split; [|now split]. eexists. reflexivity.
      * intros _. split; [apply grown_refl|now repeat split].
      * intros x Hx Hn. split; [|reflexivity]. apply (in_put_at _ _ b); try assumption. congruence.
    + unfold rupdate_syntax. rewrite HC. cbn [d_ws d_world wo_buffers wo_cursors wo_guards wo_heap wo_disk]. rewrite HL, HI. split; [exists rs; now split|].
      split; [destruct (rs_selected rs); now split|]. split; [|now split]. intros _. split; [apply grown_refl|now repeat split].
  - (* DTokens *)
    unfold rcurrent_tokens. rewrite HC. destruct (rselected rs) as [b|] eqn:Eb.
    2:{ cbn. rewrite HL, HI. split; [exists rs; now split|]. now repeat split. }
    destruct (rselected_at rs b Eb) as (i & E1 & E2 & E3).
    assert (B : based code h b). { destruct I as [_ _ I3 _ _]. cbn in I3. rewrite Forall_forall in I3. apply (I3 b). apply in_or_app. left. eapply nth_error_In; eassumption. }
    pose proof (rdata_keeps code (lease_of gs) b h (wi_kept _ _ I) B) as X. unfold mbind. destruct (rdata b h) as [[t h']|]; cbn [bind].
    + destruct X as [-> _]. assert (Y : exists r, match rb_syntax b with Some s => ret (ROk (TS t s)) | None => ret (RErr MissingSyntax) end h = Ok (r, h)).
      { destruct (rb_syntax b); eexists; reflexivity. }
      destruct Y as (r & ->). cbn. rewrite HL, HI. split; [exists rs; now split|]. now repeat split.
    + intros Hf. unfold lease_ok in Hf. cbn in Hf. rewrite (Hf (rb_data b)) in X; [discriminate|eauto].
  - (* DSetPath *)
    assert (S' : rsim (RWS p (rw_buffers ws) (rw_next_id ws) (rselected rs) (rw_index ws) (rw_syntaxes ws))
      (RShelf p (rs_buffers rs) (rs_selected rs) (rs_given rs) (rs_syntaxes rs))).
    { rewrite <- HC. clear - S. destruct S; cbn; now constructor. }
    cbn [d_ws d_world wo_buffers wo_cursors wo_guards wo_heap wo_disk]. rewrite (lineup_sim _ _ S'), (rindex_sim _ _ S'). cbn [rs_buffers rs_selected].
    split; [eexists; split; [exact S'|exact I]|]. split; [now split|]. split; [|now split]. intros _. split; [apply grown_refl|now repeat split].
  - (* DSetSyntaxes *)
    assert (S' : rsim (RWS (rw_path ws) (rw_buffers ws) (rw_next_id ws) (rselected rs) (rw_index ws) ss)
      (RShelf (rs_path rs) (rs_buffers rs) (rs_selected rs) (rs_given rs) ss)).
    { rewrite <- HC. clear - S. destruct S; cbn; now constructor. }
    cbn [d_ws d_world wo_buffers wo_cursors wo_guards wo_heap wo_disk]. rewrite (lineup_sim _ _ S'), (rindex_sim _ _ S'). cbn [rs_buffers rs_selected].
    split; [eexists; split; [exact S'|exact I]|]. split; [now split|]. split; [|now split]. intros _. split; [apply grown_refl|now repeat split].
  - (* DBuffer *)
    destruct (rselected rs) as [b|] eqn:Eb.
    2:{ cbn [d_ws d_world wo_buffers wo_cursors wo_guards wo_heap wo_disk]. rewrite HL, HI. split; [exists rs; now split|].
        split; [destruct (rs_selected rs) eqn:Ei; [destruct (rselected_some _ _ _ S Ei); congruence|now split]|]. split; [now intros []|now split]. }
    destruct (rselected_at rs b Eb) as (i & E1 & E2 & E3).
    pose proof (nexec_steps brk code Hos Hcode al (NBuffer i c) (World (rs_buffers rs ++ bs) ks gs h f) Ha Hc I) as X.
    unfold nexec in X. rewrite nth_error_app1, E2 in X by assumption.
    destruct (pbuffer brk (told brk code) al c b f h) as [[[[o b'] f'] h']|]; cbn [bind] in X |- *.
    + destruct X as [X1 X2]. rewrite put_before in X1, X2 by assumption.
      assert (S' := on_sim ws rs b' S ltac:(congruence)). cbn [d_ws d_world wo_buffers wo_cursors wo_guards wo_heap wo_disk].
      rewrite (lineup_sim _ _ S'), (rindex_sim _ _ S'). unfold rreplace_selected in *. rewrite E1 in *. cbn [rs_buffers rs_selected] in *.
      split; [|split; [|split; [now intros []|]]].
      * eexists. split; [exact S'|]. exact X1.
      * split; [now exists b'|reflexivity].
      * intros x Hx Hn. assert (Nx : x <> b) by (intros ->; apply Hn; now left). split; [now apply (in_put_at _ _ b)|].
        apply In_nth_error in Hx as (j & Ej). assert (Hj : j < length (rs_buffers rs)) by (apply nth_error_Some; congruence).
        assert (Nj : j <> i) by congruence.
        specialize (X2 j). unfold view in X2. cbn [wo_buffers wo_heap] in X2. rewrite nth_error_app1 in X2 by (rewrite length_put_at by assumption; assumption).
        rewrite nth_put_at in X2 by assumption. rewrite nth_error_app1, Ej in X2 by assumption. destruct (Nat.eqb_spec j i); [contradiction|].
        apply X2; [rewrite app_length; lia|]. cbn [concerns]. intros [->|(b0 & m0 & b1 & H1 & H2 & H3 & H4)]; [contradiction|].
        cbn [wo_buffers] in *. rewrite nth_error_app1 in H1, H3 by assumption. rewrite E2 in H1. rewrite Ej in H3. injection H1 as <-. injection H3 as <-.
        apply Hn. right. eauto.
    + intros Hf. apply X. intros r Hr. cbn [needs] in Hr. destruct Hr as (b0 & H1 & H2). cbn [wo_buffers] in H1.
      rewrite nth_error_app1, E2 in H1 by assumption. injection H1 as <-. unfold lease_ok in *. cbn in *. apply Hf. eauto.
  - (* DCallback *)
    destruct (rselected rs) as [b|] eqn:Eb.
    2:{ cbn [d_ws d_world wo_buffers wo_cursors wo_guards wo_heap wo_disk]. rewrite HL, HI. split; [exists rs; now split|].
        split; [destruct (rs_selected rs) eqn:Ei; [destruct (rselected_some _ _ _ S Ei); congruence|now split]|]. split; [now intros []|now split]. }
    destruct (rselected_at rs b Eb) as (i & E1 & E2 & E3).
    pose proof (nexec_steps brk code Hos Hcode al (NCallback i n) (World (rs_buffers rs ++ bs) ks gs h f) Ha Hc I) as X.
    unfold nexec in X. rewrite nth_error_app1, E2 in X by assumption. destruct X as [X1 _]. rewrite put_before in X1 by assumption.
    assert (S' := on_sim ws rs (rset_callback b (Some n)) S ltac:(congruence)). cbn [d_ws d_world wo_buffers wo_cursors wo_guards wo_heap wo_disk].
    rewrite (lineup_sim _ _ S'), (rindex_sim _ _ S'). unfold rreplace_selected in *. rewrite E1 in *. cbn [rs_buffers rs_selected] in *.
    split; [|split; [|split; [now intros []|]]].
    + eexists. split; [exact S'|]. exact X1.
    + split; [eexists; reflexivity|reflexivity].
    + intros x Hx Hn. split; [|reflexivity]. apply (in_put_at _ _ b); try assumption. congruence.
  - (* DClone *)
    destruct (rselected rs) as [b|] eqn:Eb.
    2:{ cbn [d_ws d_world wo_buffers wo_cursors wo_guards wo_heap wo_disk]. rewrite HL, HI. split; [exists rs; now split|]. now repeat split. }
    destruct (rselected_at rs b Eb) as (i & E1 & E2 & E3).
    pose proof (nexec_steps brk code Hos Hcode al (NClone i) (World (rs_buffers rs ++ bs) ks gs h f) Ha Hc I) as X.
    unfold nexec in X. rewrite nth_error_app1, E2 in X by assumption. destruct X as [X1 _].
    cbn [d_ws d_world wo_buffers wo_cursors wo_guards wo_heap wo_disk]. rewrite HL, HI. split; [exists rs; now split|]. now repeat split.
  - (* DAssign *)
    destruct (rselected rs) as [b|] eqn:Eb.
    2:{ cbn [d_ws d_world wo_buffers wo_cursors wo_guards wo_heap wo_disk]. rewrite HL, HI. split; [exists rs; now split|].
        split; [destruct (rs_selected rs) eqn:Ei; [destruct (rselected_some _ _ _ S Ei); congruence|now split]|]. split; [now intros []|now split]. }
    destruct (rselected_at rs b Eb) as (i & E1 & E2 & E3).
    destruct (nth_error ks k) as [x|] eqn:Ek.
    2:{ cbn [d_ws d_world wo_buffers wo_cursors wo_guards wo_heap wo_disk]. rewrite HL, HI. split; [exists rs; now split|]. rewrite E1.
        split; [split; [exists b; now rewrite put_at_same|reflexivity]|]. split; [now intros []|now split]. }
    pose proof (nexec_steps brk code Hos Hcode al (NAssign i k) (World (rs_buffers rs ++ bs) ks gs h f) Ha Hc I) as X.
    unfold nexec in X. rewrite nth_error_app1, E2, Ek in X by assumption. destruct X as [X1 _]. rewrite put_before in X1 by assumption.
    assert (S' := on_sim ws rs (rset_cursor b x) S ltac:(congruence)). cbn [d_ws d_world wo_buffers wo_cursors wo_guards wo_heap wo_disk].
    rewrite (lineup_sim _ _ S'), (rindex_sim _ _ S'). unfold rreplace_selected in *. rewrite E1 in *. cbn [rs_buffers rs_selected] in *.
    split; [|split; [|split; [now intros []|]]].
    + eexists. split; [exact S'|]. exact X1.
    + split; [eexists; reflexivity|reflexivity].
    + intros y Hy Hn. split; [|reflexivity]. apply (in_put_at _ _ b); try assumption. congruence.
  - (* DDrop *)
    cbn [d_ws d_world wo_buffers wo_cursors wo_guards wo_heap wo_disk]. rewrite HL, HI. split; [|split; [now split|split; [now intros []|now split]]].
    exists rs. split; [assumption|]. unfold whole, behind. cbn [wo_buffers wo_cursors wo_guards wo_heap wo_disk d_world].
    destruct (nth_error bs i) as [b|] eqn:Ei.
    + apply (winv_part _ _ [b] _ _ _ _ I). cbn [app]. rewrite (without_perm bs i b Ei) at 1. symmetry. apply Permutation_middle.
    + apply nth_error_None in Ei. unfold without. rewrite firstn_all2, skipn_all2, app_nil_r by lia. exact I.
  - (* DForget *)
    cbn [d_ws d_world wo_buffers wo_cursors wo_guards wo_heap wo_disk]. rewrite HL, HI. split; [|split; [now split|split; [now intros []|now split]]].
    exists rs. split; [assumption|]. unfold whole, behind. cbn [wo_buffers wo_cursors wo_guards wo_heap wo_disk d_world].
    destruct I as [I1 I2 I3 I4 I5]. split; try assumption. cbn in *. now apply forall_without.
Qed.
End Steps.
