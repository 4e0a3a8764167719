(** Property C100: which storages are held, and so what memory can be freed.
    Statements only; the programs are in Desk.v and what is said about them in
    HoldersSpec.v. *)
From Coq Require Import String.
From Verif Require Import Base Utf8 Grapheme GraphemeProofs UnicodeTable Position GapBuffer
  Cursor PathModel Buffer ClusterSpec Spec CursorSpec Calls CursorCalls HalvesProofs BufferCalls Witness Token Workspace WorkspaceSpec
  WorkspaceWitness Shared SharedSpec World WorldSpec WorldWitness Desk DeskSpec DeskWitness HoldersSpec HoldersProofs.

(** A call comes to hold only storages that were held before, or new ones. *)
Theorem C100_no_new_holders : forall cls code s al c o s' r, cls LF = GC_LF -> closures_ok code ->
  desk_reached (uax29 cls) code s -> alloc_ok al -> dcall_ok code s c -> hands_over code s c ->
  dexec (uax29 cls) code al c s = Ok (o, s') -> holds code s' r -> holds code s r \/ length (d_heap s) <= r.
Proof. exact (fun cls code s al c o s' r H Hc => reached_holds (uax29 cls) code (uax29_order_safe cls H) Hc s al c o s' r). Qed.
Print Assumptions C100_no_new_holders.

(** No call borrows or writes a storage that nothing holds. *)
Theorem C100_untouched : forall cls code s al c o s' r, cls LF = GC_LF -> closures_ok code ->
  desk_reached (uax29 cls) code s -> alloc_ok al -> dcall_ok code s c ->
  dexec (uax29 cls) code al c s = Ok (o, s') -> r < length (d_heap s) -> ~ holds code s r ->
  nth_error (d_heap s') r = nth_error (d_heap s) r.
Proof. exact (fun cls code s al c o s' r H Hc => reached_untouched (uax29 cls) code (uax29_order_safe cls H) Hc s al c o s' r). Qed.
Print Assumptions C100_untouched.

(** What nothing holds, nothing will hold again, whatever the program does. *)
Theorem C100_gone_for_good : forall cls code s s' r, cls LF = GC_LF -> closures_ok code ->
  desk_reached (uax29 cls) code s -> later (uax29 cls) code s s' -> r < length (d_heap s) -> ~ holds code s r ->
  ~ holds code s' r /\ nth_error (d_heap s') r = nth_error (d_heap s) r.
Proof. exact (fun cls code s s' r H Hc => gone_for_good (uax29 cls) code (uax29_order_safe cls H) Hc s s' r). Qed.
Print Assumptions C100_gone_for_good.

(** Closing the current buffer lets go of all it held: what is still held is what
    the other buffers, the cursors and the kept borrows of the program hold. *)
Theorem C100_closing : forall cls code s al o s' i r, cls LF = GC_LF -> closures_ok code ->
  desk_reached (uax29 cls) code s -> alloc_ok al -> d_index s = Some i ->
  dexec (uax29 cls) code al DClose s = Ok (o, s') -> r < length (d_heap s) ->
  (holds code s' r <->
   (exists b, (In b (without (d_lineup s) i) \/ In b (wo_buffers (d_world s))) /\ buffer_holds code b r) \/
   (exists k, In k (wo_cursors (d_world s)) /\ rc_data k = r) \/
   guarded (d_world s) r).
Proof. exact (fun cls code s al o s' i r H Hc => closing (uax29 cls) code (uax29_order_safe cls H) Hc s al o s' i r). Qed.
Print Assumptions C100_closing.

(** A cursor keeps the text of a closed buffer; without it the text is gone for
    good, though the file is opened again. *)
Definition keeping : list dcall := [DOpen a_rs; DBuffer (BInsert (txt "x")); DClone; DCallback 0; DClose].
Definition letting_go : list dcall := keeping ++ [DForget 0].
Definition texts_of (s : desk) (r : ref) : option text :=
  match nth_error (d_heap s) r with
  | Some x => match gb_to_string (c_gap x) with Ok t => Some t | Panic => None end
  | None => None
  end.
Lemma letting_go_uses n r : closure_uses lookers n r -> r < S n.
Proof. intros U. apply lookers_uses in U. lia. Qed.
Example C100_closing_example : exists os1 s1 os2 s2 o s3,
  run_desk lookers keeping = Ok (os1, s1) /\ desk_reached uax29_15 lookers s1 /\ holds lookers s1 0 /\ texts_of s1 0 = Some (txt "xfn") /\
  run_desk lookers letting_go = Ok (os2, s2) /\ desk_reached uax29_15 lookers s2 /\ ~ holds lookers s2 0 /\ 0 < List.length (d_heap s2) /\
  dexec uax29_15 lookers tight (DOpen a_rs) s2 = Ok (o, s3) /\ later uax29_15 lookers s2 s3 /\ texts s3 = [Some (txt "fn")] /\
  ~ holds lookers s3 0 /\ texts_of s3 0 = Some (txt "xfn").
Proof.
  destruct (run_desk lookers keeping) as [[os1 s1]|] eqn:E1; [|vm_compute in E1; discriminate].
  destruct (run_desk lookers letting_go) as [[os2 s2]|] eqn:E2; [|vm_compute in E2; discriminate].
  assert (R1 : desk_reached uax29_15 lookers s1) by (eapply (reaches_desk lookers S); [exact letting_go_uses|exact E1|vm_compute; reflexivity]).
  assert (R2 : desk_reached uax29_15 lookers s2) by (eapply (reaches_desk lookers S); [exact letting_go_uses|exact E2|vm_compute; reflexivity]).
  destruct (dexec uax29_15 lookers tight (DOpen a_rs) s2) as [[o s3]|] eqn:E3; [|exfalso; vm_compute in E2; injection E2 as <- <-; vm_compute in E3; discriminate].
  assert (L : later uax29_15 lookers s2 s3) by (eapply (later_call _ _ _ _ tight (DOpen a_rs)); [apply later_now|exact tight_ok|exact I|exact I|exact E3]).
  assert (N : ~ holds lookers s2 0 /\ 0 < List.length (d_heap s2)).
  { vm_compute in E2. injection E2 as <- <-. split; [|vm_compute; lia].
    intros [(b & [[[]|Hb]|[]] & _)|[(k & [] & _)|(m & [])]]. discriminate Hb. }
  destruct N as [N1 N2]. pose proof (C100_gone_for_good gcb15 lookers s2 s3 0 eq_refl lookers_ok R2 L N2 N1) as [N3 N4].
  exists os1, s1, os2, s2, o, s3. split; [reflexivity|]. split; [exact R1|].
  split; [vm_compute in E1; injection E1 as <- <-; right; left; eexists; split; [now left|reflexivity]|].
  split; [vm_compute in E1; injection E1 as <- <-; reflexivity|]. split; [reflexivity|]. split; [exact R2|]. split; [exact N1|]. split; [exact N2|].
  split; [exact E3|]. split; [exact L|]. split; [|split; [exact N3|]].
  - vm_compute in E2. injection E2 as <- <-. vm_compute in E3. injection E3 as <- <-. reflexivity.
  - unfold texts_of. rewrite N4. vm_compute in E2. injection E2 as <- <-. reflexivity.
Qed.

(** A program that makes no handles of its own: only the buffers that are open, its
    own, and the one in the slot of the current buffer hold storages. *)
Theorem C100_only_buffers : forall cls code f p ss ws cs os s r, cls LF = GC_LF -> closures_ok code ->
  rws_new f p (Some ss) = ROk ws -> desk_session (uax29 cls) code modest f ws cs os s ->
  (holds code s r <-> exists b, (In b (d_lineup s) \/ placeholder s b \/ In b (wo_buffers (d_world s))) /\ rb_data b = r).
Proof. exact (fun cls code f p ss ws cs os s r H Hc => session_holds (uax29 cls) code (uax29_order_safe cls H) Hc f p ss ws cs os s r). Qed.
Print Assumptions C100_only_buffers.

(** So there is one text in memory for each of its buffers, and one more while a
    buffer is current, however many were opened, closed, selected and reloaded. *)
Theorem C100_how_many : forall cls code f p ss ws cs os s, cls LF = GC_LF -> closures_ok code ->
  rws_new f p (Some ss) = ROk ws -> desk_session (uax29 cls) code modest f ws cs os s ->
  exists rs, NoDup rs /\ (forall r, In r rs <-> holds code s r) /\
    length rs = length (d_lineup s) + length (wo_buffers (d_world s)) + match d_index s with Some _ => 1 | None => 0 end.
Proof. exact (fun cls code f p ss ws cs os s H Hc => session_count (uax29 cls) code (uax29_order_safe cls H) Hc f p ss ws cs os s). Qed.
Print Assumptions C100_how_many.

(** The text of a buffer that is closed, dropped, replaced or reloaded is freed: what was the
    storage of a buffer before a call, and of none after it, nothing holds. *)
Theorem C100_freed : forall cls code f p ss ws cs os s al c o s' b, cls LF = GC_LF -> closures_ok code ->
  rws_new f p (Some ss) = ROk ws -> desk_session (uax29 cls) code modest f ws cs os s ->
  alloc_ok al -> dcall_ok code s c -> modest c -> dexec (uax29 cls) code al c s = Ok (o, s') ->
  In b (d_lineup s ++ wo_buffers (d_world s)) ->
  ~ In (rb_data b) (map rb_data (d_lineup s' ++ wo_buffers (d_world s'))) -> ~ holds code s' (rb_data b).
Proof. exact (fun cls code f p ss ws cs os s al c o s' b H Hc => session_freed (uax29 cls) code (uax29_order_safe cls H) Hc f p ss ws cs os s al c o s' b). Qed.
Print Assumptions C100_freed.

(** The buffer in the slot of the current one holds its own storage only, and shares
    it with no other buffer, in any program. *)
Theorem C100_slot : forall cls code s b, cls LF = GC_LF -> closures_ok code -> desk_reached (uax29 cls) code s -> placeholder s b ->
  (forall r, buffer_holds code b r <-> rb_data b = r) /\
  (forall x, In x (d_lineup s ++ wo_buffers (d_world s)) -> rb_data b <> rb_data x).
Proof. exact (fun cls code s b H Hc => slot_whole (uax29 cls) code (uax29_order_safe cls H) Hc s b). Qed.
Print Assumptions C100_slot.

(** Ten storages have been made and three are held; replacing the text of or closing the
    current buffer frees its storage. *)
Definition tidy : list dcall :=
  [DOpen a_rs; DBuffer (BInsert (txt "x")); DWorld NNew; DAdd 0; DNext; DBuffer BReload; DPrevious; DWorld NNew; DDrop 0; DClose; DOpen a_rs; DWorld NNew].
Definition storages (s : desk) : list ref * list ref * list ref :=
  (map rb_data (d_lineup s), map rb_data (rw_buffers (d_ws s)), map rb_data (wo_buffers (d_world s))).
Definition storages_after (x : res (list dout * desk)) (c : dcall) : option (list ref * list ref * list ref * nat) :=
  match x with
  | Ok (_, s) => match dexec uax29_15 lookers tight c s with Ok (_, s') => Some (storages s', List.length (d_heap s')) | Panic => None end
  | Panic => None
  end.
Lemma tidy_session os s : run_desk lookers tidy = Ok (os, s) ->
  desk_session uax29_15 lookers modest disk bench (map (pair tight) tidy) os s.
Proof. intros E. eapply (runs_desk lookers S); [exact letting_go_uses|exact E|vm_compute; reflexivity|]. repeat constructor. Qed.
Definition ends (x : res (list dout * desk)) : option (list ref * list ref * list ref * nat * option nat) :=
  match x with Ok (_, s) => Some (storages s, List.length (d_heap s), d_index s) | Panic => None end.
Lemma tidy_ends : ends (run_desk lookers tidy) = Some ([5], [8], [9], 10, Some 0).
Proof. vm_compute. reflexivity. Qed.
Lemma tidy_frees os s c l t u n : run_desk lookers tidy = Ok (os, s) -> modest c -> dcall_ok lookers s c ->
  storages_after (run_desk lookers tidy) c = Some (l, t, u, n) -> storages s = ([5], [8], [9]) -> ~ In 5 (l ++ u) ->
  exists o s', dexec uax29_15 lookers tight c s = Ok (o, s') /\ ~ holds lookers s' 5.
Proof.
  intros E Hm Hok Hs V Hn. pose proof (tidy_session os s E) as S. rewrite E in Hs. clear E. cbn [storages_after] in Hs.
  destruct (dexec uax29_15 lookers tight c s) as [[o s']|] eqn:Ec; [|discriminate Hs]. injection Hs as H1 H2 H3 H4. exists o, s'. split; [reflexivity|].
  unfold storages in V. injection V as V1 V2 V3. destruct (d_lineup s) as [|b [|]] eqn:El; try discriminate V1. injection V1 as V1. rewrite <- V1.
  apply (C100_freed gcb15 lookers disk dir syntaxes bench _ os s tight c o s' b eq_refl lookers_ok bench_new S tight_ok Hok Hm Ec).
  - rewrite El. left. reflexivity.
  - rewrite map_app, H1, H3, V1. exact Hn.
Qed.
Lemma tidy_holds os s r : desk_session uax29_15 lookers modest disk bench (map (pair tight) tidy) os s ->
  storages s = ([5], [8], [9]) -> d_index s = Some 0 -> (holds lookers s r <-> In r [5; 8; 9]).
Proof.
  intros S V VI. rewrite (C100_only_buffers gcb15 lookers disk dir syntaxes bench _ os s r eq_refl lookers_ok bench_new S). clear S.
  unfold storages in V. injection V as V1 V2 V3. unfold placeholder. rewrite VI. split.
  - intros (b & [Hb|[(i & [= <-] & Hb)|Hb]] & <-).
    + apply (in_map rb_data) in Hb. rewrite V1 in Hb. destruct Hb as [<-|[]]. now left.
    + apply (map_nth_error rb_data) in Hb. rewrite V2 in Hb. injection Hb as <-. right. now left.
    + apply (in_map rb_data) in Hb. rewrite V3 in Hb. destruct Hb as [<-|[]]. right. right. now left.
  - intros Hr. destruct Hr as [<-|[<-|[<-|[]]]].
    + destruct (d_lineup s) as [|b [|]]; try discriminate V1. injection V1 as V1. exists b. split; [left; now left|assumption].
    + destruct (rw_buffers (d_ws s)) as [|b [|]]; try discriminate V2. injection V2 as V2. exists b. split; [|assumption]. right. left. exists 0. split; reflexivity.
    + destruct (wo_buffers (d_world s)) as [|b [|]]; try discriminate V3. injection V3 as V3. exists b. split; [|assumption]. right. right. now left.
Qed.
Example C100_how_many_example : exists os s, run_desk lookers tidy = Ok (os, s) /\
  desk_session uax29_15 lookers modest disk bench (map (pair tight) tidy) os s /\
  List.length (d_heap s) = 10 /\ storages s = ([5], [8], [9]) /\ (forall r, holds lookers s r <-> In r [5; 8; 9]) /\
  (exists o s', dexec uax29_15 lookers tight DClose s = Ok (o, s') /\ ~ holds lookers s' 5) /\
  (exists o s', dexec uax29_15 lookers tight (DBuffer (BReplace (txt "new"))) s = Ok (o, s') /\ ~ holds lookers s' 5).
Proof.
  pose proof tidy_ends as X. destruct (run_desk lookers tidy) as [[os s]|] eqn:E; [|discriminate X]. cbn [ends] in X.
  injection X as X1 X2 X3 X4 X5. assert (V : storages s = ([5], [8], [9])) by (unfold storages; rewrite X1, X2, X3; reflexivity).
  pose proof (tidy_session os s E) as S. exists os, s. split; [reflexivity|]. split; [exact S|]. split; [exact X4|]. split; [exact V|].
  split; [intros r; exact (tidy_holds os s r S V X5)|]. split.
  - apply (tidy_frees os s DClose [] [] [9] 10 E I I); [vm_compute; reflexivity|exact V|]. intros [H|[]]. discriminate H.
  - apply (tidy_frees os s (DBuffer (BReplace (txt "new"))) [10] [8] [9] 11 E I); [repeat constructor|vm_compute; reflexivity|exact V|].
    intros [H|[H|[]]]; discriminate H.
Qed.

(** What is in memory is what the program can get at, and the storage in the slot;
    nothing the program can get at has a handle on that one. *)
Theorem C100_out_of_reach : forall cls code s, cls LF = GC_LF -> closures_ok code -> honest (uax29 cls) code s ->
  (forall r, holds code s r <-> in_reach code s r \/ exists b, placeholder s b /\ rb_data b = r) /\
  (forall b, placeholder s b -> ~ in_reach code s (rb_data b)).
Proof. exact (fun cls code s H Hc Hs => reach_whole (uax29 cls) code (uax29_order_safe cls H) Hc s Hs). Qed.
Print Assumptions C100_out_of_reach.

(** After [tidy] the program clones the cursor of the current buffer and gives its
    callback a handle on the buffer of its own. *)
Definition given (x : res (list dout * desk)) : option (list ref * list ref * list ref * list ref) :=
  match x with
  | Ok (_, s) => match dexec uax29_15 lookers tight DClone s with
    | Ok (_, s1) => match dexec uax29_15 lookers tight (DCallback 9) s1 with
      | Ok (_, s2) => Some (storages s2, map rc_data (wo_cursors (d_world s2)))
      | Panic => None end
    | Panic => None end
  | Panic => None
  end.
Lemma tidy_given : given (run_desk lookers tidy) = Some ([5], [8], [9], [5]).
Proof. vm_compute. reflexivity. Qed.
Lemma own_held s i r : nth_error (map rb_data (wo_buffers (d_world s))) i = Some r -> in_reach lookers s r.
Proof.
  intros H. left. apply nth_error_In in H. apply in_map_iff in H as (b & <- & Hb). exists b. split; [apply in_or_app; now right|now left].
Qed.
Example C100_out_of_reach_example : exists os s o1 s1 o2 s2 b, run_desk lookers tidy = Ok (os, s) /\
  dexec uax29_15 lookers tight DClone s = Ok (o1, s1) /\ dexec uax29_15 lookers tight (DCallback 9) s1 = Ok (o2, s2) /\
  honest uax29_15 lookers s2 /\ storages s2 = ([5], [8], [9]) /\ placeholder s2 b /\ rb_data b = 8 /\
  in_reach lookers s2 9 /\ holds lookers s2 8 /\ ~ in_reach lookers s2 8.
Proof.
  pose proof tidy_ends as X. pose proof tidy_given as Y. destruct (run_desk lookers tidy) as [[os s]|] eqn:E; [|discriminate X]. cbn [ends] in X.
  injection X as X1 X2 X3 X4 X5. pose proof (tidy_session os s E) as S. clear E. cbn [given] in Y.
  destruct (dexec uax29_15 lookers tight DClone s) as [[o1 s1]|] eqn:E1; [|discriminate Y].
  destruct (dexec uax29_15 lookers tight (DCallback 9) s1) as [[o2 s2]|] eqn:E2; [|discriminate Y].
  injection Y as Y1 Y2 Y3 Y4.
  assert (F : d_heap s1 = d_heap s /\ wo_buffers (d_world s1) = wo_buffers (d_world s) /\ d_index s1 = d_index s).
  { destruct s as [[bs ks gs h f] ws]. cbn [dexec] in E1. destruct (rw_current ws); injection E1 as <- <-; split; [reflexivity|split; reflexivity|reflexivity|split; reflexivity]. }
  assert (F' : d_index s2 = d_index s1).
  { clear E1 F Y1 Y2 Y3 Y4. destruct s1 as [[bs ks gs h f] ws]. cbn [dexec] in E2. destruct (rw_current ws); injection E2 as <- <-; reflexivity. }
  destruct F as (F1 & F2 & F3).
  assert (H0 : honest uax29_15 lookers s) by exact (modest_honest uax29_15 lookers disk dir syntaxes bench _ os s bench_new S).
  assert (H1 : honest uax29_15 lookers s1) by exact (honest_call _ _ s tight DClone o1 s1 H0 tight_ok I I E1).
  assert (H2 : honest uax29_15 lookers s2).
  { apply (honest_call _ _ s1 tight (DCallback 9) o2 s2 H1 tight_ok); [| |exact E2].
    - intros r U. apply lookers_uses in U. subst r. change (wo_heap (d_world s1)) with (d_heap s1). rewrite F1, X4. lia.
    - intros r U. apply lookers_uses in U. subst r. apply (own_held s1 0). rewrite F2, X3. reflexivity. }
  assert (V : storages s2 = ([5], [8], [9])) by (unfold storages; rewrite Y1, Y2, Y3; reflexivity).
  assert (P : exists b, placeholder s2 b /\ rb_data b = 8).
  { destruct (rw_buffers (d_ws s2)) as [|b l] eqn:El; [discriminate Y2|]. injection Y2 as Y2 _. exists b. split; [|exact Y2].
    exists 0. rewrite F', F3, X5, El. split; reflexivity. }
  destruct P as (b & P & Pb). destruct (C100_out_of_reach gcb15 lookers s2 eq_refl lookers_ok H2) as [T1 T2].
  exists os, s, o1, s1, o2, s2, b. split; [reflexivity|]. split; [exact E1|]. split; [exact E2|]. split; [exact H2|]. split; [exact V|]. split; [exact P|]. split; [exact Pb|].
  split; [apply (own_held s2 0); rewrite Y3; reflexivity|]. split; [apply T1; right; exists b; split; [exact P|exact Pb]|]. rewrite <- Pb. exact (T2 b P).
Qed.
