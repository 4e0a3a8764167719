(** Example data and the proof of its facts: sets of syntax definitions. *)
From Coq Require Import String.
From Verif Require Import Base Utf8 Grapheme UnicodeTable Position GapBuffer GapBufferProofs Cursor PathModel Buffer Spec Calls BufferCalls
  HalvesProofs Witness Token Workspace WorkspaceSpec WorkspaceProofs WorkspaceProps WorkspaceWitness Syntaxes SyntaxesSpec SyntaxesProofs.

Definition some_defaults : definitions := [Def 1 (txt "Plain Text") [txt "txt"]; Def 2 (txt "Rust") [txt "rs"]]%N.
Definition own_rust : definitions := [Def 6 (txt "Older Rust") [txt "rs"]; Def 7 (txt "My Rust") [txt "rust"; txt "rs"]]%N.
Definition calls_of (cs : list scall) : list (allocator * scall) := map (fun c => (tight, c)) cs.
Definition shop_play (cs : list scall) : res (list wout * shop * fsys) :=
  match shop_new text_eqb some_defaults (Some (Some own_rust)) disk dir with
  | inl s => shop_run text_eqb uax29_15 (calls_of cs) s disk
  | inr _ => Panic
  end.
Definition selected_syntax (s : shop) : option syntax := match w_current (shop_ws s) with Some b => b_syntax b | None => None end.
(** A set with one definition that is not plain text. *)
Definition only_rust : definitions := [Def 2 (txt "Rust") [txt "rs"]]%N.

Lemma some_plain : has_plain some_defaults.
Proof. exists (Def 1%N (txt "Plain Text") [txt "txt"]). split; [now left|reflexivity]. Qed.
Lemma only_rust_not_plain : ~ has_plain only_rust.
Proof. intros (d & [<-|[]] & P). discriminate. Qed.

Lemma play_reachable cs os s f : shop_play cs = Ok (os, s, f) ->
  Forall (fun c => plain_call c /\ wcall_ok uax29_15 (as_wcall text_eqb c)) cs -> reachable_shop text_eqb uax29_15 s f.
Proof.
  unfold shop_play. destruct (shop_new text_eqb some_defaults (Some (Some own_rust)) disk dir) as [s0|] eqn:E; [|discriminate]. intros R F.
  exists some_defaults, (Some (Some own_rust)), disk, dir, s0, (calls_of cs), os. split; [exact E|]. split; [|exact R].
  unfold calls_of. rewrite Forall_map. eapply Forall_impl; [|exact F]. intros c H. cbn. split; [apply tight_ok|exact H].
Qed.

Lemma pair4 {A B C D} (a a' : A) (b b' : B) (c c' : C) (d d' : D) : (a, b, c, d) = (a', b', c', d') -> a = a' /\ b = b' /\ c = c' /\ d = d'.
Proof. now intros [= -> -> -> ->]. Qed.

(** After opening a file without a definition, a set without plain text is assigned. *)
Lemma assigned_then_panics : exists os s f,
  shop_play [SCall (WOpen b_txt); SAssign only_rust] = Ok (os, s, f) /\
  reachable_shop text_eqb uax29_15 s f /\ shop_defs s = only_rust /\
  shop_exec text_eqb uax29_15 tight (SCall WSyntax) s f = Panic /\
  shop_exec text_eqb uax29_15 tight (SCall (WOpen other)) s f = Panic /\
  exists o s' f', shop_exec text_eqb uax29_15 tight (SCall (WOpen a_rs)) s f = Ok (o, s', f') /\ selected_syntax s' = Some 2%N.
Proof.
  destruct (shop_play [SCall (WOpen b_txt); SAssign only_rust]) as [[[os s] f]|] eqn:E; [|exfalso; vm_compute in E; discriminate].
  exists os, s, f. split; [reflexivity|]. split.
  { apply (play_reachable _ _ _ _ E). repeat constructor. }
  assert (X : match shop_play [SCall (WOpen b_txt); SAssign only_rust] with
    | Ok (_, s, f) => (shop_defs s,
        match shop_exec text_eqb uax29_15 tight (SCall WSyntax) s f with Ok _ => false | Panic => true end,
        match shop_exec text_eqb uax29_15 tight (SCall (WOpen other)) s f with Ok _ => false | Panic => true end,
        match shop_exec text_eqb uax29_15 tight (SCall (WOpen a_rs)) s f with Ok (_, s', _) => selected_syntax s' | Panic => None end)
    | Panic => ([], false, false, None) end = (only_rust, true, true, Some 2%N)) by (vm_compute; reflexivity).
  rewrite E in X. apply pair4 in X. destruct X as (X1 & X2 & X3 & X4). split; [exact X1|].
  destruct (shop_exec text_eqb uax29_15 tight (SCall WSyntax) s f); [discriminate X2|]. split; [reflexivity|].
  destruct (shop_exec text_eqb uax29_15 tight (SCall (WOpen other)) s f); [discriminate X3|]. split; [reflexivity|].
  destruct (shop_exec text_eqb uax29_15 tight (SCall (WOpen a_rs)) s f) as [[[o s'] f']|]; [|discriminate X4]. now exists o, s', f'.
Qed.

(** The user's definition for Rust files comes before the default one, and the last of the user's first. *)
Lemma own_rust_wins : exists os s f,
  shop_play [SCall (WOpen b_txt)] = Ok (os, s, f) /\ reachable_shop text_eqb uax29_15 s f /\ selected_syntax s = Some 1%N /\
  shop_defs s = some_defaults ++ own_rust /\
  exists o s' f' b, shop_exec text_eqb uax29_15 tight (SCall (WOpen a_rs)) s f = Ok (o, s', f') /\
    looks_up (WOpen a_rs) (shop_ws s) (shop_ws s') /\ w_current (shop_ws s') = Some b /\
    claimed text_eqb own_rust b /\ claimed text_eqb some_defaults b /\ b_syntax b = Some 7%N.
Proof.
  destruct (shop_play [SCall (WOpen b_txt)]) as [[[os s] f]|] eqn:E; [|exfalso; vm_compute in E; discriminate].
  exists os, s, f. split; [reflexivity|]. split.
  { apply (play_reachable _ _ _ _ E). repeat constructor. }
  assert (X : match shop_play [SCall (WOpen b_txt)] with
    | Ok (_, s, f) => (selected_syntax s, shop_defs s, List.length (open_buffers (shop_ws s)),
        match shop_exec text_eqb uax29_15 tight (SCall (WOpen a_rs)) s f with
        | Ok (_, s', _) => (List.length (open_buffers (shop_ws s')), match w_current (shop_ws s') with Some b => Some (b_syntax b, buf_file_extension b) | None => None end)
        | Panic => (0, None) end)
    | Panic => (None, [], 0, (0, None)) end = (Some 1%N, some_defaults ++ own_rust, 1, (2, Some (Some 7%N, Some (txt "rs"))))) by (vm_compute; reflexivity).
  rewrite E in X. apply pair4 in X. destruct X as (X1 & X2 & X3 & X4). split; [exact X1|]. split; [exact X2|].
  destruct (shop_exec text_eqb uax29_15 tight (SCall (WOpen a_rs)) s f) as [[[o s'] f']|]; [|discriminate].
  injection X4 as X4 X5. destruct (w_current (shop_ws s')) as [b|] eqn:Cb; [|discriminate]. injection X5 as X5 X6.
  exists o, s', f', b. split; [reflexivity|]. split; [cbn; rewrite X3, X4; discriminate|]. split; [exact Cb|].
  assert (A : asks_for b (txt "rs")) by now left. split; [|split; [|exact X5]].
  - exists (txt "rs"), (Def 7%N (txt "My Rust") [txt "rust"; txt "rs"]). split; [exact A|]. split; [right; now left|].
    exists (txt "rs"). split; [right; now left|]. vm_compute. reflexivity.
  - exists (txt "rs"), (Def 2%N (txt "Rust") [txt "rs"]). split; [exact A|]. split; [right; now left|].
    exists (txt "rs"). split; [now left|]. vm_compute. reflexivity.
Qed.

(** A session that assigns a set with plain text meets the hypotheses. *)
Lemma plain_session : Forall (fun ac => alloc_ok (fst ac) /\ plain_call (snd ac) /\ wcall_ok uax29_15 (as_wcall text_eqb (snd ac)))
    (calls_of [SCall (WOpen b_txt); SAssign some_defaults; SCall WSyntax; SCall (WOpen other)]) /\
  Forall (fun ac => assigns_plain (snd ac)) (calls_of [SCall (WOpen b_txt); SAssign some_defaults; SCall WSyntax; SCall (WOpen other)]).
Proof.
  split.
  - unfold calls_of. rewrite Forall_map. repeat constructor; try apply tight_ok.
  - unfold calls_of. rewrite Forall_map. repeat constructor; cbn. exact some_plain.
Qed.
Lemma new_both_fail : shop_new text_eqb some_defaults (Some None) disk dir = inr SyntaxLoadingError /\
  shop_new text_eqb some_defaults None (FS (fun _ => None) (fun _ => None)) dir = inr Io.
Proof. split; reflexivity. Qed.
