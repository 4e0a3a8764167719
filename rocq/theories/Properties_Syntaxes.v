(** C96: whose syntax definition a buffer gets, and when there is none. *)
From Coq Require Import String.
From Verif Require Import Base Utf8 Grapheme UnicodeTable Position GapBuffer PathModel Buffer BufferCalls Witness Token Workspace WorkspaceSpec
  WorkspaceWitness Syntaxes SyntaxesSpec SyntaxesProofs SyntaxesWitness.

(** C96: a new workspace.  It fails exactly when the folder of definitions
    cannot be loaded or its path cannot be resolved, with different errors and
    the first one first; otherwise it is empty, at the resolved path, and has
    the defaults followed by the user's definitions. *)
Theorem C96_new : forall same defaults folder f p,
  (shop_new same defaults folder f p = inr SyntaxLoadingError <-> folder = Some None) /\
  (shop_new same defaults folder f p = inr Io <-> folder <> Some None /\ fs_canon f p = None) /\
  (forall s, shop_new same defaults folder f p = inl s <->
     folder <> Some None /\ fs_canon f p = Some (w_path (shop_ws s)) /\
     open_buffers (shop_ws s) = [] /\ w_current (shop_ws s) = None /\ current_buffer_index (shop_ws s) = None /\
     w_next_id (shop_ws s) = 0 /\ w_syntaxes (shop_ws s) = set_of same (shop_defs s) /\
     shop_defs s = defaults ++ match folder with Some (Some users) => users | _ => [] end).
Proof. exact new_exactly. Qed.
Print Assumptions C96_new.

Example C96_new_example : shop_new text_eqb some_defaults (Some None) disk dir = inr SyntaxLoadingError /\
  shop_new text_eqb some_defaults None (FS (fun _ => None) (fun _ => None)) dir = inr Io.
Proof. exact new_both_fail. Qed.

(** C96: the set stays as it is until it is assigned. *)
Theorem C96_set_kept : forall same brk cs s f os s' f',
  Forall (fun ac => exists c, snd ac = SCall c /\ plain_call (snd ac)) cs ->
  shop_run same brk cs s f = Ok (os, s', f') -> shop_defs s' = shop_defs s.
Proof. exact run_defs. Qed.
Print Assumptions C96_set_kept.

(** C96: a call that has to find a definition for a buffer gives it the one that
    is due: the last in the set for its extension (or its file's name, if it
    has no extension), and if there is none the last called plain text. *)
Theorem C96_definition : forall same brk s f al c o s' f',
  reachable_shop same brk s f -> plain_call (SCall c) ->
  shop_exec same brk al (SCall c) s f = Ok (o, s', f') -> looks_up c (shop_ws s) (shop_ws s') ->
  forall b, w_current (shop_ws s') = Some b -> exists d, due same (shop_defs s) b d /\ b_syntax b = Some (def_id d).
Proof. exact shop_definition. Qed.
Print Assumptions C96_definition.

(** C96: no two definitions are due. *)
Theorem C96_one_definition : forall same ds b d d', due same ds b d -> due same ds b d' -> d = d'.
Proof. exact due_unique. Qed.
Print Assumptions C96_one_definition.

(** C96: of the user's definitions and the defaults, the user's come first. *)
Theorem C96_user_first : forall same defaults users b, claimed same users b ->
  forall d, due same (defaults ++ users) b d <-> due same users b d.
Proof. exact due_user. Qed.
Print Assumptions C96_user_first.
Theorem C96_then_defaults : forall same defaults users b, ~ claimed same users b -> claimed same defaults b ->
  forall d, due same (defaults ++ users) b d <-> due same defaults b d.
Proof. exact due_default. Qed.
Print Assumptions C96_then_defaults.
Theorem C96_then_plain : forall same defaults users b, ~ claimed same users b -> ~ claimed same defaults b ->
  forall d, due same (defaults ++ users) b d <->
    last_such is_plain users d \/ ~ has_plain users /\ last_such is_plain defaults d.
Proof. exact due_plain. Qed.
Print Assumptions C96_then_plain.

(** A file that both the user's definitions and the defaults are for. *)
Example C96_example : exists os s f,
  shop_play [SCall (WOpen b_txt)] = Ok (os, s, f) /\ reachable_shop text_eqb uax29_15 s f /\ selected_syntax s = Some 1%N /\
  shop_defs s = some_defaults ++ own_rust /\
  exists o s' f' b, shop_exec text_eqb uax29_15 tight (SCall (WOpen a_rs)) s f = Ok (o, s', f') /\
    looks_up (WOpen a_rs) (shop_ws s) (shop_ws s') /\ w_current (shop_ws s') = Some b /\
    claimed text_eqb own_rust b /\ claimed text_eqb some_defaults b /\ b_syntax b = Some 7%N.
Proof. exact own_rust_wins. Qed.

(** C96: a session that does not panic is one of the workspace whose set is a
    pair of lookups, which all other properties are about. *)
Theorem C96_sessions : forall same brk defaults folder f0 p s0 cs os s f,
  shop_new same defaults folder f0 p = inl s0 -> Forall (fun ac => plain_call (snd ac)) cs ->
  shop_run same brk cs s0 f0 = Ok (os, s, f) ->
  wrun brk (as_session same cs) (shop_ws s0) f0 = Ok (os, shop_ws s, f).
Proof. intros same brk defaults folder f0 p s0 cs os s f E F R. exact (proj2 (run_same same brk cs s0 f0 os s f (proj1 (new_in_order _ _ _ _ _ _ E)) F R)). Qed.
Print Assumptions C96_sessions.

(** C96: no session panics if plain text is among the defaults and in every set
    that is assigned.  Missing: sets without it. *)
Theorem C96_no_panic_partial : forall same cls defaults folder f0 p s0 cs, cls LF = GC_LF ->
  shop_new same defaults folder f0 p = inl s0 -> has_plain defaults ->
  Forall (fun ac => alloc_ok (fst ac) /\ plain_call (snd ac) /\ wcall_ok (uax29 cls) (as_wcall same (snd ac))) cs ->
  Forall (fun ac => assigns_plain (snd ac)) cs ->
  exists os s f, shop_run same (uax29 cls) cs s0 f0 = Ok (os, s, f) /\ has_plain (shop_defs s).
Proof. exact shop_no_panic. Qed.
Print Assumptions C96_no_panic_partial.

Example C96_no_panic_example : has_plain some_defaults /\
  Forall (fun ac => alloc_ok (fst ac) /\ plain_call (snd ac) /\ wcall_ok uax29_15 (as_wcall text_eqb (snd ac)))
    (calls_of [SCall (WOpen b_txt); SAssign some_defaults; SCall WSyntax; SCall (WOpen other)]) /\
  Forall (fun ac => assigns_plain (snd ac)) (calls_of [SCall (WOpen b_txt); SAssign some_defaults; SCall WSyntax; SCall (WOpen other)]).
Proof. exact (conj some_plain plain_session). Qed.

(** C96: exactly when a call panics: it has to find a definition for a buffer,
    none in the set is for it, and none is plain text. *)
Theorem C96_panics_exactly : forall same cls s f al c, cls LF = GC_LF -> reachable_shop same (uax29 cls) s f ->
  alloc_ok al -> wcall_ok (uax29 cls) c -> plain_call (SCall c) ->
  exists o w' f', wexec (uax29 cls) al c (shop_ws s) f = Ok (o, w', f') /\
    (shop_exec same (uax29 cls) al (SCall c) s f = Panic <->
     looks_up c (shop_ws s) w' /\ exists b, w_current w' = Some b /\ ~ claimed same (shop_defs s) b /\ ~ has_plain (shop_defs s)) /\
    (shop_exec same (uax29 cls) al (SCall c) s f = Panic \/
     shop_exec same (uax29 cls) al (SCall c) s f = Ok (o, Shop w' (shop_defs s), f')).
Proof. exact shop_panics_exactly. Qed.
Print Assumptions C96_panics_exactly.

(** C96: a set without plain text can be assigned to the public field; then
    opening a file, or updating the syntax of one, panics unless the set has a
    definition for it. *)
Theorem C96_assign_refuted : exists os s f,
  shop_play [SCall (WOpen b_txt); SAssign only_rust] = Ok (os, s, f) /\
  reachable_shop text_eqb uax29_15 s f /\ shop_defs s = only_rust /\
  shop_exec text_eqb uax29_15 tight (SCall WSyntax) s f = Panic /\
  shop_exec text_eqb uax29_15 tight (SCall (WOpen other)) s f = Panic /\
  exists o s' f', shop_exec text_eqb uax29_15 tight (SCall (WOpen a_rs)) s f = Ok (o, s', f') /\ selected_syntax s' = Some 2%N.
Proof. exact assigned_then_panics. Qed.
Print Assumptions C96_assign_refuted.
