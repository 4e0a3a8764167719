(** What is said about sets of syntax definitions. *)
From Verif Require Import Base Utf8 Grapheme Position GapBuffer PathModel Buffer BufferCalls Token Workspace WorkspaceSpec Syntaxes.

(** The definition is for files with the extension [e]. *)
Definition is_for (same : text -> text -> bool) (e : text) (d : definition) : Prop :=
  exists x, In x (def_exts d) /\ same x e = true.
Definition is_plain (d : definition) : Prop := def_name d = plain_text.
(** The last definition of the list that satisfies [P]. *)
Definition last_such (P : definition -> Prop) (ds : definitions) (d : definition) : Prop :=
  exists before after, ds = before ++ d :: after /\ P d /\ forall x, In x after -> ~ P x.
Definition has_plain (ds : definitions) : Prop := exists d, In d ds /\ is_plain d.

(** What is looked up for a buffer: its file's extension, or the file's name if
    it has none. *)
Definition asks_for (b : buffer) (e : text) : Prop :=
  buf_file_extension b = Some e \/ buf_file_extension b = None /\ buf_file_name b = Some e.
(** Some definition is for the buffer's file. *)
Definition claimed (same : text -> text -> bool) (ds : definitions) (b : buffer) : Prop :=
  exists e d, asks_for b e /\ In d ds /\ is_for same e d.
(** The definition that the buffer should get. *)
Definition due (same : text -> text -> bool) (ds : definitions) (b : buffer) (d : definition) : Prop :=
  (exists e, asks_for b e /\ last_such (is_for same e) ds d) \/
  ~ claimed same ds b /\ last_such is_plain ds d.

(** The call [c], which leads from [w] to [w'], has to find a syntax definition
    for the buffer that is selected in [w']. *)
Definition looks_up (c : wcall) (w w' : workspace) : Prop :=
  match c with
  | WSyntax => True
  | WAdd b => b_syntax b = None
  | WOpen _ => length (open_buffers w') <> length (open_buffers w)
  | _ => False
  end.

(** The same session, for a workspace whose set is a pair of lookups. *)
Definition as_wcall (same : text -> text -> bool) (c : scall) : wcall :=
  match c with SCall c => c | SAssign ds => WSetSyntaxes (set_of same ds) end.
Definition as_session (same : text -> text -> bool) (cs : list (allocator * scall)) : list (allocator * wcall) :=
  map (fun ac => (fst ac, as_wcall same (snd ac))) cs.
(** [syntax_set] is only assigned as a list of definitions. *)
Definition plain_call (c : scall) : Prop := match c with SCall (WSetSyntaxes _) => False | _ => True end.
(** Every set that is assigned has a plain text definition. *)
Definition assigns_plain (c : scall) : Prop := match c with SAssign ds => has_plain ds | _ => True end.
(** The states that sessions lead to. *)
Definition reachable_shop (same : text -> text -> bool) (brk : brk_rule) (s : shop) (f : fsys) : Prop :=
  exists defaults folder f0 p s0 cs os,
    shop_new same defaults folder f0 p = inl s0 /\
    Forall (fun ac => alloc_ok (fst ac) /\ plain_call (snd ac) /\ wcall_ok brk (as_wcall same (snd ac))) cs /\
    shop_run same brk cs s0 f0 = Ok (os, s, f).
