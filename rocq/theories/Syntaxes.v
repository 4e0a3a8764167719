(** Sets of syntax definitions: how [Workspace::new] makes one, and what its
    lookups do.  In [Workspace] a set is a pair of total functions; here it is
    the list of definitions that syntect keeps, and a lookup of the plain text
    definition in a set without one panics. *)
From Verif Require Import Base Utf8 Grapheme Position GapBuffer Cursor PathModel Buffer BufferCalls Token Workspace WorkspaceSpec.

(** syntect's [SyntaxReference]: its [name], its [file_extensions] and, as a
    number, all the rest of it. *)
Record definition := Def { def_id : syntax; def_name : text; def_exts : list text }.
(** syntect's [SyntaxSet], in the order of its [syntaxes()]. *)
Definition definitions := list definition.

(** "Plain Text". *)
Definition plain_text : text := [80; 108; 97; 105; 110; 32; 84; 101; 120; 116]%N.
Definition text_eqb (s t : text) : bool := if list_eq_dec N.eq_dec s t then true else false.

(** syntect's [find_syntax_by_extension]: [syntaxes.iter().rev().find(...)].
    How two extensions are compared is left open ([same]). *)
Definition find_by_extension (same : text -> text -> bool) (ds : definitions) (e : text) : option definition :=
  find (fun d => existsb (fun x => same x e) (def_exts d)) (rev ds).
(** syntect's [find_syntax_by_name]. *)
Definition find_by_name (ds : definitions) (n : text) : option definition :=
  find (fun d => text_eqb n (def_name d)) (rev ds).
(** syntect's [find_syntax_plain_text]: [find_syntax_by_name("Plain Text").expect(...)]. *)
Definition find_plain_text (ds : definitions) : res definition :=
  match find_by_name ds plain_text with Some d => Ok d | None => Panic end.

(** The set as the pair of lookups that [Workspace] has. *)
Definition set_of (same : text -> text -> bool) (ds : definitions) : syntax_set :=
  SS (fun e => option_map def_id (find_by_extension same ds e))
     (match find_plain_text ds with Ok d => def_id d | Panic => 0%N end).

(** The error kinds of [Workspace::new] (errors.rs:20-25). *)
Inductive new_error := SyntaxLoadingError | Io.

(** A workspace and the definitions of its [syntax_set]. *)
Record shop := Shop { shop_ws : workspace; shop_defs : definitions }.

(** [Workspace::new], workspace.rs:22-42.  [defaults]: what
    [load_defaults_newlines] gives.  [folder]: no folder was given ([None]),
    the folder cannot be loaded ([Some None]), or the definitions in it.  The
    builder keeps the order and adds at the end. *)
Definition shop_new (same : text -> text -> bool) (defaults : definitions) (folder : option (option definitions))
    (f : fsys) (p : path) : shop + new_error :=
  let loaded := match folder with
                | None => Some defaults
                | Some None => None
                | Some (Some ds) => Some (defaults ++ ds)
                end in
  match loaded with
  | None => inr SyntaxLoadingError
  | Some ds =>
    match fs_canon f p with
    | None => inr Io
    | Some cp => inl (Shop (WS cp [] 0 None None (set_of same ds)) ds)
    end
  end.

(** [update_current_syntax], workspace.rs:431-445. *)
Definition shop_update (same : text -> text -> bool) (ds : definitions) (w : workspace) : res (result unit * workspace) :=
  match w_current w with
  | None => Ok (RErr EmptyWorkspace, w)
  | Some b =>
    let name := match buf_file_extension b with Some e => Some e | None => buf_file_name b end in
    let found := match name with Some ex => find_by_extension same ds ex | None => None end in
    let* d := match found with Some d => Ok d | None => find_plain_text ds end in
    Ok (ROk tt, WS (w_path w) (w_buffers w) (w_next_id w) (Some (set_syntax b (Some (def_id d))))
                   (w_index w) (w_syntaxes w))
  end.

(** [add_buffer], workspace.rs:66-86. *)
Definition shop_add (same : text -> text -> bool) (ds : definitions) (al : allocator) (w : workspace) (buf : buffer)
    : res workspace :=
  let buf := set_id buf (Some (w_next_id w)) in
  let target_index := match w_index w with Some i => i + 1 | None => 0 end in
  let* bs := vec_insert (w_buffers w) target_index buf in
  let* (_, w2) := select_buffer al
      (WS (w_path w) bs (w_next_id w + 1) (w_current w) (w_index w) (w_syntaxes w)) target_index in
  match w_current w2 with
  | Some b => match b_syntax b with
              | None => let* (_, w3) := shop_update same ds w2 in Ok w3
              | Some _ => Ok w2
              end
  | None => Ok w2
  end.

(** [open_buffer], workspace.rs:111-120. *)
Definition shop_open (same : text -> text -> bool) (ds : definitions) (al : allocator) (f : fsys) (w : workspace) (p : path)
    : res (result unit * workspace) :=
  let* (found, w1) := select_buffer_by_path al f w p in
  if (found : bool) then Ok (ROk tt, w1)
  else
    let* r := from_file al f p in
    match r with
    | RErr e => Ok (RErr e, w1)
    | ROk b => let* w2 := shop_add same ds al w1 b in Ok (ROk tt, w2)
    end.

(** A call, or an assignment to the public field [syntax_set] (workspace.rs:17). *)
Inductive scall := SCall (c : wcall) | SAssign (ds : definitions).
Definition shop_exec (same : text -> text -> bool) (brk : brk_rule) (al : allocator) (c : scall) (s : shop) (f : fsys)
    : res (wout * shop * fsys) :=
  let w := shop_ws s in let ds := shop_defs s in
  match c with
  | SAssign ds' => Ok (WUnit, Shop (WS (w_path w) (w_buffers w) (w_next_id w) (w_current w) (w_index w) (set_of same ds')) ds', f)
  | SCall (WAdd b) => let* w' := shop_add same ds al w b in Ok (WUnit, Shop w' ds, f)
  | SCall (WOpen p) => let* (r, w') := shop_open same ds al f w p in Ok (WResult r, Shop w' ds, f)
  | SCall WSyntax => let* (r, w') := shop_update same ds w in Ok (WResult r, Shop w' ds, f)
  | SCall c => let* (o, w', f') := wexec brk al c w f in Ok (o, Shop w' ds, f')
  end.
Fixpoint shop_run (same : text -> text -> bool) (brk : brk_rule) (cs : list (allocator * scall)) (s : shop) (f : fsys)
    : res (list wout * shop * fsys) :=
  match cs with
  | [] => Ok ([], s, f)
  | (al, c) :: cs' =>
    let* (o, s1, f1) := shop_exec same brk al c s f in
    let* (os, s2, f2) := shop_run same brk cs' s1 f1 in
    Ok (o :: os, s2, f2)
  end.
