(** A whole workspace for every text: a list of the editors of MarkEditor.v, one of
    them selected, which share one disk.  No buffer, gap buffer, history or
    workspace of the model occurs in it. *)
From Verif Require Import Base Utf8 Grapheme Position GapBuffer PathModel Buffer BufferCalls Token Workspace
  CursorSpec MarkSpec MarkEditor.
From Verif Require WorkspaceSpec.
Import WorkspaceSpec(wcall, wout).

Record office := Office {
  o_path : path;
  o_editors : list meditor;
  o_selected : option nat;
  o_given : nat;               (* how many ids have been given out *)
  o_syntaxes : syntax_set;
  o_disk : fsys }.

Definition at_desk (o : office) : option meditor :=
  match o_selected o with Some i => nth_error (o_editors o) i | None => None end.
Definition with_editors (o : office) (es : list meditor) (i : option nat) : office :=
  Office (o_path o) es i (o_given o) (o_syntaxes o) (o_disk o).

(** The syntax found for a path: by its extension unless it is empty, or else by
    its file name if that is UTF-8; plain text if there is none. *)
Definition syntax_at (ss : syntax_set) (p : option path) : syntax :=
  let look n := match ss_find ss n with Some s => s | None => ss_plain ss end in
  match p with
  | None => ss_plain ss
  | Some p =>
    match path_extension p with
    | Some (x :: ext) => look (decode_lossy (x :: ext))
    | _ =>
      match path_file_name p with
      | Some n => match decode_strict n with Some n => look n | None => ss_plain ss end
      | None => ss_plain ss
      end
    end
  end.

Definition with_syntax (s : option syntax) (e : meditor) : meditor :=
  ME (me_text e) (me_cursor e) (me_past e) (me_future e) (me_saved e) (me_group e) (me_path e)
     (me_id e) s (me_listening e) (me_heard e) (me_disk e).
Definition with_id (i : nat) (e : meditor) : meditor :=
  ME (me_text e) (me_cursor e) (me_past e) (me_future e) (me_saved e) (me_group e) (me_path e)
     (Some i) (me_syntax e) (me_listening e) (me_heard e) (me_disk e).

(** The selected editor becomes another. *)
Definition becomes (o : office) (e : meditor) : office :=
  match o_selected o with
  | Some i => with_editors o (firstn i (o_editors o) ++ e :: skipn (S i) (o_editors o)) (Some i)
  | None => o
  end.

(** A new editor goes after the selected one, gets the next id and, if it has
    none, a syntax; and is selected. *)
Definition sit (o : office) (e : meditor) : office :=
  let i := match o_selected o with Some i => S i | None => 0 end in
  let s := match me_syntax e with Some s => s | None => syntax_at (o_syntaxes o) (me_path e) end in
  Office (o_path o)
    (firstn i (o_editors o) ++ with_syntax (Some s) (with_id (o_given o) e) :: skipn i (o_editors o))
    (Some i) (S (o_given o)) (o_syntaxes o) (o_disk o).

Definition works_on (cp : path) (e : meditor) : bool :=
  match me_path e with Some p => if path_eq_dec p cp then true else false | None => false end.
Fixpoint first_on (cp : path) (es : list meditor) : option nat :=
  match es with
  | [] => None
  | e :: es' => if works_on cp e then Some 0 else option_map S (first_on cp es')
  end.

(** A file is opened by selecting the editor that works on it (the selected one
    first, then the first), or else by reading it. *)
Definition o_open (al : allocator) (p : path) (o : office) : wout * office :=
  let read :=
    match read_to_string (o_disk o) p, fs_canon (o_disk o) p with
    | Some t, Some cp => (WorkspaceSpec.WResult (ROk tt), sit o (me_open al (o_disk o) cp t))
    | _, _ => (WorkspaceSpec.WResult (RErr IoError), o)
    end in
  match fs_canon (o_disk o) p with
  | None => read
  | Some cp =>
    if match at_desk o with Some e => works_on cp e | None => false end
    then (WorkspaceSpec.WResult (ROk tt), o)
    else match first_on cp (o_editors o) with
         | Some i => (WorkspaceSpec.WResult (ROk tt), with_editors o (o_editors o) (Some i))
         | None => read
         end
  end.

(** Closing selects the editor before, or the first. *)
Definition o_close (o : office) : office :=
  match o_selected o with
  | None => o
  | Some i =>
    let es := firstn i (o_editors o) ++ skipn (S i) (o_editors o) in
    with_editors o es (match es with [] => None | _ => Some (i - 1) end)
  end.
Definition o_turn (o : office) (k : nat) : office :=
  match o_selected o with
  | None => o
  | Some i => with_editors o (o_editors o) (Some ((i + k) mod length (o_editors o)))
  end.

(** Calls: those on a workspace, with an editor instead of the added buffer. *)
Inductive ocall :=
| OAdd (e : meditor)
| OOpen (p : path)
| OClose | ONext | OPrevious
| OEdit (c : bcall)
| OSyntax
| OSetPath (p : path)
| OSetSyntaxes (ss : syntax_set)
| ODisk (f : fsys).

Definition o_call (brk : brk_rule) (al : allocator) (c : ocall) (o : office) : wout * office :=
  match c with
  | OAdd e => (WorkspaceSpec.WUnit, sit o e)
  | OOpen p => o_open al p o
  | OClose => (WorkspaceSpec.WUnit, o_close o)
  | ONext => (WorkspaceSpec.WUnit, o_turn o 1)
  | OPrevious => (WorkspaceSpec.WUnit, o_turn o (length (o_editors o) - 1))
  | OEdit c =>
    match at_desk o with
    | None => (WorkspaceSpec.WEdited None, o)
    | Some e =>
      let '(r, e') := me_call brk al c (put_disk e (o_disk o)) in
      let o' := becomes o e' in
      (WorkspaceSpec.WEdited (Some r),
       Office (o_path o') (o_editors o') (o_selected o') (o_given o') (o_syntaxes o') (me_disk e'))
    end
  | OSyntax =>
    match at_desk o with
    | None => (WorkspaceSpec.WResult (RErr EmptyWorkspace), o)
    | Some e => (WorkspaceSpec.WResult (ROk tt),
                 becomes o (with_syntax (Some (syntax_at (o_syntaxes o) (me_path e))) e))
    end
  | OSetPath p => (WorkspaceSpec.WUnit, Office p (o_editors o) (o_selected o) (o_given o) (o_syntaxes o) (o_disk o))
  | OSetSyntaxes ss =>
    (WorkspaceSpec.WUnit, Office (o_path o) (o_editors o) (o_selected o) (o_given o) ss (o_disk o))
  | ODisk f => (WorkspaceSpec.WUnit, Office (o_path o) (o_editors o) (o_selected o) (o_given o) (o_syntaxes o) f)
  end.
Fixpoint o_calls (brk : brk_rule) (cs : list (allocator * ocall)) (o : office) : list wout * office :=
  match cs with
  | [] => ([], o)
  | (al, c) :: cs' =>
    let '(r, o1) := o_call brk al c o in
    let '(rs, o2) := o_calls brk cs' o1 in
    (r :: rs, o2)
  end.

(** A buffer and an editor that the same calls have led to. *)
Definition made (brk : brk_rule) (b : buffer) (e : meditor) : Prop :=
  exists b0 e0 cs os f, me_start b0 e0 /\
    Forall (fun ac => alloc_ok (fst ac) /\ call_ok (snd ac)) cs /\
    brun brk cs b0 (me_disk e0) = Ok (os, b, f) /\ e = snd (me_calls brk cs e0).
Inductive same_call (brk : brk_rule) : wcall -> ocall -> Prop :=
| same_add b e (Hm : made brk b e) : same_call brk (WorkspaceSpec.WAdd b) (OAdd e)
| same_open p : same_call brk (WorkspaceSpec.WOpen p) (OOpen p)
| same_close : same_call brk WorkspaceSpec.WClose OClose
| same_next : same_call brk WorkspaceSpec.WNext ONext
| same_previous : same_call brk WorkspaceSpec.WPrevious OPrevious
| same_edit c (Hc : call_ok c) : same_call brk (WorkspaceSpec.WEdit c) (OEdit c)
| same_syntax : same_call brk WorkspaceSpec.WSyntax OSyntax
| same_set_path p : same_call brk (WorkspaceSpec.WSetPath p) (OSetPath p)
| same_set_syntaxes ss : same_call brk (WorkspaceSpec.WSetSyntaxes ss) (OSetSyntaxes ss)
| same_disk f : same_call brk (WorkspaceSpec.WDisk f) (ODisk f).

Definition same_calls (brk : brk_rule) : list (allocator * wcall) -> list (allocator * ocall) -> Prop :=
  Forall2 (fun ac ao => fst ac = fst ao /\ alloc_ok (fst ac) /\ same_call brk (snd ac) (snd ao)).

(** All that can be seen of a workspace is what the office says. *)
Record shows_office (brk : brk_rule) (w : workspace) (o : office) : Prop := ShowsOffice {
  so_path : w_path w = o_path o;
  so_syntaxes : w_syntaxes w = o_syntaxes o;
  so_index : current_buffer_index w = o_selected o;
  so_current : match w_current w, at_desk o with
               | Some b, Some e => shows brk b e
               | None, None => True
               | _, _ => False
               end;
  so_buffers : Forall2 (shows brk) (WorkspaceSpec.open_buffers w) (o_editors o);
  so_current_path : WorkspaceSpec.shown (o_path o)
    (match at_desk o with Some e => me_path e | None => None end) (current_buffer_path w);
  so_paths : Forall2 (WorkspaceSpec.shown (o_path o)) (map me_path (o_editors o)) (buffer_paths w);
  so_tokens : current_buffer_tokens w =
    Ok match at_desk o with
       | None => RErr EmptyWorkspace
       | Some e => match me_syntax e with
                   | None => RErr MissingSyntax
                   | Some s => ROk (TS (whole (me_text e)) s)
                   end
       end }.
