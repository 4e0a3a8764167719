(** Specification of workspaces: a plain list of buffers with a selected index. *)
From Verif Require Import Base Utf8 Grapheme Position GapBuffer PathModel Buffer BufferCalls Token Workspace.

(** Calls on a workspace. *)
Inductive wcall :=
| WAdd (b : buffer)            (* add_buffer *)
| WOpen (p : path)             (* open_buffer *)
| WClose                       (* close_current_buffer *)
| WNext | WPrevious            (* next_buffer, previous_buffer *)
| WEdit (c : bcall)            (* a call on current_buffer, if there is one *)
| WSyntax                      (* update_current_syntax *)
| WSetPath (p : path)          (* assignment to the workspace's path *)
| WSetSyntaxes (ss : syntax_set)  (* assignment to syntax_set *)
| WDisk (f : fsys).            (* something else changes the disk *)

(** What a call returns. *)
Inductive wout := WUnit | WResult (r : result unit) | WEdited (o : option bout).

Definition wexec (brk : brk_rule) (al : allocator) (c : wcall) (w : workspace) (f : fsys)
  : res (wout * workspace * fsys) :=
  match c with
  | WAdd b => let* w' := add_buffer al w b in Ok (WUnit, w', f)
  | WOpen p => let* (r, w') := open_buffer al f w p in Ok (WResult r, w', f)
  | WClose => let* w' := close_current_buffer al w in Ok (WUnit, w', f)
  | WNext => let* w' := next_buffer al w in Ok (WUnit, w', f)
  | WPrevious => let* w' := previous_buffer al w in Ok (WUnit, w', f)
  | WEdit c =>
    match w_current w with
    | None => Ok (WEdited None, w, f)
    | Some b =>
      let* (o, b', f') := bexec brk al c b f in
      Ok (WEdited (Some o),
          WS (w_path w) (w_buffers w) (w_next_id w) (Some b') (w_index w) (w_syntaxes w), f')
    end
  | WSyntax => let '(r, w') := update_current_syntax w in Ok (WResult r, w', f)
  | WSetPath p =>
    Ok (WUnit, WS p (w_buffers w) (w_next_id w) (w_current w) (w_index w) (w_syntaxes w), f)
  | WSetSyntaxes ss =>
    Ok (WUnit, WS (w_path w) (w_buffers w) (w_next_id w) (w_current w) (w_index w) ss, f)
  | WDisk f' => Ok (WUnit, w, f')
  end.
Fixpoint wrun (brk : brk_rule) (cs : list (allocator * wcall)) (w : workspace) (f : fsys)
  : res (list wout * workspace * fsys) :=
  match cs with
  | [] => Ok ([], w, f)
  | (al, c) :: cs' =>
    let* (o, w1, f1) := wexec brk al c w f in
    let* (os, w2, f2) := wrun brk cs' w1 f1 in
    Ok (o :: os, w2, f2)
  end.

(** ** The plain list *)
Record shelf := Shelf {
  s_path : path;
  s_buffers : list buffer;
  s_selected : option nat;
  s_given : nat;               (* how many ids have been given out *)
  s_syntaxes : syntax_set }.

Definition selected (s : shelf) : option buffer :=
  match s_selected s with Some i => nth_error (s_buffers s) i | None => None end.
Definition select (s : shelf) (i : nat) : shelf :=
  Shelf (s_path s) (s_buffers s) (Some i) (s_given s) (s_syntaxes s).
Definition replace_selected (s : shelf) (b : buffer) : shelf :=
  match s_selected s with
  | Some i => Shelf (s_path s) (firstn i (s_buffers s) ++ b :: skipn (S i) (s_buffers s))
                    (s_selected s) (s_given s) (s_syntaxes s)
  | None => s
  end.

(** The syntax found for a buffer: by its extension, or else its file name; plain
    text if there is none. *)
Definition syntax_for (ss : syntax_set) (b : buffer) : syntax :=
  let look := fun n => match ss_find ss n with Some s => s | None => ss_plain ss end in
  match buf_file_extension b, buf_file_name b with
  | Some e, _ => look e
  | None, Some n => look n
  | None, None => ss_plain ss
  end.

(** A new buffer goes after the selected one, gets the next id and, if it has
    none, a syntax; and is selected. *)
Definition put (s : shelf) (b : buffer) : shelf :=
  let i := match s_selected s with Some i => S i | None => 0 end in
  let b1 := set_id b (Some (s_given s)) in
  let b2 := match b_syntax b with
            | Some _ => b1
            | None => set_syntax b1 (Some (syntax_for (s_syntaxes s) b))
            end in
  Shelf (s_path s) (firstn i (s_buffers s) ++ b2 :: skipn i (s_buffers s)) (Some i)
        (S (s_given s)) (s_syntaxes s).

Definition has_path (cp : path) (b : buffer) : bool :=
  match b_path b with Some p => if path_eq_dec p cp then true else false | None => false end.
(** The first buffer with a path. *)
Fixpoint first_with (cp : path) (bs : list buffer) : option nat :=
  match bs with
  | [] => None
  | b :: bs' => if has_path cp b then Some 0 else option_map S (first_with cp bs')
  end.

Definition load (al : allocator) (f : fsys) (s : shelf) (p : path) : res (wout * shelf) :=
  let* r := from_file al f p in
  match r with
  | RErr e => Ok (WResult (RErr e), s)
  | ROk b => Ok (WResult (ROk tt), put s b)
  end.
Definition spec_open (al : allocator) (f : fsys) (s : shelf) (p : path) : res (wout * shelf) :=
  match fs_canon f p with
  | None => load al f s p
  | Some cp =>
    if match selected s with Some b => has_path cp b | None => false end
    then Ok (WResult (ROk tt), s)
    else match first_with cp (s_buffers s) with
         | Some i => Ok (WResult (ROk tt), select s i)
         | None => load al f s p
         end
  end.

(** Removing the selected buffer selects the one before it, or the first. *)
Definition spec_close (s : shelf) : shelf :=
  match s_selected s with
  | None => s
  | Some i =>
    let bs := firstn i (s_buffers s) ++ skipn (S i) (s_buffers s) in
    Shelf (s_path s) bs (match bs with [] => None | _ => Some (i - 1) end) (s_given s) (s_syntaxes s)
  end.

(** Going round. *)
Definition turn (s : shelf) (k : nat) : shelf :=
  match s_selected s with
  | None => s
  | Some i => select s ((i + k) mod length (s_buffers s))
  end.

Definition spec_wcall (brk : brk_rule) (al : allocator) (c : wcall) (s : shelf) (f : fsys)
  : res (wout * shelf * fsys) :=
  match c with
  | WAdd b => Ok (WUnit, put s b, f)
  | WOpen p => let* (o, s') := spec_open al f s p in Ok (o, s', f)
  | WClose => Ok (WUnit, spec_close s, f)
  | WNext => Ok (WUnit, turn s 1, f)
  | WPrevious => Ok (WUnit, turn s (length (s_buffers s) - 1), f)
  | WEdit c =>
    match selected s with
    | None => Ok (WEdited None, s, f)
    | Some b =>
      let* (o, b', f') := bexec brk al c b f in
      Ok (WEdited (Some o), replace_selected s b', f')
    end
  | WSyntax =>
    match selected s with
    | None => Ok (WResult (RErr EmptyWorkspace), s, f)
    | Some b => Ok (WResult (ROk tt), replace_selected s (set_syntax b (Some (syntax_for (s_syntaxes s) b))), f)
    end
  | WSetPath p => Ok (WUnit, Shelf p (s_buffers s) (s_selected s) (s_given s) (s_syntaxes s), f)
  | WSetSyntaxes ss => Ok (WUnit, Shelf (s_path s) (s_buffers s) (s_selected s) (s_given s) ss, f)
  | WDisk f' => Ok (WUnit, s, f')
  end.
Fixpoint spec_wrun (brk : brk_rule) (cs : list (allocator * wcall)) (s : shelf) (f : fsys)
  : res (list wout * shelf * fsys) :=
  match cs with
  | [] => Ok ([], s, f)
  | (al, c) :: cs' =>
    let* (o, s1, f1) := spec_wcall brk al c s f in
    let* (os, s2, f2) := spec_wrun brk cs' s1 f1 in
    Ok (o :: os, s2, f2)
  end.

(** ** What can be seen of a workspace *)

(** How a path is shown: relative to the workspace if it is inside. *)
Definition shown (base : path) (p q : option path) : Prop :=
  match p with
  | None => q = None
  | Some p =>
    (exists r, p = base ++ r /\ q = Some r) \/ ((forall r, p <> base ++ r) /\ q = Some p)
  end.

(** The workspace shows the list: current buffer, its index and path, and all
    paths. *)
Definition shows (w : workspace) (s : shelf) : Prop :=
  w_path w = s_path s /\ w_syntaxes w = s_syntaxes s /\
  w_current w = selected s /\ current_buffer_index w = s_selected s /\
  shown (s_path s) (match selected s with Some b => b_path b | None => None end) (current_buffer_path w) /\
  Forall2 (shown (s_path s)) (map b_path (s_buffers s)) (buffer_paths w).

(** All open buffers, the current one in its place. *)
Definition open_buffers (w : workspace) : list buffer :=
  match w_index w, w_current w with
  | Some i, Some b => firstn i (w_buffers w) ++ b :: skipn (S i) (w_buffers w)
  | _, _ => w_buffers w
  end.

(** Workspaces that calls produce from a new one, with the disk they leave;
    buffers are added as API calls leave them. *)
Definition wcall_ok (brk : brk_rule) (c : wcall) : Prop :=
  match c with
  | WAdd b => exists f, reachable_buffer brk b f
  | WEdit c => call_ok c
  | _ => True
  end.
Definition reachable_workspace (brk : brk_rule) (P : wcall -> Prop) (w : workspace) (f : fsys) : Prop :=
  exists f0 p ss w0 cs os, ws_new f0 p (Some ss) = ROk w0 /\
    Forall (fun ac => alloc_ok (fst ac) /\ wcall_ok brk (snd ac) /\ P (snd ac)) cs /\
    wrun brk cs w0 f0 = Ok (os, w, f).
Definition any (c : wcall) : Prop := True.
(** Only through [open_buffer], without giving buffers other paths. *)
Definition only_opens (c : wcall) : Prop :=
  match c with WAdd _ => False | WEdit (BSetPath _) => False | _ => True end.
(** Whoever changes the disk leaves the links alone. *)
Definition keeps_links (T : path -> option path) (c : wcall) : Prop :=
  match c with WDisk f | WEdit (BDisk f) => fs_target f = T | _ => True end.
Definition keeps_ids (c : wcall) : Prop :=
  match c with WEdit (BSetId _) => False | _ => True end.
Definition keeps_syntax (c : wcall) : Prop :=
  match c with WEdit (BSetSyntax None) => False | _ => True end.

(** Calls that neither add nor remove buffers, nor give them ids. *)
Definition same_buffers (c : wcall) : Prop :=
  match c with WAdd _ | WOpen _ | WClose | WEdit (BSetId _) => False | _ => True end.

(** The call opened a buffer, which got the id [i]. *)
Definition gave (brk : brk_rule) (al : allocator) (c : wcall) (w : workspace) (f : fsys)
  (w' : workspace) (i : nat) : Prop :=
  exists o f', wexec brk al c w f = Ok (o, w', f')
    /\ length (open_buffers w') = S (length (open_buffers w))
    /\ exists b, w_current w' = Some b /\ b_id b = Some i.

(** Calling [next_buffer] again and again. *)
Fixpoint nexts (als : list allocator) (w : workspace) : res workspace :=
  match als with
  | [] => Ok w
  | al :: als' => let* w' := next_buffer al w in nexts als' w'
  end.

(** Everything that can be seen of two workspaces is the same. *)
Definition same_view (w w' : workspace) : Prop :=
  w_path w' = w_path w /\ w_syntaxes w' = w_syntaxes w /\ w_current w' = w_current w /\
  w_index w' = w_index w /\ open_buffers w' = open_buffers w.

(** [Path::join], on components: an absolute path stays as it is. *)
Definition join_path (base p : path) : path :=
  match p with RootDir :: _ => p | _ => base ++ p end.
Definition absolute (p : path) : Prop := exists q, p = RootDir :: q /\ ~ In RootDir q.

(** [workspace.current_buffer.take()]: the field is public. *)
Definition take_current (w : workspace) : workspace :=
  WS (w_path w) (w_buffers w) (w_next_id w) None (w_index w) (w_syntaxes w).
