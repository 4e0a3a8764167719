(** The workspace, src/workspace.rs. *)
From Verif Require Import Base Utf8 Grapheme Position GapBuffer Cursor PathModel Buffer Token.

(** [SyntaxSet]: the two lookups the code uses (syntect). *)
Record syntax_set := SS {
  ss_find : text -> option syntax;   (* find_syntax_by_extension *)
  ss_plain : syntax }.               (* find_syntax_plain_text *)

(** workspace.rs:11-18. *)
Record workspace := WS {
  w_path : path;
  w_buffers : list buffer;
  w_next_id : nat;
  w_current : option buffer;
  w_index : option nat;
  w_syntaxes : syntax_set }.

(** [Workspace::new], workspace.rs:22-42.  Loading syntaxes from disk is not
    modelled: [syntaxes] is the outcome of it ([None]: it failed). *)
Definition ws_new (f : fsys) (p : path) (syntaxes : option syntax_set) : result workspace :=
  match syntaxes with
  | None => RErr IoError
  | Some ss =>
    match fs_canon f p with
    | None => RErr IoError
    | Some cp => ROk (WS cp [] 0 None None ss)
    end
  end.

(** [Vec::insert], [Vec::remove] (std). *)
Definition vec_insert {A} (l : list A) (i : nat) (x : A) : res (list A) :=
  if i <=? length l then Ok (firstn i l ++ x :: skipn i l) else Panic.
Definition vec_remove {A} (l : list A) (i : nat) : res (list A) :=
  if i <? length l then Ok (firstn i l ++ skipn (S i) l) else Panic.

(** [select_buffer], workspace.rs:447-466. *)
Definition select_buffer (al : allocator) (w : workspace) (index : nat)
  : res (bool * workspace) :=
  (* check in *)
  let* w1 :=
    match w_current w with
    | Some current =>
      match w_index w with
      | None => Panic
      | Some i =>
        let* slot := get (w_buffers w) i in
        let* bs := upd (w_buffers w) i current in
        Ok (WS (w_path w) bs (w_next_id w) (Some slot) (w_index w) (w_syntaxes w))
      end
    | None => Ok w
    end in
  (* check out *)
  match nth_error (w_buffers w1) index with
  | Some target =>
    let* blank := buffer_new al in
    let* bs := upd (w_buffers w1) index blank in
    Ok (true, WS (w_path w1) bs (w_next_id w1) (Some target) (Some index) (w_syntaxes w1))
  | None => Ok (false, w1)
  end.

(** [update_current_syntax], workspace.rs:431-445. *)
Definition update_current_syntax (w : workspace) : result unit * workspace :=
  match w_current w with
  | None => (RErr EmptyWorkspace, w)
  | Some b =>
    let name := match buf_file_extension b with
                | Some e => Some e
                | None => buf_file_name b
                end in
    let found := match name with Some ex => ss_find (w_syntaxes w) ex | None => None end in
    let definition := match found with
                      | Some s => Some s
                      | None => Some (ss_plain (w_syntaxes w))
                      end in
    (ROk tt, WS (w_path w) (w_buffers w) (w_next_id w) (Some (set_syntax b definition))
                (w_index w) (w_syntaxes w))
  end.

(** [add_buffer], workspace.rs:66-86. *)
Definition add_buffer (al : allocator) (w : workspace) (buf : buffer) : res workspace :=
  let buf := set_id buf (Some (w_next_id w)) in
  let target_index := match w_index w with Some i => i + 1 | None => 0 end in
  let* bs := vec_insert (w_buffers w) target_index buf in
  let* (_, w2) := select_buffer al
      (WS (w_path w) bs (w_next_id w + 1) (w_current w) (w_index w) (w_syntaxes w))
      target_index in
  match w_current w2 with
  | Some b => match b_syntax b with
              | None => Ok (snd (update_current_syntax w2))
              | Some _ => Ok w2
              end
  | None => Ok w2
  end.

(** Equality of an optional path with [Some q]. *)
Definition path_is (p : option path) (q : path) : bool :=
  match p with Some p => path_eqb p q | None => false end.

(** [Iterator::position] (std). *)
Fixpoint find_index {A} (f : A -> bool) (l : list A) : option nat :=
  match l with
  | [] => None
  | x :: l' => if f x then Some 0
               else match find_index f l' with Some n => Some (S n) | None => None end
  end.

(** [select_buffer_by_path], workspace.rs:468-489. *)
Definition select_buffer_by_path (al : allocator) (f : fsys) (w : workspace) (p : path)
  : res (bool * workspace) :=
  match fs_canon f p with
  | Some cp =>
    if path_is (match w_current w with Some b => b_path b | None => None end) cp
    then Ok (true, w)
    else match find_index (fun b => path_is (b_path b) cp) (w_buffers w) with
         | Some index => select_buffer al w index
         | None => Ok (false, w)
         end
  | None => Ok (false, w)
  end.

(** [open_buffer], workspace.rs:111-120. *)
Definition open_buffer (al : allocator) (f : fsys) (w : workspace) (p : path)
  : res (result unit * workspace) :=
  let* (found, w1) := select_buffer_by_path al f w p in
  if (found : bool) then Ok (ROk tt, w1)
  else
    let* r := from_file al f p in
    match r with
    | RErr e => Ok (RErr e, w1)
    | ROk b => let* w2 := add_buffer al w1 b in Ok (ROk tt, w2)
    end.

(** [path.strip_prefix(&self.path).ok().or_else(|| Some(path))]. *)
Definition relative_path (w : workspace) (b : buffer) : option path :=
  match b_path b with
  | Some p => match strip_prefix p (w_path w) with Some r => Some r | None => Some p end
  | None => None
  end.

(** [current_buffer_path], workspace.rs:148-154. *)
Definition current_buffer_path (w : workspace) : option path :=
  match w_current w with Some b => relative_path w b | None => None end.

(** [current_buffer_index], workspace.rs:186-188. *)
Definition current_buffer_index (w : workspace) : option nat := w_index w.

(** [close_current_buffer], workspace.rs:214-226. *)
Definition close_current_buffer (al : allocator) (w : workspace) : res workspace :=
  match w_index w with
  | Some index =>
    let* bs := vec_remove (w_buffers w) index in
    match bs with
    | [] => Ok (WS (w_path w) bs (w_next_id w) None None (w_syntaxes w))
    | _ =>
      let* (_, w2) := select_buffer al
          (WS (w_path w) bs (w_next_id w) None (w_index w) (w_syntaxes w)) (index - 1) in
      Ok w2
    end
  | None => Ok (WS (w_path w) (w_buffers w) (w_next_id w) None (w_index w) (w_syntaxes w))
  end.

(** [previous_buffer], workspace.rs:253-261. *)
Definition previous_buffer (al : allocator) (w : workspace) : res workspace :=
  match w_index w with
  | Some index =>
    if 0 <? index then
      let* (_, w') := select_buffer al w (index - 1) in Ok w'
    else
      let* last := usub (length (w_buffers w)) 1 in
      let* (_, w') := select_buffer al w last in Ok w'
  | None => Ok w
  end.

(** [next_buffer], workspace.rs:288-296. *)
Definition next_buffer (al : allocator) (w : workspace) : res workspace :=
  match w_index w with
  | Some index =>
    let* last := usub (length (w_buffers w)) 1 in
    if index =? last then
      let* (_, w') := select_buffer al w 0 in Ok w'
    else
      let* (_, w') := select_buffer al w (index + 1) in Ok w'
  | None => Ok w
  end.

(** [current_buffer_tokens], workspace.rs:330-342. *)
Definition current_buffer_tokens (w : workspace) : res (result token_set) :=
  match w_current w with
  | None => Ok (RErr EmptyWorkspace)
  | Some b =>
    let* data := buf_data b in
    match b_syntax b with
    | None => Ok (RErr MissingSyntax)
    | Some s => Ok (ROk (TS data s))
    end
  end.

(** [buffer_paths], workspace.rs:373-387. *)
Definition buffer_paths (w : workspace) : list (option path) :=
  map (fun '(i, b) =>
         match w_index w with
         | Some k => if k =? i then current_buffer_path w else relative_path w b
         | None => relative_path w b
         end)
      (combine (seq 0 (length (w_buffers w))) (w_buffers w)).
