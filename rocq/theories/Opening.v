(** Opening, reloading and saving in a workspace, step by step, while other programs
    replace files by renaming. *)
From Verif Require Import Base Utf8 Grapheme Position GapBuffer Cursor PathModel Buffer BufferCalls Token
  Workspace WorkspaceSpec HardLinks Saving Loading Renaming.

(** [Workspace::open_buffer], workspace.rs:111-120.  [select_buffer_by_path] asks
    where the path leads at the beginning; [from_file] reads while [es] happens; its
    [canonicalize] (mod.rs:124) comes at the end of [es].  [None]: it has not
    returned.  (From the end of the load on, only what other programs do in [es]
    counts.) *)
Definition open_buffer_steps (al : allocator) (p : path) (es : list ihappening) (w : workspace) (h : hdisk)
  : res (option (result unit * workspace) * hdisk) :=
  let* (found, w1) := select_buffer_by_path al (seen h) w p in
  if (found : bool) then Ok (Some (ROk tt, w1), h)
  else
    let '(ph, h') := iloading p es (IAsking, h) in
    match iread_result ph with
    | None => Ok (None, h')
    | Some content =>
      let* r := from_file_given al content (seen h') p in
      match r with
      | RErr e => Ok (Some (RErr e, w1), h')
      | ROk b => let* w2 := add_buffer al w1 b in Ok (Some (ROk tt, w2), h')
      end
    end.

(** [Buffer::reload], mod.rs:413-425, likewise. *)
Definition reload_steps (brk : brk_rule) (al : allocator) (es : list ihappening) (b : buffer) (h : hdisk)
  : res (option (result unit * buffer) * hdisk) :=
  match b_path b with
  | None => Ok (Some (RErr MissingPath, b), h)
  | Some p =>
    let '(ph, h') := iloading p es (IAsking, h) in
    match iread_result ph with
    | None => Ok (None, h')
    | Some content => let* x := reload_given brk al content b in Ok (Some x, h')
    end
  end.

(** [Buffer::save], mod.rs:180-196, likewise. *)
Definition save_steps (es : list shappening) (b : buffer) (h : hdisk) : res (option (result unit * buffer) * hdisk) :=
  match b_path b with
  | None => Ok (Some (RErr IoError, b), h)
  | Some p =>
    let* data := buf_data b in
    let '(ph, h') := isaving p (enc data) es (SOpening, h) in
    match ianswer ph with
    | None => Ok (None, h')
    | Some (ROk _) => Ok (Some (ROk tt, set_history b (hist_mark (b_history b))), h')
    | Some (RErr e) => Ok (Some (RErr e, b), h')
    end
  end.

(** Sessions: calls that neither read nor write files; opens; reloads and saves of
    the current buffer; and what other programs do between the calls. *)
Inductive icall := ICall (c : wcall) | IOpen (p : path) (es : list ihappening) | IReload (es : list ihappening)
  | ISave (es : list shappening) | IDisk (h : hdisk).
Definition on_current (w : workspace) (h : hdisk) (call : buffer -> res (option (result unit * buffer) * hdisk))
  : res (option (wout * workspace) * hdisk) :=
  match w_current w with
  | None => Ok (Some (WEdited None, w), h)
  | Some b =>
    let* (o, h') := call b in
    Ok (match o with
        | None => None
        | Some (r, b') => Some (WEdited (Some (BResult r)),
            WS (w_path w) (w_buffers w) (w_next_id w) (Some b') (w_index w) (w_syntaxes w))
        end, h')
  end.
Definition iexec (brk : brk_rule) (al : allocator) (c : icall) (w : workspace) (h : hdisk)
  : res (option (wout * workspace) * hdisk) :=
  match c with
  | ICall c => let* (o, w', _) := wexec brk al c w (seen h) in Ok (Some (o, w'), h)
  | IOpen p es =>
    let* (o, h') := open_buffer_steps al p es w h in
    Ok (match o with None => None | Some (r, w') => Some (WResult r, w') end, h')
  | IReload es => on_current w h (fun b => reload_steps brk al es b h)
  | ISave es => on_current w h (fun b => save_steps es b h)
  | IDisk h' => Ok (Some (WUnit, w), h')
  end.
