(** Opening files while other programs change the disk: the calls that ask the
    operating system more than once, with a disk for each question. *)
From Verif Require Import Base Utf8 Grapheme Position GapBuffer Cursor PathModel Buffer BufferCalls Token
  Workspace WorkspaceSpec.

(** [Buffer::from_file], mod.rs:113-137: [fs::read_to_string] (line 115) sees
    [f1], [canonicalize] (line 124) sees [f2]. *)
Definition from_file_racing (al : allocator) (f1 f2 : fsys) (p : path) : res (result buffer) :=
  match read_to_string f1 p with
  | None => Ok (RErr IoError)
  | Some content =>
    let* g := gb_new al content in
    match fs_canon f2 p with
    | None => Ok (RErr IoError)
    | Some cp =>
      Ok (ROk (Buf None g (Some cp) (cursor_new (Pos 0 0)) (hist_mark hist_new)
                   None None false []))
    end
  end.

(** [Workspace::open_buffer], workspace.rs:111-120: the [canonicalize] of
    [select_buffer_by_path] (line 469) sees [f0]. *)
Definition open_buffer_racing (al : allocator) (f0 f1 f2 : fsys) (w : workspace) (p : path)
  : res (result unit * workspace) :=
  let* (found, w1) := select_buffer_by_path al f0 w p in
  if (found : bool) then Ok (ROk tt, w1)
  else
    let* r := from_file_racing al f1 f2 p in
    match r with
    | RErr e => Ok (RErr e, w1)
    | ROk b => let* w2 := add_buffer al w1 b in Ok (ROk tt, w2)
    end.

(** Sessions.  (All other calls ask the operating system once, or, for [save],
    keep the file open.) *)
Inductive rcall := RCall (c : wcall) | ROpen (f0 f1 f2 : fsys) (p : path).
Definition rexec (brk : brk_rule) (al : allocator) (c : rcall) (w : workspace) (f : fsys)
  : res (wout * workspace * fsys) :=
  match c with
  | RCall c => wexec brk al c w f
  | ROpen f0 f1 f2 p => let* (r, w') := open_buffer_racing al f0 f1 f2 w p in Ok (WResult r, w', f2)
  end.
Definition rcall_ok (brk : brk_rule) (c : rcall) : Prop :=
  match c with RCall c => wcall_ok brk c | _ => True end.

(** Workspaces that such sessions produce; [Q] restricts the calls, given the
    workspace they are made on. *)
Inductive racing_workspace (brk : brk_rule) (Q : workspace -> rcall -> Prop) : workspace -> fsys -> Prop :=
| racing_new f p ss w : ws_new f p (Some ss) = ROk w -> racing_workspace brk Q w f
| racing_step w f al c o w' f' : racing_workspace brk Q w f -> alloc_ok al -> rcall_ok brk c -> Q w c ->
    rexec brk al c w f = Ok (o, w', f') -> racing_workspace brk Q w' f'.

(** While it is opened the path leads to one place; and if at first there is
    nothing there, no buffer is open for it. *)
Definition steady (w : workspace) (c : rcall) : Prop :=
  match c with
  | ROpen f0 f1 f2 p =>
    fs_target f0 p = fs_target f1 p /\ fs_target f1 p = fs_target f2 p /\
    (fs_canon f0 p = None -> forall b q, In b (open_buffers w) -> b_path b = Some q -> fs_target f1 p <> Some q)
  | RCall _ => True
  end.
(** The calls an open is made of are of a kind. *)
Definition moments (P : wcall -> Prop) (c : rcall) : Prop :=
  match c with
  | RCall c => P c
  | ROpen f0 f1 f2 p => P (WDisk f0) /\ P (WDisk f1) /\ P (WDisk f2) /\ P (WOpen p)
  end.
