(** What is said about opening, reloading and saving while other programs replace
    files by renaming. *)
From Verif Require Import Base Utf8 Grapheme Position GapBuffer Cursor PathModel Buffer BufferCalls Token
  Workspace WorkspaceSpec HardLinks Saving Loading Renaming RenamingSpec Opening.

(** A call that neither reads nor writes files, and gives no buffer a path. *)
Definition no_files_asked (c : wcall) : Prop :=
  match c with
  | WAdd _ | WOpen _ | WDisk _ => False
  | WEdit (BSetPath _) | WEdit (BSave _) | WEdit BReload | WEdit (BDisk _) => False
  | _ => True
  end.

(** What other programs do: during a call, they rename new files, as programs do
    which save without truncating; between the calls, anything but removing files or
    changing links. *)
Definition nothing_removed (h h' : hdisk) : Prop :=
  hd_target h' = hd_target h /\ forall q, hd_file h q <> None -> hd_file h' q <> None.
Definition others_rename (h : hdisk) (c : icall) : Prop :=
  match c with
  | ICall c => no_files_asked c
  | IOpen _ es | IReload es => only_renames es h
  | ISave es => new_numbers es h
  | IDisk h' => nothing_removed h h'
  end.
Definition icall_ok (brk : brk_rule) (c : icall) : Prop := match c with ICall c => wcall_ok brk c | _ => True end.

(** The same call where nobody changes the disk during it. *)
Definition same_call (c : icall) (c' : wcall) : Prop :=
  match c with
  | ICall c => c' = c
  | IOpen p _ => c' = WOpen p
  | IReload _ => c' = WEdit BReload
  | ISave _ => exists r, c' = WEdit (BSave r)
  | IDisk _ => exists f, c' = WDisk f
  end.
(** The disk after what other programs did. *)
Fixpoint others_did (es : list ihappening) (h : hdisk) : hdisk :=
  match es with
  | [] => h
  | IRenamed q new bs :: es => others_did es (hd_rename h q new bs)
  | IChanged h' :: es => others_did es h'
  | _ :: es => others_did es h
  end.

(** The workspaces and disks that such sessions lead to. *)
Inductive renaming_session (brk : brk_rule) (h0 : hdisk) : workspace -> hdisk -> Prop :=
| session_new p ss w : ws_new (seen h0) p (Some ss) = ROk w -> renaming_session brk h0 w h0
| session_step w h al c o w' h' : renaming_session brk h0 w h -> alloc_ok al -> icall_ok brk c -> others_rename h c ->
    iexec brk al c w h = Ok (Some (o, w'), h') -> renaming_session brk h0 w' h'.
