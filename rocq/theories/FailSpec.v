(** When calls fail, and with which error. *)
From Verif Require Import Base PathModel Buffer BufferCalls Workspace WorkspaceSpec.

(** The error that a call returned. *)
Definition error_of (o : wout) : option error :=
  match o with
  | WResult (RErr e) | WEdited (Some (BResult (RErr e))) => Some e
  | _ => None
  end.

(** The call cannot do what it is for, for this reason.  An open: no buffer is open
    for the file, and it cannot be read as text.  A syntax update: nothing is open.
    A save: the buffer has no path, or the file cannot be created, or a write fails.
    A reload: the buffer has no path, or the file cannot be read as text.  No other
    call has a reason to fail. *)
Definition reason (w : workspace) (f : fsys) (c : wcall) (e : error) : Prop :=
  match c with
  | WOpen p => e = IoError /\ read_to_string f p = None /\
      forall b cp, In b (open_buffers w) -> b_path b = Some cp -> fs_canon f p <> Some cp
  | WSyntax => e = EmptyWorkspace /\ open_buffers w = []
  | WEdit (BSave answer) => e = IoError /\ exists b, w_current w = Some b /\
      forall p, b_path b = Some p -> fs_creatable f p = false \/ answer <> WriteSucceeds
  | WEdit BReload => exists b, w_current w = Some b /\
      match b_path b with
      | None => e = MissingPath
      | Some p => e = IoError /\ read_to_string f p = None
      end
  | _ => False
  end.

(** The file that a call writes to. *)
Definition writes_to (w : workspace) (c : wcall) (p : path) : Prop :=
  match c with
  | WEdit (BSave _) => exists b, w_current w = Some b /\ b_path b = Some p
  | _ => False
  end.
Definition is_save (c : wcall) : bool := match c with WEdit (BSave _) => true | _ => false end.
