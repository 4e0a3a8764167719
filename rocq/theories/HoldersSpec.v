(** What is said about the storages that something still holds, and so about the
    memory that can be freed: an [Rc] frees its storage when the last handle goes. *)
From Verif Require Import Base Utf8 Grapheme Position GapBuffer Cursor PathModel Buffer
  Spec Calls CursorSpec CursorCalls BufferCalls Token Workspace WorkspaceSpec Shared SharedSpec World WorldSpec Desk DeskSpec.

(** A buffer holds its storage, the one its cursor is on, and those of which its
    change callback has handles. *)
Definition buffer_holds (code : closures) (b : rbuffer) (r : ref) : Prop :=
  rb_data b = r \/ rc_data (rb_cursor b) = r \/ exists n, rb_callback b = Some n /\ closure_uses code n r.
(** The fields of the workspace, the buffers, the cursors and the kept borrows of
    the program. *)
Definition in_workspace (ws : rworkspace) (b : rbuffer) : Prop := In b (rw_buffers ws) \/ rw_current ws = Some b.
Definition holds (code : closures) (s : desk) (r : ref) : Prop :=
  (exists b, (in_workspace (d_ws s) b \/ In b (wo_buffers (d_world s))) /\ buffer_holds code b r) \/
  (exists k, In k (wo_cursors (d_world s)) /\ rc_data k = r) \/
  guarded (d_world s) r.

(** A program can give a closure only handles on storages that something holds. *)
Definition hands_over (code : closures) (s : desk) (c : dcall) : Prop :=
  match c with
  | DCallback n | DWorld (NCallback _ n) => forall r, closure_uses code n r -> holds code s r
  | _ => True
  end.

(** What a program comes to from a state. *)
Inductive later (brk : brk_rule) (code : closures) (s : desk) : desk -> Prop :=
| later_now : later brk code s s
| later_call s1 al c o s2 : later brk code s s1 -> alloc_ok al -> dcall_ok code s1 c -> hands_over code s1 c ->
    dexec brk code al c s1 = Ok (o, s2) -> later brk code s s2.

(** Programs that neither make handles of their own nor give callbacks any. *)
Definition modest (c : dcall) : Prop :=
  match c with
  | DClone | DAssign _ | DCallback _ => False
  | DWorld (NCallback _ _) | DWorld (NClone _) | DWorld (NAssign _ _) | DWorld (NStorage _ _) | DWorld (NHold _ _) => False
  | _ => True
  end.

(** While a buffer is current, the workspace keeps another one in its slot. *)
Definition placeholder (s : desk) (b : rbuffer) : Prop :=
  exists i, d_index s = Some i /\ nth_error (rw_buffers (d_ws s)) i = Some b.

(** What the program can get at: the buffers that are open and its own, its cursors
    and its kept borrows; the workspace keeps the buffer in the slot to itself. *)
Definition in_reach (code : closures) (s : desk) (r : ref) : Prop :=
  (exists b, In b (d_lineup s ++ wo_buffers (d_world s)) /\ buffer_holds code b r) \/
  (exists k, In k (wo_cursors (d_world s)) /\ rc_data k = r) \/
  guarded (d_world s) r.
(** Programs whose closures have handles only on what the program could get at. *)
Definition gives (code : closures) (s : desk) (c : dcall) : Prop :=
  match c with
  | DCallback n | DWorld (NCallback _ n) => forall r, closure_uses code n r -> in_reach code s r
  | _ => True
  end.
Inductive honest (brk : brk_rule) (code : closures) : desk -> Prop :=
| honest_new f p ss ws : rws_new f p (Some ss) = ROk ws -> honest brk code (Desk (World [] [] [] [] f) ws)
| honest_call s al c o s' : honest brk code s -> alloc_ok al -> dcall_ok code s c -> gives code s c ->
    dexec brk code al c s = Ok (o, s') -> honest brk code s'.
