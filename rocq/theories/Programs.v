(** Several programs, each with a workspace, that use one disk in turn. *)
From Verif Require Import Base Utf8 Grapheme Position GapBuffer PathModel Buffer BufferCalls Token Workspace WorkspaceSpec.

(** Which program calls, and what.  Calls do not overlap here: Saving.v, Loading.v and
    Renaming.v say what happens when they do.  A change of the disk by anything else
    is a call of [WDisk]. *)
Definition pcall : Type := nat * (allocator * wcall).

Definition put_at {A} (k : nat) (x : A) (l : list A) : list A := firstn k l ++ x :: skipn (S k) l.

(** Program [k] makes a call, any of workspace.rs:52-285 or of its current buffer.
    A program that does not exist does nothing. *)
Definition pexec (brk : brk_rule) (c : pcall) (ws : list workspace) (f : fsys)
  : res (wout * list workspace * fsys) :=
  let '(k, (al, c)) := c in
  match nth_error ws k with
  | None => Ok (WUnit, ws, f)
  | Some w => let* (o, w', f') := wexec brk al c w f in Ok (o, put_at k w' ws, f')
  end.
Fixpoint prun (brk : brk_rule) (cs : list pcall) (ws : list workspace) (f : fsys)
  : res (list wout * list workspace * fsys) :=
  match cs with
  | [] => Ok ([], ws, f)
  | c :: cs =>
    let* (o, ws1, f1) := pexec brk c ws f in
    let* (os, ws2, f2) := prun brk cs ws1 f1 in
    Ok (o :: os, ws2, f2)
  end.
