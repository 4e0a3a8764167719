(** Sessions of workspaces, and texts, far from the largest machine integer. *)
From Verif Require Import Base Utf8 Grapheme Position GapBuffer PathModel Buffer BufferCalls Token TokenSpec
  Workspace WorkspaceSpec Machine MachineSpec MachineWork.

(** Added buffers are those a machine reaches; calls on them are as for C66. *)
Definition u_wcall_ok (K : nat) (brk : brk_rule) (c : wcall) : Prop :=
  match c with
  | WAdd b => exists f, u_reached K brk b f
  | WEdit c => call_ok c /\ within_machine K c
  | _ => True
  end.
(** How many calls may give out an id. *)
Fixpoint adding (cs : list (allocator * wcall)) : nat :=
  match cs with
  | [] => 0
  | (_, (WAdd _ | WOpen _)) :: cs' => S (adding cs')
  | _ :: cs' => adding cs'
  end.
Definition u_reached_workspace (K : nat) (brk : brk_rule) (w : workspace) (f : fsys) : Prop :=
  exists f0 p ss w0 cs os, ws_new f0 p (Some ss) = ROk w0 /\
    Forall (fun ac => alloc_ok (fst ac) /\ u_wcall_ok K brk (snd ac)) cs /\
    u_wrun K brk cs w0 f0 = MOk (os, w, f).

(** As [steps] (TokenSpec.v). *)
Fixpoint u_steps {I X : Type} (next : I -> mres (option X * I)) (n : nat) (it : I) : mres (list (option X) * I) :=
  match n with
  | 0 => MOk ([], it)
  | S n' => let+ (x, it1) := next it in let+ (xs, it2) := u_steps next n' it1 in MOk (x :: xs, it2)
  end.
