(** What is said about several programs that use one disk in turn. *)
From Verif Require Import Base Utf8 Grapheme Position GapBuffer PathModel Buffer BufferCalls Token Workspace WorkspaceSpec Programs.

(** A program starts with a new workspace. *)
Definition started (w : workspace) : Prop := exists f p ss, ws_new f p (Some ss) = ROk w.
Definition pcall_ok (brk : brk_rule) (c : pcall) : Prop := alloc_ok (fst (snd c)) /\ wcall_ok brk (snd (snd c)).
(** The states that programs lead to. *)
Definition reached (brk : brk_rule) (ws : list workspace) (f : fsys) : Prop :=
  exists ws0 f0 cs os, Forall started ws0 /\ Forall (pcall_ok brk) cs /\ prun brk cs ws0 f0 = Ok (os, ws, f).

(** The calls of one program and what they returned. *)
Fixpoint own (k : nat) (cs : list pcall) (os : list wout) : list (allocator * wcall * wout) :=
  match cs, os with
  | (j, c) :: cs, o :: os => if Nat.eqb j k then (c, o) :: own k cs os else own k cs os
  | _, _ => []
  end.
(** The second list is the first with changes of the disk in between. *)
Inductive with_disks : list (allocator * wcall * wout) -> list (allocator * wcall * wout) -> Prop :=
| with_none : with_disks [] []
| with_call x l l' : with_disks l l' -> with_disks (x :: l) (x :: l')
| with_disk al f l l' : alloc_ok al -> with_disks l l' -> with_disks l (((al, WDisk f), WUnit) :: l').

(** What program [k] has selected. *)
Definition has_selected (ws : list workspace) (k : nat) (b : buffer) (p : path) (t : text) : Prop :=
  exists w, nth_error ws k = Some w /\ w_current w = Some b /\ b_path b = Some p /\ buf_data b = Ok t.

(** A call that may write to the file at [p]. *)
Definition may_write (f : fsys) (w : workspace) (c : wcall) (p : path) : Prop :=
  match c with
  | WDisk _ | WEdit (BDisk _) => True
  | WEdit (BSave _) => exists b q, w_current w = Some b /\ b_path b = Some q /\ same_file f q p
  | _ => False
  end.
(** During these calls nobody writes to the file at [p]. *)
Fixpoint nobody_writes (brk : brk_rule) (p : path) (cs : list pcall) (ws : list workspace) (f : fsys) : Prop :=
  match cs with
  | [] => True
  | (k, (al, c)) :: cs =>
    (forall w, nth_error ws k = Some w -> ~ may_write f w c p) /\
    forall o ws' f', pexec brk (k, (al, c)) ws f = Ok (o, ws', f') -> nobody_writes brk p cs ws' f'
  end.
(** ... after the call [c]. *)
Definition nobody_writes_after (brk : brk_rule) (p : path) (c : pcall) (cs : list pcall) (ws : list workspace) (f : fsys) : Prop :=
  forall o ws1 f1, pexec brk c ws f = Ok (o, ws1, f1) -> nobody_writes brk p cs ws1 f1.
(** What a save or a reload that succeeds returns. *)
Definition done : wout := WEdited (Some (BResult (ROk tt))).
