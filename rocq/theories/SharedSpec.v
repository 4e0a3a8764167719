(** What is said about programs that share a buffer's storage. *)
From Verif Require Import Base Utf8 Grapheme Position GapBuffer Cursor PathModel Buffer
  Spec Calls CursorSpec CursorCalls BufferCalls Shared.

(** No borrow is out. *)
Definition at_rest (h : heap) : Prop := Forall (fun c => c_lease c = Free) h.

(** The buffer as Buffer.v has it: the contents of its storage in place of the
    reference, and the positions its callback was called with. *)
Definition seen (h : heap) (b : rbuffer) : option buffer :=
  match nth_error h (rb_data b) with
  | Some c => Some (Buf (rb_id b) (c_gap c) (rb_path b) (rc_at (rb_cursor b)) (rb_history b)
                        (rb_group b) (rb_syntax b)
                        (match rb_callback b with Some _ => true | None => false end)
                        (map fst (rb_log b)))
  | None => None
  end.

(** Rust strings are valid text. *)
Definition pcall_ok (c : pcall) : Prop :=
  match c with
  | PBuffer c => call_ok c
  | PStorage _ (GInsert d _) => valid_text d
  | _ => True
  end.

(** Calls that neither assign the buffer's cursor nor write its storage behind its
    back. *)
Definition ordinary (c : pcall) : Prop :=
  match c with
  | PAssign _ | PStorage _ (GInsert _ _) | PStorage _ (GDelete _ _) => False
  | _ => True
  end.

(** Calls that do not replace the whole text. *)
Definition in_place (c : pcall) : Prop :=
  match c with PBuffer (BReplace _) | PBuffer BReload => False | _ => True end.

(** The calls of a program on the buffer itself, and their results. *)
Fixpoint buffer_calls (cs : list (allocator * pcall)) : list (allocator * bcall) :=
  match cs with
  | [] => []
  | (al, PBuffer c) :: cs' => (al, c) :: buffer_calls cs'
  | _ :: cs' => buffer_calls cs'
  end.
Fixpoint buffer_outs (os : list pout) : list bout :=
  match os with
  | [] => []
  | PBout o :: os' => o :: buffer_outs os'
  | _ :: os' => buffer_outs os'
  end.

(** States of programs. *)
Definition reaches (brk : brk_rule) (ok : pcall -> Prop) (p : program) : Prop :=
  exists f p0 cs os, starts f p0 /\
    Forall (fun ac => alloc_ok (fst ac) /\ pcall_ok (snd ac) /\ ok (snd ac)) cs /\
    prun brk cs p0 = Ok (os, p).

(** The text of a storage cell. *)
Definition text_at (h : heap) (r : ref) : res text :=
  match nth_error h r with Some c => gb_to_string (c_gap c) | None => Panic end.

(** The buffer of a program, and its text. *)
Definition buffer_of (p : program) : option buffer := seen (pr_heap p) (pr_buffer p).
Definition ptext (p : program) : res text := text_at (pr_heap p) (rb_data (pr_buffer p)).

(** Not a call on the buffer itself. *)
Definition aside (c : pcall) : Prop := match c with PBuffer _ => False | _ => True end.
(** Not an assignment of the callback. *)
Definition keeps_callback (c : bcall) : Prop := match c with BSetCallback _ => False | _ => True end.
(** Calls that neither replace the whole text nor go through the history. *)
Definition editing (c : pcall) : Prop :=
  match c with
  | PBuffer (BReplace _) | PBuffer BReload | PBuffer BUndo | PBuffer BRedo => False
  | _ => True
  end.
