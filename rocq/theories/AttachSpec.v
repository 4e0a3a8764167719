(** What is said about clones of a cursor and callbacks after the whole text of
    the buffer has been replaced. *)
From Verif Require Import Base Utf8 Grapheme Position GapBuffer Cursor PathModel Buffer
  Spec Calls CursorSpec CursorCalls BufferCalls Shared SharedSpec.

(** An operation of the history that replaces the whole text, or a group with
    such an operation in it. *)
Fixpoint has_replace (op : operation) : bool :=
  match op with
  | OpReplace _ _ => true
  | OpGroup ops => existsb has_replace ops
  | OpInsert _ _ | OpDelete _ _ => false
  end.

(** What [undo] undoes: the open group if it is not empty, or else the newest
    operation done; what [redo] redoes: the newest operation undone. *)
Definition to_undo (v : buffer) : option operation :=
  match b_group v with
  | Some (o :: ops) => Some (OpGroup (o :: ops))
  | _ => hd_error (h_previous (b_history v))
  end.
Definition to_redo (v : buffer) : option operation := hd_error (h_next (b_history v)).

(** The calls that replace the whole text of the buffer [v], with the disk [f]. *)
Definition replaces (c : pcall) (v : buffer) (f : fsys) : Prop :=
  match c with
  | PBuffer (BReplace s) => buf_data v <> Ok s
  | PBuffer BReload =>
    exists q s, b_path v = Some q /\ read_to_string f q = Some s /\ buf_data v <> Ok s
  | PBuffer BUndo => exists op, to_undo v = Some op /\ has_replace op = true
  | PBuffer BRedo => exists op, to_redo v = Some op /\ has_replace op = true
  | _ => False
  end.

(** The cursor, or a handle on the storage, is on the storage of the buffer. *)
Definition attached (p : program) (r : ref) : Prop := r = rb_data (pr_buffer p).
