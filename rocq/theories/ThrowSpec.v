(** What is said about change callbacks that panic. *)
From Verif Require Import Base Utf8 Grapheme Position GapBuffer Cursor PathModel Buffer BufferCalls Throwing.

(** The edits that an operation consists of: those of a group, in order, or itself. *)
Fixpoint parts (op : operation) : list operation :=
  match op with
  | OpGroup ops => flat_map parts ops
  | _ => [op]
  end.

(** The operation that [undo] reverses, and the one that [redo] runs. *)
Definition to_undo (b : buffer) : option operation :=
  match b_group b with
  | Some (o :: ops) => Some (OpGroup (o :: ops))
  | _ => hd_error (h_previous (b_history b))
  end.
Definition to_redo (b : buffer) : option operation := hd_error (h_next (b_history b)).

(** [b1], with the history, the open group and so the answer of [modified] of [b]. *)
Definition forgetting (b b1 : buffer) : buffer := set_group (set_history b1 (b_history b)) (b_group b).

(** Everything but the text, the cursor and the announcements is the same. *)
Definition same_records (b b' : buffer) : Prop :=
  b_history b' = b_history b /\ b_group b' = b_group b /\ b_id b' = b_id b /\ b_path b' = b_path b /\
  b_syntax b' = b_syntax b /\ b_callback b' = b_callback b.

(** Calls that edit, other than [undo] and [redo]. *)
Definition editing (c : bcall) : bool :=
  match c with BInsert _ | BDelete | BDeleteRange _ _ | BReplace _ | BReload => true | _ => false end.
Definition history_call (c : bcall) : bool := match c with BUndo | BRedo => true | _ => false end.

(** Buffers that calls produce whose callbacks may panic. *)
Definition usable (cs : list (allocator * nat * bcall)) : Prop :=
  Forall (fun x => alloc_ok (fst (fst x)) /\ call_ok (snd x)) cs.
Definition usable_buffer (brk : brk_rule) (b : buffer) (f : fsys) : Prop :=
  exists b0 f0 cs os, fresh_buffer f0 b0 /\ usable cs /\ brun_t brk cs b0 f0 = Ok (os, b, f).

(** What the program has got from its calls, the text and the answer of [modified]. *)
Definition seen (r : res (list (option bout) * buffer * fsys)) : option (list (option bout) * text * bool) :=
  match r with
  | Ok (os, b, _) => match buf_data b with Ok t => Some (os, t, buf_modified b) | Panic => None end
  | Panic => None
  end.
