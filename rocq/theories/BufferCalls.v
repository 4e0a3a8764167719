(** Calls of the buffer API, and what each of them does to a buffer and the
    disk. *)
From Verif Require Import Base Utf8 Grapheme Position GapBuffer Cursor PathModel Buffer
  Spec CursorSpec CursorCalls.

Inductive bcall :=
| BInsert (data : text)                     (* insert *)
| BDelete                                   (* delete *)
| BDeleteRange (p q : position)             (* delete_range(Range::new(p, q)) *)
| BReplace (content : text)                 (* replace *)
| BUndo | BRedo
| BStartGroup | BEndGroup                   (* start_/end_operation_group *)
| BMove (m : cmove)                         (* buffer.cursor.move_... *)
| BCursor (p : position)                    (* assignment to the cursor's position *)
| BSave (w : write_outcome) | BReload
| BSetPath (p : option path)                (* assignments to public fields *)
| BSetId (i : option nat)
| BSetSyntax (s : option syntax)
| BSetCallback (on : bool)
| BDisk (f : fsys).                         (* something else changes the disk *)

(** What a call returns. *)
Inductive bout := BUnit | BResult (r : result unit).

Definition bexec (brk : brk_rule) (al : allocator) (c : bcall) (b : buffer) (f : fsys)
  : res (bout * buffer * fsys) :=
  match c with
  | BInsert d => let* b' := buf_insert brk al b d in Ok (BUnit, b', f)
  | BDelete => let* b' := buf_delete brk al b in Ok (BUnit, b', f)
  | BDeleteRange p q => let* b' := buf_delete_range brk al b (range_new p q) in Ok (BUnit, b', f)
  | BReplace s => let* b' := buf_replace brk al b s in Ok (BUnit, b', f)
  | BUndo => let* b' := buf_undo brk al b in Ok (BUnit, b', f)
  | BRedo => let* b' := buf_redo brk al b in Ok (BUnit, b', f)
  | BStartGroup => Ok (BUnit, start_group b, f)
  | BEndGroup => Ok (BUnit, end_group b, f)
  | BMove m => let* c' := cexec brk (b_data b) m (b_cursor b) in Ok (BUnit, set_cursor b c', f)
  | BCursor p => Ok (BUnit, set_cursor b (Cur p (c_sticky (b_cursor b))), f)
  | BSave w => let* (r, b', f') := buf_save f w b in Ok (BResult r, b', f')
  | BReload => let* (r, b') := buf_reload brk al f b in Ok (BResult r, b', f)
  | BSetPath p => Ok (BUnit, set_path b p, f)
  | BSetId i => Ok (BUnit, set_id b i, f)
  | BSetSyntax s => Ok (BUnit, set_syntax b s, f)
  | BSetCallback on => Ok (BUnit, set_callback b on, f)
  | BDisk f' => Ok (BUnit, b, f')
  end.

(** Sequences of calls, each with its own allocator behaviour. *)
Fixpoint brun (brk : brk_rule) (cs : list (allocator * bcall)) (b : buffer) (f : fsys)
  : res (list bout * buffer * fsys) :=
  match cs with
  | [] => Ok ([], b, f)
  | (al, c) :: cs' =>
    let* (o, b1, f1) := bexec brk al c b f in
    let* (os, b2, f2) := brun brk cs' b1 f1 in
    Ok (o :: os, b2, f2)
  end.

(** Undoing and redoing repeatedly. *)
Fixpoint undos (brk : brk_rule) (als : list allocator) (b : buffer) : res buffer :=
  match als with
  | [] => Ok b
  | al :: als' => let* b' := buf_undo brk al b in undos brk als' b'
  end.
Fixpoint redos (brk : brk_rule) (als : list allocator) (b : buffer) : res buffer :=
  match als with
  | [] => Ok b
  | al :: als' => let* b' := buf_redo brk al b in redos brk als' b'
  end.

(** Rust strings are valid text. *)
Definition call_ok (c : bcall) : Prop :=
  match c with BInsert d | BReplace d => valid_text d | _ => True end.

(** Buffers that some sequence of calls produces from a new buffer or one loaded
    from a file, with the disk they leave. *)
Definition fresh_buffer (f : fsys) (b : buffer) : Prop :=
  (exists al, buffer_new al = Ok b) \/ (exists al p, from_file al f p = Ok (ROk b)).
Definition reachable_buffer (brk : brk_rule) (b : buffer) (f : fsys) : Prop :=
  exists b0 f0 cs os, fresh_buffer f0 b0 /\
    Forall (fun ac => alloc_ok (fst ac) /\ call_ok (snd ac)) cs /\
    brun brk cs b0 f0 = Ok (os, b, f).

(** The first [n] lines of two texts agree, also in the newlines that end them. *)
Definition same_lines (n : nat) (t t' : text) : Prop :=
  firstn n (full_lines t) = firstn n (full_lines t').

(** Everything but the modified flag is as before. *)
Definition only_mark_changed (b b' : buffer) : Prop :=
  b_data b' = b_data b /\ b_cursor b' = b_cursor b /\ b_path b' = b_path b /\ b_id b' = b_id b /\
  b_syntax b' = b_syntax b /\ b_group b' = b_group b /\ b_log b' = b_log b /\
  b_callback b' = b_callback b /\ h_previous (b_history b') = h_previous (b_history b) /\
  h_next (b_history b') = h_next (b_history b).

(** Two paths lead to the same place. *)
Definition same_file (f : fsys) (p q : path) : Prop := fs_target f p = fs_target f q.
(** Targets are names without links: they lead to themselves. *)
Definition links_settle (f : fsys) : Prop :=
  forall p q, fs_target f p = Some q -> fs_target f q = Some q.
(** The call neither gives the buffer another path nor lets others change the disk. *)
Definition stays_put (c : bcall) : Prop :=
  match c with BSetPath _ | BDisk _ => False | _ => True end.

(** Where a replaced text leaves the cursor, given which positions it has. *)
Definition kept_cursor (ok : position -> bool) (p : position) : position :=
  if ok p then p else if ok (Pos (line p) 0) then Pos (line p) 0 else Pos 0 0.

(** The call does not give the buffer a path. *)
Definition no_path (c : bcall) : Prop := match c with BSetPath (Some _) => False | _ => True end.

(** Calls after which the cursor is sure to be in the text. *)
Definition keeps_cursor (c : bcall) : bool :=
  match c with BDeleteRange _ _ | BUndo | BRedo | BCursor _ => false | _ => true end.
