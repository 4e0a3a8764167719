(** Specification of a whole buffer: everything a user can observe, computed
    without looking at the code.  It extends the timeline of texts with the
    cursor, the announced positions, the public fields and the disk. *)
From Verif Require Import Base Utf8 Grapheme Position GapBuffer Cursor PathModel Buffer
  Spec CursorSpec CursorCalls BufferCalls Timeline.

(** What the history remembers of an edit besides the texts before and after. *)
Inductive change :=
| Inserted (p : position)                  (* text was inserted at [p] *)
| Removed (p : position) (back : bool)     (* from [p] on; can it be put back? *)
| Swapped (old new : text).                (* the whole text was replaced *)

(** The positions announced when it is made (again) and when it is undone. *)
Definition origin : position := Pos 0 0.
Definition said (c : change) : list position :=
  match c with Inserted p | Removed p _ => [p] | Swapped _ _ => [origin] end.
Definition said_back (c : change) : list position :=
  match c with
  | Inserted p => [p]
  | Removed p back => if back then [p] else []
  | Swapped _ _ => [origin]
  end.

(** The cursor afterwards: only replacing the whole text moves it. *)
Definition keep (brk : brk_rule) (t : text) (c : spec_cursor) : spec_cursor :=
  go (kept_cursor (exists_at brk t) (at_pos c)).
Definition moved (brk : brk_rule) (c : change) (cur : spec_cursor) : spec_cursor :=
  match c with Swapped _ new => keep brk new cur | _ => cur end.
Definition moved_back (brk : brk_rule) (c : change) (cur : spec_cursor) : spec_cursor :=
  match c with Swapped old _ => keep brk old cur | _ => cur end.

(** [ed_undo] and [ed_redo] go with the past and the future of the timeline (each
    element lists the changes, in order, that one undo or redo covers); [ed_open]
    holds the changes of the open group. *)
Record editor := Ed {
  ed_time : timeline;
  ed_undo : list (list change);
  ed_redo : list (list change);
  ed_open : list change;
  ed_cursor : spec_cursor;
  ed_path : option path;
  ed_id : option nat;
  ed_syntax : option syntax;
  ed_listening : bool;           (* is there a change callback? *)
  ed_heard : list position;      (* what it was told *)
  ed_disk : fsys }.

Definition ed_text (e : editor) : text := tl_text (ed_time e).
Definition ed_file (e : editor) : option text :=
  match ed_path e with Some p => read_to_string (ed_disk e) p | None => None end.

(** The flag of the present, or of the state before the open group's edits. *)
Definition ed_modified (e : editor) : bool :=
  negb (snd match group (ed_time e) with Some (Some s) => s | _ => now (ed_time e) end).

Definition heard (e : editor) (ps : list position) : list position :=
  if ed_listening e then ed_heard e ++ ps else ed_heard e.

(** Changing some of the parts. *)
Definition with_time (e : editor) (tl : timeline) : editor :=
  Ed tl (ed_undo e) (ed_redo e) (ed_open e) (ed_cursor e) (ed_path e) (ed_id e)
     (ed_syntax e) (ed_listening e) (ed_heard e) (ed_disk e).
Definition with_cursor (e : editor) (c : spec_cursor) : editor :=
  Ed (ed_time e) (ed_undo e) (ed_redo e) (ed_open e) c (ed_path e) (ed_id e)
     (ed_syntax e) (ed_listening e) (ed_heard e) (ed_disk e).
Definition with_disk (e : editor) (f : fsys) : editor :=
  Ed (ed_time e) (ed_undo e) (ed_redo e) (ed_open e) (ed_cursor e) (ed_path e) (ed_id e)
     (ed_syntax e) (ed_listening e) (ed_heard e) f.
Definition with_changes (e : editor) (u r : list (list change)) (o : list change) : editor :=
  Ed (ed_time e) u r o (ed_cursor e) (ed_path e) (ed_id e)
     (ed_syntax e) (ed_listening e) (ed_heard e) (ed_disk e).
Definition tell (e : editor) (ps : list position) : editor :=
  Ed (ed_time e) (ed_undo e) (ed_redo e) (ed_open e) (ed_cursor e) (ed_path e) (ed_id e)
     (ed_syntax e) (ed_listening e) (heard e ps) (ed_disk e).

(** An edit: the new text, and the change to remember. *)
Definition ed_edit (brk : brk_rule) (e : editor) (t : text) (c : change) : editor :=
  let e1 := match group (ed_time e) with
            | None => with_changes e ([c] :: ed_undo e) [] []
            | Some _ => with_changes e (ed_undo e) (ed_redo e) (ed_open e ++ [c])
            end in
  tell (with_cursor (with_time e1 (tl_edit (ed_time e) t)) (moved brk c (ed_cursor e))) (said c).
Definition ed_replace (brk : brk_rule) (e : editor) (s : text) : editor :=
  if list_eq_dec N.eq_dec s (ed_text e) then e else ed_edit brk e s (Swapped (ed_text e) s).
Definition ed_remove (brk : brk_rule) (e : editor) (p q : position) : editor :=
  ed_edit brk e (spec_delete brk (ed_text e) p q)
    (Removed (first_of p q) (exists_at brk (ed_text e) p && exists_at brk (ed_text e) q)).

(** Undoing takes back the changes of the open group if there are any, last
    first, and else those of the last step of the past. *)
Definition take_back (brk : brk_rule) (e : editor) (cs : list change) : editor :=
  tell (with_cursor e (fold_right (moved_back brk) (ed_cursor e) cs))
       (flat_map said_back (rev cs)).
Definition ed_undo_step (brk : brk_rule) (e : editor) : editor :=
  let e1 := with_time e (tl_undo (ed_time e)) in
  match group (ed_time e), ed_undo e with
  | Some (Some _), _ => take_back brk (with_changes e1 (ed_undo e) (ed_redo e) []) (ed_open e)
  | _, cs :: us => take_back brk (with_changes e1 us (cs :: ed_redo e) []) cs
  | _, [] => e1
  end.
Definition ed_redo_step (brk : brk_rule) (e : editor) : editor :=
  match ed_redo e with
  | [] => e
  | cs :: rs =>
    tell (with_cursor (with_changes (with_time e (tl_redo (ed_time e))) (cs :: ed_undo e) rs (ed_open e))
            (fold_left (fun cur c => moved brk c cur) cs (ed_cursor e)))
         (flat_map said cs)
  end.
Definition ed_end_group (e : editor) : editor :=
  let e1 := with_time e (tl_end (ed_time e)) in
  match group (ed_time e) with
  | Some (Some _) => with_changes e1 (ed_open e :: ed_undo e) [] []
  | _ => e1
  end.

(** One call. *)
Definition ed_call (brk : brk_rule) (c : bcall) (e : editor) : bout * editor :=
  match c with
  | BInsert d =>
    (BUnit, ed_edit brk e (spec_insert brk (ed_text e) d (at_pos (ed_cursor e)))
                    (Inserted (at_pos (ed_cursor e))))
  | BDelete =>
    (BUnit, ed_remove brk e (at_pos (ed_cursor e)) (char_end brk (ed_text e) (at_pos (ed_cursor e))))
  | BDeleteRange p q => (BUnit, ed_remove brk e p q)
  | BReplace s => (BUnit, ed_replace brk e s)
  | BUndo => (BUnit, ed_undo_step brk e)
  | BRedo => (BUnit, ed_redo_step brk e)
  | BStartGroup => (BUnit, with_time e (tl_start (ed_time e)))
  | BEndGroup => (BUnit, ed_end_group e)
  | BMove m => (BUnit, with_cursor e (spec_move brk (ed_text e) m (ed_cursor e)))
  | BCursor p => (BUnit, with_cursor e (SC p (wish (ed_cursor e))))
  | BSave w =>
    match ed_path e with
    | None => (BResult (RErr IoError), e)
    | Some p =>
      match outcome (ed_disk e) p w with
      | CreateFails => (BResult (RErr IoError), e)
      | WriteFails k =>
        (BResult (RErr IoError), with_disk e (fs_write (ed_disk e) p (firstn k (enc (ed_text e)))))
      | WriteSucceeds =>
        (BResult (ROk tt),
         with_disk (with_time e (tl_sync (ed_time e))) (fs_write (ed_disk e) p (enc (ed_text e))))
      end
    end
  | BReload =>
    match ed_path e, ed_file e with
    | None, _ => (BResult (RErr MissingPath), e)
    | Some _, None => (BResult (RErr IoError), e)
    | Some _, Some s =>
      let e' := ed_replace brk e s in
      (BResult (ROk tt), with_time e' (tl_sync (ed_time e')))
    end
  | BSetPath p =>
    (BUnit, Ed (ed_time e) (ed_undo e) (ed_redo e) (ed_open e) (ed_cursor e) p (ed_id e)
               (ed_syntax e) (ed_listening e) (ed_heard e) (ed_disk e))
  | BSetId i =>
    (BUnit, Ed (ed_time e) (ed_undo e) (ed_redo e) (ed_open e) (ed_cursor e) (ed_path e) i
               (ed_syntax e) (ed_listening e) (ed_heard e) (ed_disk e))
  | BSetSyntax s =>
    (BUnit, Ed (ed_time e) (ed_undo e) (ed_redo e) (ed_open e) (ed_cursor e) (ed_path e) (ed_id e)
               s (ed_listening e) (ed_heard e) (ed_disk e))
  | BSetCallback on =>
    (BUnit, Ed (ed_time e) (ed_undo e) (ed_redo e) (ed_open e) (ed_cursor e) (ed_path e) (ed_id e)
               (ed_syntax e) on (ed_heard e) (ed_disk e))
  | BDisk f => (BUnit, with_disk e f)
  end.
Fixpoint ed_run (brk : brk_rule) (cs : list bcall) (e : editor) : list bout * editor :=
  match cs with
  | [] => ([], e)
  | c :: cs' =>
    let '(o, e1) := ed_call brk c e in
    let '(os, e2) := ed_run brk cs' e1 in
    (o :: os, e2)
  end.

(** The calls covered, in terms of the specification alone. *)
Definition ed_legal (brk : brk_rule) (c : bcall) (e : editor) : Prop :=
  legal brk c (at_pos (ed_cursor e)) (ed_file e) (ed_time e).
Fixpoint ed_legals (brk : brk_rule) (cs : list bcall) (e : editor) : Prop :=
  match cs with
  | [] => True
  | c :: cs' => ed_legal brk c e /\ ed_legals brk cs' (snd (ed_call brk c e))
  end.

(** The same when every text brought in has a property that makes edits clean. *)
Fixpoint ed_simples (P : text -> Prop) (brk : brk_rule) (cs : list bcall) (e : editor) : Prop :=
  match cs with
  | [] => True
  | c :: cs' => brings P c (ed_file e) /\ allowed brk c (ed_time e) /\
                ed_simples P brk cs' (snd (ed_call brk c e))
  end.

(** The positions a call announces, given the cursor, the text and the file it
    sees; [None]: it depends on the history ([undo] and [redo]). *)
Definition announced (c : bcall) (cur : position) (t : text) (file : option text)
  : option (list position) :=
  match c with
  | BInsert _ | BDelete => Some [cur]
  | BDeleteRange p q => Some [first_of p q]
  | BReplace s => Some (if list_eq_dec N.eq_dec s t then [] else [origin])
  | BReload => Some (match file with
                     | Some s => if list_eq_dec N.eq_dec s t then [] else [origin]
                     | None => [] end)
  | BUndo | BRedo => None
  | _ => Some []
  end.

(** Calls that leave the cursor alone, whatever the text and the history. *)
Definition cursor_stays (c : bcall) : bool :=
  match c with
  | BReplace _ | BReload | BUndo | BRedo | BMove _ | BCursor _ => false
  | _ => true
  end.

(** A new editor, and one for a file. *)
Definition ed_new (f : fsys) : editor :=
  Ed (TL [] ([], false) [] None None) [] [] [] (go origin) None None None false [] f.
Definition ed_open_file (f : fsys) (p : path) (t : text) : editor :=
  Ed (TL [] (t, true) [] None (Some t)) [] [] [] (go origin) (Some p) None None false [] f.

(** A fresh buffer and its editor. *)
Definition ed_start (brk : brk_rule) (b : buffer) (e : editor) : Prop :=
  (exists al, buffer_new al = Ok b /\ e = ed_new (ed_disk e)) \/
  (exists al p cp t, from_file al (ed_disk e) p = Ok (ROk b) /\ plain_newlines brk t /\
     read_to_string (ed_disk e) p = Some t /\ fs_canon (ed_disk e) p = Some cp /\
     e = ed_open_file (ed_disk e) cp t).

(** All that can be seen of a buffer is what the editor says. *)
Record looks (brk : brk_rule) (b : buffer) (e : editor) : Prop := Looks {
  looks_text : buf_data b = Ok (ed_text e);
  looks_read : forall p q, buf_read brk b (range_new p q) = Ok (spec_read brk (ed_text e) p q);
  looks_in_bounds : forall p, in_bounds brk (b_data b) p = Ok (exists_at brk (ed_text e) p);
  looks_line_count : buf_line_count b = Ok (length (lines_of (ed_text e)));
  looks_modified : buf_modified b = ed_modified e;
  looks_cursor : view (b_cursor b) = ed_cursor e;
  looks_path : b_path b = ed_path e;
  looks_id : b_id b = ed_id e;
  looks_syntax : b_syntax b = ed_syntax e;
  looks_callback : b_callback b = ed_listening e;
  looks_heard : b_log b = ed_heard e }.
