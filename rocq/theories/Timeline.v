(** Specification of a buffer's text, undo history and modified flag: a
    timeline of texts.  A state is a text and whether it is the one last
    synchronised with the disk. *)
From Verif Require Import Base Utf8 Grapheme Position GapBuffer Cursor PathModel Buffer
  Spec BufferCalls.

Definition state := (text * bool)%type.

(** [past]: latest first; [future]: next first.  [group]: no open group, an open
    group without edits, or an open group and the state before its first edit. *)
Record timeline := TL {
  past : list state;
  now : state;
  future : list state;
  group : option (option state);
  synced : option text }.      (* the text last loaded or saved *)

Definition tl_text (tl : timeline) : text := fst (now tl).

(** An edit. *)
Definition tl_edit (tl : timeline) (t : text) : timeline :=
  match group tl with
  | None => TL (now tl :: past tl) (t, false) [] None (synced tl)
  | Some None => TL (past tl) (t, false) (future tl) (Some (Some (now tl))) (synced tl)
  | Some (Some s) => TL (past tl) (t, false) (future tl) (Some (Some s)) (synced tl)
  end.

Definition tl_undo (tl : timeline) : timeline :=
  match group tl with
  | Some (Some s) => TL (past tl) s (future tl) None (synced tl)
  | _ => match past tl with
         | s :: ps => TL ps s (now tl :: future tl) None (synced tl)
         | [] => TL [] (now tl) (future tl) None (synced tl)
         end
  end.

Definition tl_redo (tl : timeline) : timeline :=
  match future tl with
  | s :: fs => TL (now tl :: past tl) s fs (group tl) (synced tl)
  | [] => tl
  end.

Definition tl_start (tl : timeline) : timeline :=
  match group tl with
  | None => TL (past tl) (now tl) (future tl) (Some None) (synced tl)
  | Some _ => tl
  end.

Definition tl_end (tl : timeline) : timeline :=
  match group tl with
  | Some (Some s) => TL (s :: past tl) (now tl) [] None (synced tl)
  | _ => TL (past tl) (now tl) (future tl) None (synced tl)
  end.

(** The present becomes the one state in sync with the disk. *)
Definition unsync (s : state) : state := (fst s, false).
Definition tl_sync (tl : timeline) : timeline :=
  TL (map unsync (past tl)) (fst (now tl), true) (map unsync (future tl)) (group tl)
     (Some (tl_text tl)).

Definition tl_replace (tl : timeline) (s : text) : timeline :=
  if list_eq_dec N.eq_dec s (tl_text tl) then tl else tl_edit tl s.

(** The end of the char at a position: the next column, or the next line. *)
Definition char_end (brk : brk_rule) (t : text) (p : position) : position :=
  if exists_at brk t (Pos (line p) (offset p + 1)) then Pos (line p) (offset p + 1)
  else Pos (line p + 1) 0.

(** The text after an edit made at the given cursor position. *)
Definition edited (brk : brk_rule) (c : bcall) (cur : position) (t : text) : text :=
  match c with
  | BInsert d => spec_insert brk t d cur
  | BDelete => spec_delete brk t cur (char_end brk t cur)
  | BDeleteRange p q => spec_delete brk t p q
  | BReplace s => s
  | _ => t
  end.

(** What a call does to the timeline, given the cursor position and the file
    contents it sees, and the result it returned. *)
Definition tl_step (brk : brk_rule) (c : bcall) (cur : position) (file : option text) (o : bout)
           (tl : timeline) : timeline :=
  match c with
  | BInsert _ | BDelete | BDeleteRange _ _ => tl_edit tl (edited brk c cur (tl_text tl))
  | BReplace s => tl_replace tl s
  | BUndo => tl_undo tl
  | BRedo => tl_redo tl
  | BStartGroup => tl_start tl
  | BEndGroup => tl_end tl
  | BSave _ => match o with BResult (ROk _) => tl_sync tl | _ => tl end
  | BReload => match o, file with
               | BResult (ROk _), Some s => tl_sync (tl_replace tl s)
               | _, _ => tl
               end
  | _ => tl
  end.

(** The calls for which the buffer promises to follow the timeline.
    First, its texts: clusters do not merge. *)
Definition clean_edit (brk : brk_rule) (c : bcall) (cur : position) (file : option text)
           (t : text) : Prop :=
  match c with
  | BInsert d => clean_call brk (GInsert d cur) t
  | BDelete => clean_call brk (GDelete cur (char_end brk t cur)) t
  | BDeleteRange p q => clean_call brk (GDelete p q) t
  | BReplace s => valid_text s /\ plain_newlines brk s
  | BReload => forall s, file = Some s -> plain_newlines brk s
  | _ => True
  end.

(** Second, its circumstances: no redo or save in the middle of a group that has
    edits, no reload in an open group, and no [delete_range] whose end does not
    exist (unless it deletes nothing). *)
Definition no_edits_open (tl : timeline) : Prop := forall s, group tl <> Some (Some s).
Definition allowed (brk : brk_rule) (c : bcall) (tl : timeline) : Prop :=
  match c with
  | BDeleteRange p q =>
    exists_at brk (tl_text tl) (second_of p q) = true
    \/ spec_delete brk (tl_text tl) p q = tl_text tl
  | BRedo | BSave _ => no_edits_open tl
  | BReload => group tl = None
  | _ => True
  end.
Definition legal (brk : brk_rule) (c : bcall) (cur : position) (file : option text)
           (tl : timeline) : Prop :=
  clean_edit brk c cur file (tl_text tl) /\ allowed brk c tl.

(** The file contents a buffer sees at its path. *)
Definition file_of (b : buffer) (f : fsys) : option text :=
  match b_path b with Some p => read_to_string f p | None => None end.

(** Pairs of a buffer (with the disk) and its timeline, reached by legal calls
    from a new buffer or one loaded from a file. *)
Inductive session (brk : brk_rule) : buffer -> fsys -> timeline -> Prop :=
| session_new al f b :
    buffer_new al = Ok b -> session brk b f (TL [] ([], false) [] None None)
| session_file al f p b t :
    from_file al f p = Ok (ROk b) -> read_to_string f p = Some t -> plain_newlines brk t ->
    session brk b f (TL [] (t, true) [] None (Some t))
| session_step al c b f o b' f' tl :
    session brk b f tl -> alloc_ok al ->
    legal brk c (c_pos (b_cursor b)) (file_of b f) tl ->
    bexec brk al c b f = Ok (o, b', f') ->
    session brk b' f' (tl_step brk c (c_pos (b_cursor b)) (file_of b f) o tl).

(** The same, from one such pair to another by the given calls. *)
Inductive steps (brk : brk_rule)
  : list bcall -> buffer -> fsys -> timeline -> buffer -> fsys -> timeline -> Prop :=
| steps_nil b f tl : steps brk [] b f tl b f tl
| steps_cons al c cs b f tl o b1 f1 b2 f2 tl2 :
    alloc_ok al ->
    legal brk c (c_pos (b_cursor b)) (file_of b f) tl ->
    bexec brk al c b f = Ok (o, b1, f1) ->
    steps brk cs b1 f1 (tl_step brk c (c_pos (b_cursor b)) (file_of b f) o tl) b2 f2 tl2 ->
    steps brk (c :: cs) b f tl b2 f2 tl2.

(** Calls that leave text and history alone; calls that edit; calls that
    certainly do (replacing a text by itself is no edit). *)
Definition neutral (c : bcall) : bool :=
  match c with
  | BMove _ | BCursor _ | BSetPath _ | BSetId _ | BSetSyntax _ | BSetCallback _ | BDisk _ => true
  | _ => false
  end.
Definition edits (c : bcall) : bool :=
  match c with BInsert _ | BDelete | BDeleteRange _ _ | BReplace _ => true | _ => false end.
Definition inserts_or_cuts (c : bcall) : bool :=
  match c with BInsert _ | BDelete | BDeleteRange _ _ => true | _ => false end.
Definition real_edit (c : bcall) (t : text) : Prop :=
  match c with
  | BInsert _ | BDelete | BDeleteRange _ _ => True
  | BReplace s => s <> t
  | _ => False
  end.

(** Every text on the timeline has the property. *)
Definition tl_all (P : text -> Prop) (tl : timeline) : Prop :=
  Forall (fun s => P (fst s)) (past tl) /\ P (tl_text tl) /\
  Forall (fun s => P (fst s)) (future tl) /\
  match group tl with Some (Some s) => P (fst s) | _ => True end.

(** The texts a call brings in have the property. *)
Definition brings (P : text -> Prop) (c : bcall) (file : option text) : Prop :=
  match c with
  | BInsert d | BReplace d => P d
  | BReload => match file with Some s => P s | None => True end
  | _ => True
  end.
