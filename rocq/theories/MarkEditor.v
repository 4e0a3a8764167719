(** A whole buffer for every text: the editor of Editor.v, over a marked text
    instead of a plain one.  Nothing is assumed about the texts: clusters may
    merge across edits, lines may end in "\r\n", positions may be out of bounds. *)
From Verif Require Import Base Utf8 Grapheme Position GapBuffer Cursor PathModel Buffer
  Spec CursorSpec CursorCalls BufferCalls MarkSpec Editor.

Definition has (brk : brk_rule) (m : marked) (p : position) : bool :=
  match locate brk m p with Some _ => true | None => false end.

(** ** The cursor *)

(** The lines movement looks at: a carriage return before the newline does not
    belong to the line, and an empty last line is none. *)
Definition chop (l : text) : text :=
  match rev l with c :: r => if N.eq_dec c CR then rev r else l | [] => l end.
Fixpoint seen (ls : list text) : list text :=
  match ls with
  | [] => []
  | [l] => match l with [] => [] | _ => [l] end
  | l :: ls' => chop l :: seen ls'
  end.
Definition seen_width (brk : brk_rule) (t : text) (k : nat) : option nat :=
  option_map (fun l => length (graphemes brk l)) (nth_error (seen (lines_of t)) k).
Definition width_or_zero (brk : brk_rule) (t : text) (k : nat) : nat :=
  match seen_width brk t k with Some w => w | None => 0 end.
(** The position after the last cluster. *)
Definition text_ending (brk : brk_rule) (t : text) : position :=
  fold_left (fun p g => if list_eq_dec N.eq_dec g [LF] then Pos (line p + 1) 0
                        else Pos (line p) (offset p + 1)) (graphemes brk t) (Pos 0 0).

(** Positions are looked up in the marked text, widths are those of the whole. *)
Definition m_move (brk : brk_rule) (m : marked) (v : cmove) (c : spec_cursor) : spec_cursor :=
  let l := line (at_pos c) in
  let o := offset (at_pos c) in
  let go_to p := if has brk m p then go p else c in
  let go_line k :=
    if has brk m (Pos k (wish c)) then SC (Pos k (wish c)) (wish c)
    else if has brk m (Pos k (width_or_zero brk (whole m) k))
         then SC (Pos k (width_or_zero brk (whole m) k)) (wish c)
         else c in
  match v with
  | MTo p => go_to p
  | MUp => if l =? 0 then c else go_line (l - 1)
  | MDown => go_line (l + 1)
  | MLeft => if o =? 0 then c else go_to (Pos l (o - 1))
  | MRight => go_to (Pos l (o + 1))
  | MStart => go_to (Pos l 0)
  | MEnd => match seen_width brk (whole m) l with Some w => go_to (Pos l w) | None => c end
  | MLast =>
    let e := text_ending brk (whole m) in go_to (Pos (line e) (Nat.min (wish c) (offset e)))
  | MFirst => go_to (Pos 0 (Nat.min (wish c) (width_or_zero brk (whole m) 0)))
  end.

(** ** Edits that are remembered *)

Inductive edit :=
| Put (data : text) (p : position)               (* text was inserted at [p] *)
| Cut (p q : position) (was : option text)       (* a range was deleted, and what was read there *)
| Swap (old new : text).                         (* the whole text was replaced *)

(** The text, the cursor and what was announced. *)
Record desk := Desk { d_text : marked; d_cursor : spec_cursor; d_said : list position }.
Definition swapped (brk : brk_rule) (al : allocator) (s : text) (d : desk) : desk :=
  let m := m_new al s in
  Desk m (go (kept_cursor (has brk m) (at_pos (d_cursor d)))) (d_said d ++ [Pos 0 0]).

(** Making an edit (again) and taking it back.  What was put is removed up to
    where it would end; what was read is put back. *)
Definition make (brk : brk_rule) (al : allocator) (d : desk) (e : edit) : desk :=
  match e with
  | Put data p => Desk (m_insert brk al data p (d_text d)) (d_cursor d) (d_said d ++ [p])
  | Cut p q _ => Desk (m_delete brk p q (d_text d)) (d_cursor d) (d_said d ++ [first_of p q])
  | Swap _ new => swapped brk al new d
  end.
Definition take (brk : brk_rule) (al : allocator) (e : edit) (d : desk) : desk :=
  match e with
  | Put data p =>
    Desk (m_delete brk p (text_end brk p data) (d_text d)) (d_cursor d) (d_said d ++ [p])
  | Cut p q (Some s) =>
    Desk (m_insert brk al s (first_of p q) (d_text d)) (d_cursor d) (d_said d ++ [first_of p q])
  | Cut _ _ None => d
  | Swap old _ => swapped brk al old d
  end.

(** ** The editor *)

(** Each step of the past (most recent first) and of the future (next first) lists
    the edits it covers in the order in which they were made.  [me_saved] is the
    length of the past at which the text was last saved or reloaded, if undoing
    or redoing can still lead there. *)
Record meditor := ME {
  me_text : marked;
  me_cursor : spec_cursor;
  me_past : list (list edit);
  me_future : list (list edit);
  me_saved : option nat;
  me_group : option (list edit);
  me_path : option path;
  me_id : option nat;
  me_syntax : option syntax;
  me_listening : bool;
  me_heard : list position;
  me_disk : fsys }.

Definition me_file (e : meditor) : option text :=
  match me_path e with Some p => read_to_string (me_disk e) p | None => None end.
Definition me_modified (e : meditor) : bool :=
  match me_saved e with Some n => negb (n =? length (me_past e)) | None => true end.

(** Changing some of the parts. *)
Definition on_desk (e : meditor) : desk := Desk (me_text e) (me_cursor e) [].
Definition put_desk (e : meditor) (d : desk) : meditor :=
  ME (d_text d) (d_cursor d) (me_past e) (me_future e) (me_saved e) (me_group e) (me_path e) (me_id e)
     (me_syntax e) (me_listening e)
     (if me_listening e then me_heard e ++ d_said d else me_heard e) (me_disk e).
Definition put_steps (e : meditor) (past future : list (list edit)) (saved : option nat)
    (group : option (list edit)) : meditor :=
  ME (me_text e) (me_cursor e) past future saved group (me_path e) (me_id e)
     (me_syntax e) (me_listening e) (me_heard e) (me_disk e).
Definition put_disk (e : meditor) (f : fsys) : meditor :=
  ME (me_text e) (me_cursor e) (me_past e) (me_future e) (me_saved e) (me_group e) (me_path e) (me_id e)
     (me_syntax e) (me_listening e) (me_heard e) f.
Definition put_cursor (e : meditor) (c : spec_cursor) : meditor :=
  ME (me_text e) c (me_past e) (me_future e) (me_saved e) (me_group e) (me_path e) (me_id e)
     (me_syntax e) (me_listening e) (me_heard e) (me_disk e).

(** A step is added: there is no future any more, and a saved text that was in
    the future is out of reach. *)
Definition add_step (e : meditor) (s : list edit) (group : option (list edit)) : meditor :=
  put_steps e (s :: me_past e) []
    (match me_saved e with
     | Some n => if n <=? length (me_past e) then Some n else None
     | None => None end) group.
Definition m_saved (e : meditor) : meditor :=
  put_steps e (me_past e) (me_future e) (Some (length (me_past e))) (me_group e).

Definition m_edit (brk : brk_rule) (al : allocator) (e : meditor) (x : edit) : meditor :=
  let e1 := put_desk e (make brk al (on_desk e) x) in
  match me_group e with
  | None => add_step e1 [x] None
  | Some xs => put_steps e1 (me_past e) (me_future e) (me_saved e) (Some (xs ++ [x]))
  end.
Definition m_cut (brk : brk_rule) (al : allocator) (e : meditor) (p q : position) : meditor :=
  m_edit brk al e (Cut p q (m_read brk p q (me_text e))).
Definition m_swap (brk : brk_rule) (al : allocator) (e : meditor) (s : text) : meditor :=
  if list_eq_dec N.eq_dec s (whole (me_text e)) then e
  else m_edit brk al e (Swap (whole (me_text e)) s).

(** Undoing ends the open group; if it has edits, they are taken back and are in
    no history. *)
Definition m_undo (brk : brk_rule) (al : allocator) (e : meditor) : meditor :=
  let back xs := put_desk e (fold_right (take brk al) (on_desk e) xs) in
  match me_group e with
  | Some (x :: xs) => put_steps (back (x :: xs)) (me_past e) (me_future e) (me_saved e) None
  | _ =>
    match me_past e with
    | s :: past => put_steps (back s) past (s :: me_future e) (me_saved e) None
    | [] => put_steps e [] (me_future e) (me_saved e) None
    end
  end.
Definition m_redo (brk : brk_rule) (al : allocator) (e : meditor) : meditor :=
  match me_future e with
  | s :: future =>
    put_steps (put_desk e (fold_left (make brk al) s (on_desk e)))
      (s :: me_past e) future (me_saved e) (me_group e)
  | [] => e
  end.

(** One call. *)
Definition me_call (brk : brk_rule) (al : allocator) (c : bcall) (e : meditor) : bout * meditor :=
  let here := at_pos (me_cursor e) in
  match c with
  | BInsert d => (BUnit, m_edit brk al e (Put d here))
  | BDelete =>
    let next := Pos (line here) (offset here + 1) in
    (BUnit, m_cut brk al e here (if has brk (me_text e) next then next else Pos (line here + 1) 0))
  | BDeleteRange p q => (BUnit, m_cut brk al e p q)
  | BReplace s => (BUnit, m_swap brk al e s)
  | BUndo => (BUnit, m_undo brk al e)
  | BRedo => (BUnit, m_redo brk al e)
  | BStartGroup =>
    (BUnit, put_steps e (me_past e) (me_future e) (me_saved e)
              (match me_group e with Some xs => Some xs | None => Some [] end))
  | BEndGroup =>
    (BUnit, match me_group e with
            | Some (x :: xs) => add_step e (x :: xs) None
            | _ => put_steps e (me_past e) (me_future e) (me_saved e) None
            end)
  | BMove v => (BUnit, put_cursor e (m_move brk (me_text e) v (me_cursor e)))
  | BCursor p => (BUnit, put_cursor e (SC p (wish (me_cursor e))))
  | BSave w =>
    match me_path e with
    | None => (BResult (RErr IoError), e)
    | Some p =>
      match outcome (me_disk e) p w with
      | CreateFails => (BResult (RErr IoError), e)
      | WriteFails k =>
        (BResult (RErr IoError), put_disk e (fs_write (me_disk e) p (firstn k (enc (whole (me_text e))))))
      | WriteSucceeds =>
        (BResult (ROk tt), put_disk (m_saved e) (fs_write (me_disk e) p (enc (whole (me_text e)))))
      end
    end
  | BReload =>
    match me_path e, me_file e with
    | None, _ => (BResult (RErr MissingPath), e)
    | Some _, None => (BResult (RErr IoError), e)
    | Some _, Some s => (BResult (ROk tt), m_saved (m_swap brk al e s))
    end
  | BSetPath p =>
    (BUnit, ME (me_text e) (me_cursor e) (me_past e) (me_future e) (me_saved e) (me_group e) p (me_id e)
               (me_syntax e) (me_listening e) (me_heard e) (me_disk e))
  | BSetId i =>
    (BUnit, ME (me_text e) (me_cursor e) (me_past e) (me_future e) (me_saved e) (me_group e) (me_path e) i
               (me_syntax e) (me_listening e) (me_heard e) (me_disk e))
  | BSetSyntax s =>
    (BUnit, ME (me_text e) (me_cursor e) (me_past e) (me_future e) (me_saved e) (me_group e) (me_path e)
               (me_id e) s (me_listening e) (me_heard e) (me_disk e))
  | BSetCallback on =>
    (BUnit, ME (me_text e) (me_cursor e) (me_past e) (me_future e) (me_saved e) (me_group e) (me_path e)
               (me_id e) (me_syntax e) on (me_heard e) (me_disk e))
  | BDisk f => (BUnit, put_disk e f)
  end.
Fixpoint me_calls (brk : brk_rule) (cs : list (allocator * bcall)) (e : meditor) : list bout * meditor :=
  match cs with
  | [] => ([], e)
  | (al, c) :: cs' =>
    let '(o, e1) := me_call brk al c e in
    let '(os, e2) := me_calls brk cs' e1 in
    (o :: os, e2)
  end.

(** A new editor, and one for a file, with the buffer it stands for. *)
Definition me_new (al : allocator) (f : fsys) : meditor :=
  ME (m_new al []) (go (Pos 0 0)) [] [] None None None None None false [] f.
Definition me_open (al : allocator) (f : fsys) (p : path) (t : text) : meditor :=
  ME (m_new al t) (go (Pos 0 0)) [] [] (Some 0) None (Some p) None None false [] f.
Definition me_start (b : buffer) (e : meditor) : Prop :=
  (exists al f, buffer_new al = Ok b /\ e = me_new al f) \/
  (exists al f p cp t, from_file al f p = Ok (ROk b) /\ read_to_string f p = Some t /\
     fs_canon f p = Some cp /\ e = me_open al f cp t).

(** All that can be seen of a buffer is what the editor says. *)
Record shows (brk : brk_rule) (b : buffer) (e : meditor) : Prop := Shows {
  shows_text : buf_data b = Ok (whole (me_text e));
  shows_read : forall p q, buf_read brk b (range_new p q) = Ok (m_read brk p q (me_text e));
  shows_in_bounds : forall p, in_bounds brk (b_data b) p = Ok (has brk (me_text e) p);
  shows_line_count : buf_line_count b = Ok (length (lines_of (whole (me_text e))));
  shows_modified : buf_modified b = me_modified e;
  shows_cursor : view (b_cursor b) = me_cursor e;
  shows_path : b_path b = me_path e;
  shows_id : b_id b = me_id e;
  shows_syntax : b_syntax b = me_syntax e;
  shows_callback : b_callback b = me_listening e;
  shows_heard : b_log b = me_heard e }.

(** Reads are those of the text segmented as a whole, as in a buffer that has just
    been loaded. *)
Definition undivided (brk : brk_rule) (b : buffer) (t : text) : Prop :=
  forall p q, buf_read brk b (range_new p q) = Ok (m_read brk p q (Marked t [] 0)).
