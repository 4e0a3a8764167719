(** The buffer with its shared storage made explicit: the gap buffer lives in an
    [Rc<RefCell<..>>] that the buffer, its cursor, clones of the cursor and the
    user's change callback all refer to.  Buffer.v and Cursor.v model the same
    functions with the gap buffer as a plain value; Shared*.v relate the two. *)
From Verif Require Import Base Utf8 Grapheme Position GapBuffer Cursor PathModel Buffer
  Spec Calls CursorSpec CursorCalls BufferCalls.

(** A [RefCell]: its value and the borrows that are out (std::cell). *)
Inductive lease := Free | Reading (more : nat) | Writing.
Record cell := Cell { c_gap : gapbuf; c_lease : lease }.

(** The [Rc] allocations in order of creation; a clone of an [Rc] is the same
    index.  Simplification: allocations are never released. *)
Definition heap := list cell.
Definition ref := nat.

(** Computations on the heap that may panic. *)
Definition M (A : Type) := heap -> res (A * heap).
Definition ret {A} (x : A) : M A := fun h => Ok (x, h).
Definition lift {A} (m : res A) : M A := fun h => let* x := m in Ok (x, h).
Definition mbind {A B} (m : M A) (k : A -> M B) : M B :=
  fun h => let* (x, h1) := m h in k x h1.
Notation "'let!' x ':=' m 'in' k" := (mbind m (fun x => k))
  (at level 200, x pattern, m at level 100, k at level 200) : res_scope.

(** Writing a cell of the heap. *)
Fixpoint put (h : heap) (r : ref) (c : cell) : heap :=
  match h, r with
  | [], _ => []
  | _ :: h', 0 => c :: h'
  | x :: h', S r' => x :: put h' r' c
  end.

(** [Rc::new(RefCell::new(g))], replace.rs:98, mod.rs:60,117. *)
Definition new_cell (g : gapbuf) : M ref := fun h => Ok (length h, h ++ [Cell g Free]).

(** [RefCell::borrow] and the end of the borrow. *)
Definition borrow (r : ref) : M gapbuf := fun h =>
  match nth_error h r with
  | Some (Cell g Free) => Ok (g, put h r (Cell g (Reading 0)))
  | Some (Cell g (Reading n)) => Ok (g, put h r (Cell g (Reading (n + 1))))
  | _ => Panic
  end.
Definition end_borrow (r : ref) : M unit := fun h =>
  match nth_error h r with
  | Some (Cell g (Reading 0)) => Ok (tt, put h r (Cell g Free))
  | Some (Cell g (Reading (S n))) => Ok (tt, put h r (Cell g (Reading n)))
  | _ => Panic
  end.

(** [RefCell::borrow_mut], and the end of the borrow with the value written. *)
Definition borrow_mut (r : ref) : M gapbuf := fun h =>
  match nth_error h r with
  | Some (Cell g Free) => Ok (g, put h r (Cell g Writing))
  | _ => Panic
  end.
Definition end_borrow_mut (r : ref) (g : gapbuf) : M unit := fun h =>
  match nth_error h r with
  | Some (Cell _ Writing) => Ok (tt, put h r (Cell g Free))
  | _ => Panic
  end.

(** A statement with a temporary borrow: it is held until the statement ends. *)
Definition reading {A} (r : ref) (k : gapbuf -> M A) : M A :=
  let! g := borrow r in
  let! x := k g in
  let! _ := end_borrow r in
  ret x.
Definition writing (r : ref) (k : gapbuf -> M gapbuf) : M unit :=
  let! g := borrow_mut r in
  let! g' := k g in
  end_borrow_mut r g'.

(** ** The cursor, src/buffer/cursor.rs *)

(** cursor.rs:12-16, with its [data] field. *)
Record rcursor := RCur { rc_data : ref; rc_at : cursor }.

Section Methods.
Variable brk : brk_rule.

(** What a change callback does ([Fn(Position)], mod.rs:55).  It is given by the
    number of the closure, the position and what it noted at its earlier calls;
    it may use the heap and notes a text. *)
Variable tell : nat -> position -> list (position * text) -> M text.

(** [Cursor::new], cursor.rs:34-40. *)
Definition rcursor_new (r : ref) (p : position) : rcursor := RCur r (cursor_new p).

(** [move_to], cursor.rs:65-76. *)
Definition rmove_to (c : rcursor) (p : position) : M (bool * rcursor) :=
  let! ok := reading (rc_data c) (fun g => lift (in_bounds brk g p)) in
  if (ok : bool) then ret (true, RCur (rc_data c) (Cur p (offset p))) else ret (false, c).

(** Common tail of [move_up] (cursor.rs:92-109) and [move_down] (121-138); the
    borrow in the head of the [for] loop lasts for the whole loop. *)
Definition rmove_to_line (c : rcursor) (target : nat) : M rcursor :=
  let new_position := Pos target (c_sticky (rc_at c)) in
  let! (moved, c1) := rmove_to c new_position in
  if (moved : bool) then ret c1
  else
    let! target_offset := reading (rc_data c1) (fun g =>
      let! s := lift (gb_to_string g) in
      ret (line_length_or_zero brk s target)) in
    let! (_, c2) := rmove_to c1 (Pos target target_offset) in
    ret (RCur (rc_data c2) (Cur (c_pos (rc_at c2)) (offset new_position))).

(** [move_up], cursor.rs:80-110. *)
Definition rmove_up (c : rcursor) : M rcursor :=
  if line (c_pos (rc_at c)) =? 0 then ret c
  else
    let! target := lift (usub (line (c_pos (rc_at c))) 1) in
    rmove_to_line c target.

(** [move_down], cursor.rs:114-139. *)
Definition rmove_down (c : rcursor) : M rcursor :=
  rmove_to_line c (line (c_pos (rc_at c)) + 1).

(** [move_left], cursor.rs:143-154. *)
Definition rmove_left (c : rcursor) : M rcursor :=
  if offset (c_pos (rc_at c)) =? 0 then ret c
  else
    let! o := lift (usub (offset (c_pos (rc_at c))) 1) in
    let! (_, c') := rmove_to c (Pos (line (c_pos (rc_at c))) o) in ret c'.

(** [move_right], cursor.rs:158-164. *)
Definition rmove_right (c : rcursor) : M rcursor :=
  let! (_, c') := rmove_to c (Pos (line (c_pos (rc_at c))) (offset (c_pos (rc_at c)) + 1)) in ret c'.

(** [move_to_start_of_line], cursor.rs:167-173. *)
Definition rmove_to_start_of_line (c : rcursor) : M rcursor :=
  let! (_, c') := rmove_to c (Pos (line (c_pos (rc_at c))) 0) in ret c'.

(** [move_to_end_of_line], cursor.rs:176-186: the borrow ends with line 177. *)
Definition rmove_to_end_of_line (c : rcursor) : M rcursor :=
  let! data := reading (rc_data c) (fun g => lift (gb_to_string g)) in
  match nth_error (str_lines data) (line (c_pos (rc_at c))) with
  | Some l =>
    let! (_, c') := rmove_to c (Pos (line (c_pos (rc_at c))) (length (graphemes brk l))) in ret c'
  | None => ret c
  end.

(** [move_to_last_line], cursor.rs:189-216: the borrow lasts for the loop. *)
Definition rmove_to_last_line (c : rcursor) : M rcursor :=
  let! (ln, len) := reading (rc_data c) (fun g =>
    let! data := lift (gb_to_string g) in
    ret (last_line_loop (graphemes brk data) 0 0)) in
  let target := if len <? c_sticky (rc_at c) then Pos ln len else Pos ln (c_sticky (rc_at c)) in
  let! (_, c') := rmove_to c target in ret c'.

(** [move_to_first_line], cursor.rs:219-244: the borrow lasts until line 227. *)
Definition rmove_to_first_line (c : rcursor) : M rcursor :=
  let! len := reading (rc_data c) (fun g =>
    let! data := lift (gb_to_string g) in
    ret (match nth_error (str_lines data) 0 with
         | Some l => length (graphemes brk l)
         | None => 0
         end)) in
  let target := if len <? c_sticky (rc_at c) then Pos 0 len else Pos 0 (c_sticky (rc_at c)) in
  let! (_, c') := rmove_to c target in ret c'.

(** One call of a cursor method. *)
Definition rmove (m : cmove) (c : rcursor) : M rcursor :=
  match m with
  | MTo p => let! (_, c') := rmove_to c p in ret c'
  | MUp => rmove_up c
  | MDown => rmove_down c
  | MLeft => rmove_left c
  | MRight => rmove_right c
  | MStart => rmove_to_start_of_line c
  | MEnd => rmove_to_end_of_line c
  | MLast => rmove_to_last_line c
  | MFirst => rmove_to_first_line c
  end.

(** ** The buffer, src/buffer/mod.rs and src/buffer/operation/*.rs *)

(** mod.rs:47-56.  [rb_callback] is the number of the closure, and [rb_log] lists
    what the callback noted, with the positions. *)
Record rbuffer := RBuf {
  rb_id : option nat;
  rb_data : ref;
  rb_path : option path;
  rb_cursor : rcursor;
  rb_history : history;
  rb_group : option (list operation);
  rb_syntax : option syntax;
  rb_callback : option nat;
  rb_log : list (position * text) }.

Definition rset_data (b : rbuffer) (r : ref) : rbuffer :=
  RBuf (rb_id b) r (rb_path b) (rb_cursor b) (rb_history b) (rb_group b) (rb_syntax b)
       (rb_callback b) (rb_log b).
Definition rset_cursor (b : rbuffer) (c : rcursor) : rbuffer :=
  RBuf (rb_id b) (rb_data b) (rb_path b) c (rb_history b) (rb_group b) (rb_syntax b)
       (rb_callback b) (rb_log b).
Definition rset_history (b : rbuffer) (h : history) : rbuffer :=
  RBuf (rb_id b) (rb_data b) (rb_path b) (rb_cursor b) h (rb_group b) (rb_syntax b)
       (rb_callback b) (rb_log b).
Definition rset_group (b : rbuffer) (g : option (list operation)) : rbuffer :=
  RBuf (rb_id b) (rb_data b) (rb_path b) (rb_cursor b) (rb_history b) g (rb_syntax b)
       (rb_callback b) (rb_log b).
Definition rset_path (b : rbuffer) (p : option path) : rbuffer :=
  RBuf (rb_id b) (rb_data b) p (rb_cursor b) (rb_history b) (rb_group b) (rb_syntax b)
       (rb_callback b) (rb_log b).
Definition rset_id (b : rbuffer) (i : option nat) : rbuffer :=
  RBuf i (rb_data b) (rb_path b) (rb_cursor b) (rb_history b) (rb_group b) (rb_syntax b)
       (rb_callback b) (rb_log b).
Definition rset_syntax (b : rbuffer) (s : option syntax) : rbuffer :=
  RBuf (rb_id b) (rb_data b) (rb_path b) (rb_cursor b) (rb_history b) (rb_group b) s
       (rb_callback b) (rb_log b).
Definition rset_callback (b : rbuffer) (c : option nat) : rbuffer :=
  RBuf (rb_id b) (rb_data b) (rb_path b) (rb_cursor b) (rb_history b) (rb_group b) (rb_syntax b)
       c (rb_log b).

(** "Run the change callback, if present", insert.rs:28-31,67-70,
    delete.rs:27-30,40-43, replace.rs:113-116. *)
Definition rnotify (b : rbuffer) (p : position) : M rbuffer :=
  match rb_callback b with
  | None => ret b
  | Some k =>
    let! t := tell k p (rb_log b) in
    ret (RBuf (rb_id b) (rb_data b) (rb_path b) (rb_cursor b) (rb_history b) (rb_group b)
              (rb_syntax b) (rb_callback b) (rb_log b ++ [(p, t)]))
  end.

(** [replace_content], replace.rs:96-117. *)
Definition rreplace_content (al : allocator) (content : text) (b : rbuffer) : M rbuffer :=
  let! g := lift (gb_new al content) in
  let! data := new_cell g in
  let c0 := rcursor_new data (Pos 0 0) in
  let p := c_pos (rc_at (rb_cursor b)) in
  let! (moved, c1) := rmove_to c0 p in
  let! c2 := (if (moved : bool) then ret c1
              else let! (_, c) := rmove_to c1 (Pos (line p) 0) in ret c) in
  rnotify (rset_cursor (rset_data b data) c2) (Pos 0 0).

(** [Operation::run]: insert.rs:22-32, delete.rs:20-31, replace.rs:23-25,
    group.rs:20-24. *)
Fixpoint rop_run (al : allocator) (op : operation) (b : rbuffer) {struct op}
  : M (operation * rbuffer) :=
  match op with
  | OpInsert content p =>
    let! _ := writing (rb_data b) (fun g => lift (gb_insert brk al g content p)) in
    let! b' := rnotify b p in
    ret (op, b')
  | OpDelete _ r =>
    let! content := reading (rb_data b) (fun g => lift (gb_read brk g r)) in
    let! _ := writing (rb_data b) (fun g => lift (gb_delete brk g r)) in
    let! b' := rnotify b (r_start r) in
    ret (OpDelete content r, b')
  | OpReplace old new =>
    let! b' := rreplace_content al new b in ret (op, b')
  | OpGroup ops =>
    let! (ops', b') :=
      (fix go (ops : list operation) (b : rbuffer) : M (list operation * rbuffer) :=
         match ops with
         | [] => ret ([], b)
         | o :: rest =>
           let! (o', b1) := rop_run al o b in
           let! (rest', b2) := go rest b1 in
           ret (o' :: rest', b2)
         end) ops b in
    ret (OpGroup ops', b')
  end.

(** [Operation::reverse]: insert.rs:37-71, delete.rs:33-45, replace.rs:27-29,
    group.rs:27-31. *)
Fixpoint rop_reverse (al : allocator) (op : operation) (b : rbuffer) {struct op} : M rbuffer :=
  match op with
  | OpInsert content p =>
    match insert_end brk content p with
    | None => ret b
    | Some e =>
      let! _ := writing (rb_data b) (fun g => lift (gb_delete brk g (range_new p e))) in
      rnotify b p
    end
  | OpDelete (Some content) r =>
    let! _ := writing (rb_data b) (fun g => lift (gb_insert brk al g content (r_start r))) in
    rnotify b (r_start r)
  | OpDelete None _ => ret b
  | OpReplace old new => rreplace_content al old b
  | OpGroup ops =>
    (fix go (ops : list operation) (b : rbuffer) : M rbuffer :=
       match ops with
       | [] => ret b
       | o :: rest =>
         let! b1 := go rest b in
         rop_reverse al o b1
       end) ops b
  end.

(** Storing an operation: insert.rs:104-107, delete.rs:130-133, replace.rs:89-92. *)
Definition rstore (b : rbuffer) (op : operation) : rbuffer :=
  match rb_group b with
  | Some ops => rset_group b (Some (ops ++ [op]))
  | None => rset_history b (hist_add (rb_history b) op)
  end.

(** [Buffer::insert], insert.rs:97-108. *)
Definition rinsert (al : allocator) (b : rbuffer) (data : text) : M rbuffer :=
  let! (op, b') := rop_run al (OpInsert data (c_pos (rc_at (rb_cursor b)))) b in
  ret (rstore b' op).

(** [Buffer::delete_range], delete.rs:123-134. *)
Definition rdelete_range (al : allocator) (b : rbuffer) (r : prange) : M rbuffer :=
  let! (op, b') := rop_run al (OpDelete None r) b in
  ret (rstore b' op).

(** [Buffer::delete], delete.rs:77-100: the borrow in the condition at line 89
    ends before the body of the [if]. *)
Definition rdelete (al : allocator) (b : rbuffer) : M rbuffer :=
  let p := c_pos (rc_at (rb_cursor b)) in
  let fin := Pos (line p) (offset p + 1) in
  let! ok := reading (rb_data b) (fun g => lift (in_bounds brk g fin)) in
  let fin := if (ok : bool) then fin else Pos (line p + 1) 0 in
  rdelete_range al b (range_new p fin).

(** [Buffer::data], mod.rs:150-152. *)
Definition rdata (b : rbuffer) : M text := reading (rb_data b) (fun g => lift (gb_to_string g)).

(** [Buffer::read], mod.rs:303-305. *)
Definition rread (b : rbuffer) (r : prange) : M (option text) :=
  reading (rb_data b) (fun g => lift (gb_read brk g r)).

(** [Buffer::replace], replace.rs:76-93. *)
Definition rreplace (al : allocator) (b : rbuffer) (content : text) : M rbuffer :=
  let! old_content := rdata b in
  if list_N_eqb content old_content then ret b
  else
    let! old := rdata b in
    let! (op, b') := rop_run al (OpReplace old content) b in
    ret (rstore b' op).

(** [start_operation_group], group.rs:69-77, and [end_operation_group], 82-89. *)
Definition rstart_group (b : rbuffer) : rbuffer :=
  match rb_group b with Some _ => b | None => rset_group b (Some []) end.
Definition rend_group (b : rbuffer) : rbuffer :=
  match rb_group b with
  | Some ops =>
    let b' := rset_group b None in
    match ops with
    | [] => b'
    | _ => rset_history b' (hist_add (rb_history b') (OpGroup ops))
    end
  | None => b
  end.

(** [Buffer::undo], mod.rs:243-261. *)
Definition rundo (al : allocator) (b : rbuffer) : M rbuffer :=
  let b0 := rset_group b None in
  let '(op, b1) :=
    match rb_group b with
    | Some (o :: ops) => (Some (OpGroup (o :: ops)), b0)
    | Some [] | None =>
      let '(op, h) := hist_previous (rb_history b0) in (op, rset_history b0 h)
    end in
  match op with
  | Some op => rop_reverse al op b1
  | None => ret b1
  end.

(** [Buffer::redo], mod.rs:279-284. *)
Definition rredo (al : allocator) (b : rbuffer) : M rbuffer :=
  let '(op, h) := hist_next (rb_history b) in
  let b1 := rset_history b h in
  match op with
  | Some op => let! (_, b2) := rop_run al op b1 in ret b2
  | None => ret b1
  end.

(** [Buffer::save], mod.rs:180-196. *)
Definition rsave (f : fsys) (w : write_outcome) (b : rbuffer) : M (result unit * rbuffer * fsys) :=
  match rb_path b with
  | None => ret (RErr IoError, b, f)
  | Some p =>
    match outcome f p w with
    | CreateFails => ret (RErr IoError, b, f)
    | WriteFails k =>
      let! data := rdata b in
      ret (RErr IoError, b, fs_write f p (firstn k (enc data)))
    | WriteSucceeds =>
      let! data := rdata b in
      ret (ROk tt, rset_history b (hist_mark (rb_history b)), fs_write f p (enc data))
    end
  end.

(** [Buffer::reload], mod.rs:413-425. *)
Definition rreload (al : allocator) (f : fsys) (b : rbuffer) : M (result unit * rbuffer) :=
  match rb_path b with
  | None => ret (RErr MissingPath, b)
  | Some p =>
    match read_to_string f p with
    | None => ret (RErr IoError, b)
    | Some content =>
      let! b' := rreplace al b content in
      ret (ROk tt, rset_history b' (hist_mark (rb_history b')))
    end
  end.

(** [Buffer::new] / [Default::default], mod.rs:58-76,90-92. *)
Definition rbuffer_new (al : allocator) : M rbuffer :=
  let! g := lift (gb_new al []) in
  let! data := new_cell g in
  ret (RBuf None data None (rcursor_new data (Pos 0 0)) hist_new None None None []).

(** [Buffer::from_file], mod.rs:113-137. *)
Definition rfrom_file (al : allocator) (f : fsys) (p : path) : M (result rbuffer) :=
  match read_to_string f p with
  | None => ret (RErr IoError)
  | Some content =>
    let! g := lift (gb_new al content) in
    let! data := new_cell g in
    match fs_canon f p with
    | None => ret (RErr IoError)
    | Some cp =>
      ret (ROk (RBuf None data (Some cp) (rcursor_new data (Pos 0 0)) (hist_mark hist_new)
                     None None None []))
    end
  end.

(** A call of the buffer API. *)
Definition pbuffer (al : allocator) (c : bcall) (b : rbuffer) (f : fsys)
  : M (bout * rbuffer * fsys) :=
  match c with
  | BInsert d => let! b' := rinsert al b d in ret (BUnit, b', f)
  | BDelete => let! b' := rdelete al b in ret (BUnit, b', f)
  | BDeleteRange p q => let! b' := rdelete_range al b (range_new p q) in ret (BUnit, b', f)
  | BReplace s => let! b' := rreplace al b s in ret (BUnit, b', f)
  | BUndo => let! b' := rundo al b in ret (BUnit, b', f)
  | BRedo => let! b' := rredo al b in ret (BUnit, b', f)
  | BStartGroup => ret (BUnit, rstart_group b, f)
  | BEndGroup => ret (BUnit, rend_group b, f)
  | BMove m => let! c' := rmove m (rb_cursor b) in ret (BUnit, rset_cursor b c', f)
  | BCursor p =>
    ret (BUnit, rset_cursor b (RCur (rc_data (rb_cursor b)) (Cur p (c_sticky (rc_at (rb_cursor b))))), f)
  | BSave w => let! (r, b', f') := rsave f w b in ret (BResult r, b', f')
  | BReload => let! (r, b') := rreload al f b in ret (BResult r, b', f)
  | BSetPath p => ret (BUnit, rset_path b p, f)
  | BSetId i => ret (BUnit, rset_id b i, f)
  | BSetSyntax s => ret (BUnit, rset_syntax b s, f)
  | BSetCallback on =>
    ret (BUnit, rset_callback b (if on then Some (rc_data (rb_cursor b)) else None), f)
  | BDisk f' => ret (BUnit, b, f')
  end.

(** A call on the storage through a handle: [borrow_mut()] for the calls that
    change it and [borrow()] for the others. *)
Definition pstorage (al : allocator) (c : gcall) (r : ref) : M gout :=
  match c with
  | GInsert d p => let! _ := writing r (fun g => lift (gb_insert brk al g d p)) in ret OUnit
  | GDelete p q => let! _ := writing r (fun g => lift (gb_delete brk g (range_new p q))) in ret OUnit
  | GRead p q =>
    let! x := reading r (fun g => lift (gb_read brk g (range_new p q))) in ret (ORead x)
  | GInBounds p => let! x := reading r (fun g => lift (in_bounds brk g p)) in ret (OBool x)
  | GToString => let! x := reading r (fun g => lift (gb_to_string g)) in ret (OText x)
  end.

End Methods.

(** ** Programs using a buffer *)

(** The change callback of these programs is a closure that captured a clone of an
    [Rc] (its number is that of the storage): when called it borrows the storage
    mutably, reads the text and notes it. *)
Definition reader (r : nat) (p : position) (log : list (position * text)) : M text :=
  let! g := borrow_mut r in
  let! t := lift (gb_to_string g) in
  let! _ := end_borrow_mut r g in
  ret t.

(** The user's program: a buffer, clones it made of the buffer's cursor, the
    heap and the disk. *)
Record program := Prog {
  pr_buffer : rbuffer;
  pr_cursors : list rcursor;
  pr_heap : heap;
  pr_disk : fsys }.

(** Its calls: those of the buffer API ([BSetCallback true] installs a callback
    that captured [buffer.cursor.data.clone()]), and those of a cloned cursor and
    of the public [data] field. *)
Inductive pcall :=
| PBuffer (c : bcall)
| PClone                           (* let c = buffer.cursor.clone() *)
| PMove (i : nat) (m : cmove)      (* c.move_...() *)
| PAssign (i : nat)                (* buffer.cursor = c.clone() *)
| PStorage (i : nat) (c : gcall).  (* c.data.borrow().read(..), ..borrow_mut().insert(..) *)

Inductive pout := PUnit | PBout (o : bout) | PGout (o : gout).

Section Programs.
Variable brk : brk_rule.

(** One call; using a clone that was not made does nothing. *)
Definition pexec (al : allocator) (c : pcall) (p : program) : res (pout * program) :=
  match c with
  | PBuffer c =>
    let* (o, b', f', h) := pbuffer brk reader al c (pr_buffer p) (pr_disk p) (pr_heap p) in
    Ok (PBout o, Prog b' (pr_cursors p) h f')
  | PClone =>
    Ok (PUnit, Prog (pr_buffer p) (pr_cursors p ++ [rb_cursor (pr_buffer p)]) (pr_heap p) (pr_disk p))
  | PMove i m =>
    match nth_error (pr_cursors p) i with
    | None => Ok (PUnit, p)
    | Some c =>
      let* (c', h) := rmove brk m c (pr_heap p) in
      Ok (PUnit, Prog (pr_buffer p) (firstn i (pr_cursors p) ++ c' :: skipn (i + 1) (pr_cursors p))
                      h (pr_disk p))
    end
  | PAssign i =>
    match nth_error (pr_cursors p) i with
    | None => Ok (PUnit, p)
    | Some c => Ok (PUnit, Prog (rset_cursor (pr_buffer p) c) (pr_cursors p) (pr_heap p) (pr_disk p))
    end
  | PStorage i c =>
    match nth_error (pr_cursors p) i with
    | None => Ok (PUnit, p)
    | Some k =>
      let* (o, h) := pstorage brk al c (rc_data k) (pr_heap p) in
      Ok (PGout o, Prog (pr_buffer p) (pr_cursors p) h (pr_disk p))
    end
  end.
Fixpoint prun (cs : list (allocator * pcall)) (p : program) : res (list pout * program) :=
  match cs with
  | [] => Ok ([], p)
  | (al, c) :: cs' =>
    let* (o, p1) := pexec al c p in
    let* (os, p2) := prun cs' p1 in
    Ok (o :: os, p2)
  end.

End Programs.

(** A program that starts by making a buffer on an empty heap. *)
Definition starts (f : fsys) (p : program) : Prop :=
  pr_cursors p = [] /\ pr_disk p = f /\
  ((exists al, rbuffer_new al [] = Ok (pr_buffer p, pr_heap p)) \/
   (exists al q, rfrom_file al f q [] = Ok (ROk (pr_buffer p), pr_heap p))).
