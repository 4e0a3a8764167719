(** Buffers, reversible operations, history and file I/O:
    src/buffer/mod.rs and src/buffer/operation/*.rs. *)
From Verif Require Import Base Utf8 Grapheme Position GapBuffer Cursor PathModel.

(** A [SyntaxReference] of syntect, opaque. *)
Definition syntax := N.

(** [dyn Operation], operation/mod.rs:19-23, with its four implementations
    (insert.rs:16-19, delete.rs:14-17, replace.rs:17-20, group.rs:14-16).
    [clone_operation] is the identity on these values. *)
Inductive operation :=
| OpInsert (content : text) (p : position)
| OpDelete (content : option text) (r : prange)
| OpReplace (old_content new_content : text)
| OpGroup (ops : list operation).

(** History, operation/history.rs:8-12.  The stacks are kept top first. *)
Record history := Hist {
  h_previous : list operation;
  h_next : list operation;
  h_mark : option nat }.

(** [History::new], history.rs:16-22. *)
Definition hist_new : history := Hist [] [] None.

(** [History::add], history.rs:25-35. *)
Definition hist_add (h : history) (op : operation) : history :=
  let previous := op :: h_previous h in
  let mark := match h_mark h with
              | Some p => if length previous <=? p then None else Some p
              | None => None
              end in
  Hist previous [] mark.

(** [History::previous], history.rs:38-48. *)
Definition hist_previous (h : history) : option operation * history :=
  match h_previous h with
  | op :: rest => (Some op, Hist rest (op :: h_next h) (h_mark h))
  | [] => (None, h)
  end.

(** [History::next], history.rs:51-61. *)
Definition hist_next (h : history) : option operation * history :=
  match h_next h with
  | op :: rest => (Some op, Hist (op :: h_previous h) rest (h_mark h))
  | [] => (None, h)
  end.

(** [History::mark], history.rs:63-65. *)
Definition hist_mark (h : history) : history :=
  Hist (h_previous h) (h_next h) (Some (length (h_previous h))).

(** [History::at_mark], history.rs:67-73. *)
Definition hist_at_mark (h : history) : bool :=
  match h_mark h with
  | Some p => length (h_previous h) =? p
  | None => false
  end.

(** src/buffer/mod.rs:47-56.  [b_callback] tells whether a change callback is
    installed; [b_log] is the list of positions it has been called with. The
    [Rc<RefCell<..>>] shared with the cursor is the single value [b_data]. *)
Record buffer := Buf {
  b_id : option nat;
  b_data : gapbuf;
  b_path : option path;
  b_cursor : cursor;
  b_history : history;
  b_group : option (list operation);
  b_syntax : option syntax;
  b_callback : bool;
  b_log : list position }.

(** Field updates. *)
Definition set_data (b : buffer) (g : gapbuf) : buffer :=
  Buf (b_id b) g (b_path b) (b_cursor b) (b_history b) (b_group b) (b_syntax b)
      (b_callback b) (b_log b).
Definition set_cursor (b : buffer) (c : cursor) : buffer :=
  Buf (b_id b) (b_data b) (b_path b) c (b_history b) (b_group b) (b_syntax b)
      (b_callback b) (b_log b).
Definition set_history (b : buffer) (h : history) : buffer :=
  Buf (b_id b) (b_data b) (b_path b) (b_cursor b) h (b_group b) (b_syntax b)
      (b_callback b) (b_log b).
Definition set_group (b : buffer) (g : option (list operation)) : buffer :=
  Buf (b_id b) (b_data b) (b_path b) (b_cursor b) (b_history b) g (b_syntax b)
      (b_callback b) (b_log b).
Definition set_path (b : buffer) (p : option path) : buffer :=
  Buf (b_id b) (b_data b) p (b_cursor b) (b_history b) (b_group b) (b_syntax b)
      (b_callback b) (b_log b).
Definition set_id (b : buffer) (i : option nat) : buffer :=
  Buf i (b_data b) (b_path b) (b_cursor b) (b_history b) (b_group b) (b_syntax b)
      (b_callback b) (b_log b).
Definition set_syntax (b : buffer) (s : option syntax) : buffer :=
  Buf (b_id b) (b_data b) (b_path b) (b_cursor b) (b_history b) (b_group b) s
      (b_callback b) (b_log b).
Definition set_callback (b : buffer) (c : bool) : buffer :=
  Buf (b_id b) (b_data b) (b_path b) (b_cursor b) (b_history b) (b_group b) (b_syntax b)
      c (b_log b).

(** "Run the change callback, if present", insert.rs:28-31,67-70,
    delete.rs:27-30,40-43, replace.rs:113-116. *)
Definition notify (b : buffer) (p : position) : buffer :=
  Buf (b_id b) (b_data b) (b_path b) (b_cursor b) (b_history b) (b_group b) (b_syntax b)
      (b_callback b) (if b_callback b then b_log b ++ [p] else b_log b).

(** [Buffer::new] / [Default::default], mod.rs:58-76,90-92.  The marked
    history built at mod.rs:62-63 is dropped; a fresh one is used (line 70). *)
Definition buffer_new (al : allocator) : res buffer :=
  let* g := gb_new al [] in
  Ok (Buf None g None (cursor_new (Pos 0 0)) hist_new None None false []).

(** The end position computed by [Insert::reverse], insert.rs:38-61. *)
Definition insert_end (brk : brk_rule) (content : text) (p : position) : option position :=
  let line_count := count_lf content + 1 in
  let end_line := line p + line_count - 1 in
  if line_count =? 1 then
    Some (Pos end_line (offset p + length (graphemes brk content)))
  else
    match last_line content with
    | Some l => Some (Pos end_line (length (graphemes brk l)))
    | None => None
    end.

(** [replace_content], replace.rs:96-117. *)
Definition replace_content (brk : brk_rule) (al : allocator) (content : text) (b : buffer)
  : res buffer :=
  let* g := gb_new al content in
  let c0 := cursor_new (Pos 0 0) in
  let* (moved, c1) := move_to brk g c0 (c_pos (b_cursor b)) in
  let* c2 := (if (moved : bool) then Ok c1
              else let* (_, c) := move_to brk g c1 (Pos (line (c_pos (b_cursor b))) 0) in Ok c) in
  Ok (notify (set_cursor (set_data b g) c2) (Pos 0 0)).

(** [Operation::run]: insert.rs:22-32, delete.rs:20-31, replace.rs:23-25,
    group.rs:20-24.  Returns the (possibly updated) operation too. *)
Fixpoint op_run (brk : brk_rule) (al : allocator) (op : operation) (b : buffer) {struct op}
  : res (operation * buffer) :=
  match op with
  | OpInsert content p =>
    let* g := gb_insert brk al (b_data b) content p in
    Ok (op, notify (set_data b g) p)
  | OpDelete _ r =>
    let* content := gb_read brk (b_data b) r in
    let* g := gb_delete brk (b_data b) r in
    Ok (OpDelete content r, notify (set_data b g) (r_start r))
  | OpReplace old new =>
    let* b' := replace_content brk al new b in Ok (op, b')
  | OpGroup ops =>
    let* (ops', b') :=
      (fix go (ops : list operation) (b : buffer) : res (list operation * buffer) :=
         match ops with
         | [] => Ok ([], b)
         | o :: rest =>
           let* (o', b1) := op_run brk al o b in
           let* (rest', b2) := go rest b1 in
           Ok (o' :: rest', b2)
         end) ops b in
    Ok (OpGroup ops', b')
  end.

(** [Operation::reverse]: insert.rs:37-71, delete.rs:33-45, replace.rs:27-29,
    group.rs:27-31 (last operation first). *)
Fixpoint op_reverse (brk : brk_rule) (al : allocator) (op : operation) (b : buffer) {struct op}
  : res buffer :=
  match op with
  | OpInsert content p =>
    match insert_end brk content p with
    | None => Ok b
    | Some e =>
      let* g := gb_delete brk (b_data b) (range_new p e) in
      Ok (notify (set_data b g) p)
    end
  | OpDelete (Some content) r =>
    let* g := gb_insert brk al (b_data b) content (r_start r) in
    Ok (notify (set_data b g) (r_start r))
  | OpDelete None _ => Ok b
  | OpReplace old new => replace_content brk al old b
  | OpGroup ops =>
    (fix go (ops : list operation) (b : buffer) : res buffer :=
       match ops with
       | [] => Ok b
       | o :: rest =>
         let* b1 := go rest b in
         op_reverse brk al o b1
       end) ops b
  end.

(** "Store the operation in the history object so that it can be undone":
    insert.rs:104-107, delete.rs:130-133, replace.rs:89-92; [OperationGroup::add],
    group.rs:55-57 (pushed at the end). *)
Definition store (b : buffer) (op : operation) : buffer :=
  match b_group b with
  | Some ops => set_group b (Some (ops ++ [op]))
  | None => set_history b (hist_add (b_history b) op)
  end.

(** [Buffer::insert], insert.rs:97-108. *)
Definition buf_insert (brk : brk_rule) (al : allocator) (b : buffer) (data : text)
  : res buffer :=
  let* (op, b') := op_run brk al (OpInsert data (c_pos (b_cursor b))) b in
  Ok (store b' op).

(** [Buffer::delete_range], delete.rs:123-134. *)
Definition buf_delete_range (brk : brk_rule) (al : allocator) (b : buffer) (r : prange)
  : res buffer :=
  let* (op, b') := op_run brk al (OpDelete None r) b in
  Ok (store b' op).

(** [Buffer::delete], delete.rs:77-100. *)
Definition buf_delete (brk : brk_rule) (al : allocator) (b : buffer) : res buffer :=
  let p := c_pos (b_cursor b) in
  let fin := Pos (line p) (offset p + 1) in
  let* ok := in_bounds brk (b_data b) fin in
  let fin := if (ok : bool) then fin else Pos (line p + 1) 0 in
  buf_delete_range brk al b (range_new p fin).

(** [Buffer::data], mod.rs:150-152. *)
Definition buf_data (b : buffer) : res text := gb_to_string (b_data b).

(** [Buffer::replace], replace.rs:76-93. *)
Definition buf_replace (brk : brk_rule) (al : allocator) (b : buffer) (content : text)
  : res buffer :=
  let* old_content := buf_data b in
  if list_N_eqb content old_content then Ok b
  else
    let* old := buf_data b in
    let* (op, b') := op_run brk al (OpReplace old content) b in
    Ok (store b' op).

(** [start_operation_group], group.rs:69-77. *)
Definition start_group (b : buffer) : buffer :=
  match b_group b with
  | Some _ => b
  | None => set_group b (Some [])
  end.

(** [end_operation_group], group.rs:82-89. *)
Definition end_group (b : buffer) : buffer :=
  match b_group b with
  | Some ops =>
    let b' := set_group b None in
    match ops with
    | [] => b'
    | _ => set_history b' (hist_add (b_history b') (OpGroup ops))
    end
  | None => b
  end.

(** [Buffer::undo], mod.rs:243-261. *)
Definition buf_undo (brk : brk_rule) (al : allocator) (b : buffer) : res buffer :=
  let b0 := set_group b None in
  let '(op, b1) :=
    match b_group b with
    | Some (o :: ops) => (Some (OpGroup (o :: ops)), b0)
    | Some [] | None =>
      let '(op, h) := hist_previous (b_history b0) in (op, set_history b0 h)
    end in
  match op with
  | Some op => op_reverse brk al op b1
  | None => Ok b1
  end.

(** [Buffer::redo], mod.rs:279-284.  The operation run here is dropped
    afterwards; the clone taken by [History::next] stays in the history. *)
Definition buf_redo (brk : brk_rule) (al : allocator) (b : buffer) : res buffer :=
  let '(op, h) := hist_next (b_history b) in
  let b1 := set_history b h in
  match op with
  | Some op => let* (_, b2) := op_run brk al op b1 in Ok b2
  | None => Ok b1
  end.

(** [Buffer::read], mod.rs:303-305. *)
Definition buf_read (brk : brk_rule) (b : buffer) (r : prange) : res (option text) :=
  gb_read brk (b_data b) r.

(** Does the byte string [hay] start with [needle]?  (mod.rs:335-336) *)
Definition starts_with (needle hay : list byte) : bool :=
  (length needle <=? length hay) && list_N_eqb needle (firstn (length needle) hay).

(** The inner loop of [search], mod.rs:331-340, over [char_indices]. *)
Fixpoint search_line (needle : text) (ln : nat) (data : text) (off : nat) : list position :=
  match data with
  | [] => []
  | c :: rest =>
    (if starts_with (enc needle) (enc data) then [Pos ln off] else [])
      ++ search_line needle ln rest (off + len1 c)
  end.

(** The outer loop of [search], mod.rs:330. *)
Fixpoint search_lines (needle : text) (ln : nat) (ls : list text) : list position :=
  match ls with
  | [] => []
  | l :: ls' => search_line needle ln l 0 ++ search_lines needle (ln + 1) ls'
  end.

(** [Buffer::search], mod.rs:327-344. *)
Definition buf_search (b : buffer) (needle : text) : res (list position) :=
  let* data := buf_data b in
  Ok (search_lines needle 0 (str_lines data)).

(** [Buffer::modified], mod.rs:372-374. *)
Definition buf_modified (b : buffer) : bool := negb (hist_at_mark (b_history b)).

(** [Buffer::line_count], mod.rs:388-390. *)
Definition buf_line_count (b : buffer) : res nat :=
  let* data := buf_data b in Ok (count_lf data + 1).

(** [Buffer::file_name], mod.rs:211-216. *)
Definition buf_file_name (b : buffer) : option text :=
  match b_path b with
  | Some p => match path_file_name p with
              | Some n => decode_strict n
              | None => None
              end
  | None => None
  end.

(** [Buffer::file_extension], mod.rs:446-456. *)
Definition buf_file_extension (b : buffer) : option text :=
  match b_path b with
  | Some p => match path_extension p with
              | Some (x :: e) => Some (decode_lossy (x :: e))
              | Some [] => None
              | None => None
              end
  | None => None
  end.

(** ** File system

    The part of the operating system the code relies on.  A path leads to a
    target: the name that is left when relative paths, ".", ".." and symbolic
    links have been resolved; [None] if a directory on the way is missing.  Several
    paths can lead to one target.  A target holds a regular file that can be
    read and written, or something that can be neither (a directory, a file
    without permissions), or nothing yet.  Write-only and read-only files are not
    modelled apart from saves that fail. *)
Inductive node := Regular (bs : list byte) | Special.
Record fsys := FS { fs_target : path -> option path; fs_node : path -> option node }.

(** Reading the file at a path; [None]: it cannot be read. *)
Definition fs_read (f : fsys) (p : path) : option (list byte) :=
  match fs_target f p with
  | Some q => match fs_node f q with Some (Regular bs) => Some bs | _ => None end
  | None => None
  end.
(** [Path::canonicalize]: the target, if there is something. *)
Definition fs_canon (f : fsys) (p : path) : option path :=
  match fs_target f p with
  | Some q => match fs_node f q with Some _ => Some q | None => None end
  | None => None
  end.
(** Whether [File::create] is possible. *)
Definition fs_creatable (f : fsys) (p : path) : bool :=
  match fs_target f p with
  | Some q => match fs_node f q with Some Special => false | _ => true end
  | None => false
  end.

(** What happens to a [save]: [File::create] fails; it succeeds, truncating the
    file, but [write_all] fails after [k] bytes; or everything succeeds. *)
Inductive write_outcome := CreateFails | WriteFails (k : nat) | WriteSucceeds.
Definition outcome (f : fsys) (p : path) (w : write_outcome) : write_outcome :=
  if fs_creatable f p then w else CreateFails.

(** Errors, src/errors.rs:1-27. *)
Inductive error := EmptyWorkspace | MissingPath | MissingSyntax | IoError
                 | ParsingError | ScopeError.

Inductive result (A : Type) := ROk (a : A) | RErr (e : error).
Arguments ROk {A} a.
Arguments RErr {A} e.

(** Truncating and writing the file a path leads to. *)
Definition fs_write (f : fsys) (p : path) (bs : list byte) : fsys :=
  match fs_target f p with
  | Some q => FS (fs_target f) (fun x => if path_eqb x q then Some (Regular bs) else fs_node f x)
  | None => f
  end.

(** [fs::read_to_string] *)
Definition read_to_string (f : fsys) (p : path) : option text :=
  match fs_read f p with
  | Some bs => decode_strict bs
  | None => None
  end.

(** [Buffer::from_file], mod.rs:113-137.  The disk does not change between
    reading and [canonicalize]. *)
Definition from_file (al : allocator) (f : fsys) (p : path) : res (result buffer) :=
  match read_to_string f p with
  | None => Ok (RErr IoError)
  | Some content =>
    let* g := gb_new al content in
    match fs_canon f p with
    | None => Ok (RErr IoError)
    | Some cp =>
      Ok (ROk (Buf None g (Some cp) (cursor_new (Pos 0 0)) (hist_mark hist_new)
                   None None false []))
    end
  end.

(** [Buffer::save], mod.rs:180-196.  Creating the empty path always fails. *)
Definition buf_save (f : fsys) (w : write_outcome) (b : buffer)
  : res (result unit * buffer * fsys) :=
  match b_path b with
  | None => Ok (RErr IoError, b, f)
  | Some p =>
    match outcome f p w with
    | CreateFails => Ok (RErr IoError, b, f)
    | WriteFails k =>
      let* data := buf_data b in
      Ok (RErr IoError, b, fs_write f p (firstn k (enc data)))
    | WriteSucceeds =>
      let* data := buf_data b in
      Ok (ROk tt, set_history b (hist_mark (b_history b)), fs_write f p (enc data))
    end
  end.

(** [Buffer::reload], mod.rs:413-425. *)
Definition buf_reload (brk : brk_rule) (al : allocator) (f : fsys) (b : buffer)
  : res (result unit * buffer) :=
  match b_path b with
  | None => Ok (RErr MissingPath, b)
  | Some p =>
    match read_to_string f p with
    | None => Ok (RErr IoError, b)
    | Some content =>
      let* b' := buf_replace brk al b content in
      Ok (ROk tt, set_history b' (hist_mark (b_history b')))
    end
  end.
