(** Buffer calls again, with a change callback that panics.  The panic unwinds
    through the call to the program, which catches it and goes on using the buffer:
    what was done before the callback was called stays done, what comes after it
    does not happen.  Panics of the code itself are still [Panic]. *)
From Verif Require Import Base Utf8 Grapheme Position GapBuffer Cursor PathModel Buffer BufferCalls.

(** How code that may call the callback ends.  [Went a b n]: with result [a], and
    [n] more calls of the callback would return; [Thrown b]: the callback panicked
    and the buffer was left as [b]. *)
Inductive flow (A : Type) := Went (a : A) (b : buffer) (n : nat) | Thrown (b : buffer).
Arguments Went {A} a b n.
Arguments Thrown {A} b.

(** "Run the change callback, if present", insert.rs:28-31,67-70,
    delete.rs:27-30,40-43, replace.rs:113-116.  The next [n] calls of it return, the
    one after that panics.  No storage is borrowed at that moment: the borrows of
    insert.rs:23-26,64, delete.rs:22-25,35-38 end with their statements. *)
Definition tell {A} (a : A) (b : buffer) (p : position) (n : nat) : flow A :=
  if b_callback b then
    match n with
    | 0 => Thrown (notify b p)
    | S n => Went a (notify b p) n
    end
  else Went a (notify b p) n.

(** [replace_content], replace.rs:96-117: the storage and the cursor are replaced
    before the callback is called. *)
Definition replace_content_t {A} (brk : brk_rule) (al : allocator) (content : text) (a : A) (b : buffer) (n : nat)
  : res (flow A) :=
  let* g := gb_new al content in
  let c0 := cursor_new (Pos 0 0) in
  let* (moved, c1) := move_to brk g c0 (c_pos (b_cursor b)) in
  let* c2 := (if (moved : bool) then Ok c1
              else let* (_, c) := move_to brk g c1 (Pos (line (c_pos (b_cursor b))) 0) in Ok c) in
  Ok (tell a (set_cursor (set_data b g) c2) (Pos 0 0) n).

(** [Operation::run]: insert.rs:22-32, delete.rs:20-31, replace.rs:23-25,
    group.rs:20-24. *)
Fixpoint op_run_t (brk : brk_rule) (al : allocator) (op : operation) (b : buffer) (n : nat) {struct op}
  : res (flow operation) :=
  match op with
  | OpInsert content p =>
    let* g := gb_insert brk al (b_data b) content p in
    Ok (tell op (set_data b g) p n)
  | OpDelete _ r =>
    let* content := gb_read brk (b_data b) r in
    let* g := gb_delete brk (b_data b) r in
    Ok (tell (OpDelete content r) (set_data b g) (r_start r) n)
  | OpReplace old new => replace_content_t brk al new op b n
  | OpGroup ops =>
    let* x :=
      (fix go (ops : list operation) (b : buffer) (n : nat) : res (flow (list operation)) :=
         match ops with
         | [] => Ok (Went [] b n)
         | o :: rest =>
           let* x := op_run_t brk al o b n in
           match x with
           | Thrown b => Ok (Thrown b)
           | Went o' b n =>
             let* y := go rest b n in
             match y with
             | Thrown b => Ok (Thrown b)
             | Went rest' b n => Ok (Went (o' :: rest') b n)
             end
           end
         end) ops b n in
    match x with
    | Thrown b => Ok (Thrown b)
    | Went ops' b n => Ok (Went (OpGroup ops') b n)
    end
  end.

(** [Operation::reverse]: insert.rs:37-71, delete.rs:33-45, replace.rs:27-29,
    group.rs:27-31 (last operation first). *)
Fixpoint op_reverse_t (brk : brk_rule) (al : allocator) (op : operation) (b : buffer) (n : nat) {struct op}
  : res (flow unit) :=
  match op with
  | OpInsert content p =>
    match insert_end brk content p with
    | None => Ok (Went tt b n)
    | Some e =>
      let* g := gb_delete brk (b_data b) (range_new p e) in
      Ok (tell tt (set_data b g) p n)
    end
  | OpDelete (Some content) r =>
    let* g := gb_insert brk al (b_data b) content (r_start r) in
    Ok (tell tt (set_data b g) (r_start r) n)
  | OpDelete None _ => Ok (Went tt b n)
  | OpReplace old new => replace_content_t brk al old tt b n
  | OpGroup ops =>
    (fix go (ops : list operation) (b : buffer) (n : nat) : res (flow unit) :=
       match ops with
       | [] => Ok (Went tt b n)
       | o :: rest =>
         let* x := go rest b n in
         match x with
         | Thrown b => Ok (Thrown b)
         | Went _ b n => op_reverse_t brk al o b n
         end
       end) ops b n
  end.

(** What the program sees of a call that edits: [None], it caught the callback's
    panic.  The operation is stored only if [run] returned: insert.rs:99-107,
    delete.rs:126-133, replace.rs:85-92. *)
Definition stored (x : res (flow operation)) : res (option unit * buffer) :=
  let* x := x in
  match x with
  | Thrown b => Ok (None, b)
  | Went op b _ => Ok (Some tt, store b op)
  end.

(** [Buffer::insert], insert.rs:97-108. *)
Definition buf_insert_t (brk : brk_rule) (al : allocator) (n : nat) (b : buffer) (data : text) : res (option unit * buffer) :=
  stored (op_run_t brk al (OpInsert data (c_pos (b_cursor b))) b n).

(** [Buffer::delete_range], delete.rs:123-134. *)
Definition buf_delete_range_t (brk : brk_rule) (al : allocator) (n : nat) (b : buffer) (r : prange) : res (option unit * buffer) :=
  stored (op_run_t brk al (OpDelete None r) b n).

(** [Buffer::delete], delete.rs:77-100. *)
Definition buf_delete_t (brk : brk_rule) (al : allocator) (n : nat) (b : buffer) : res (option unit * buffer) :=
  let p := c_pos (b_cursor b) in
  let fin := Pos (line p) (offset p + 1) in
  let* ok := in_bounds brk (b_data b) fin in
  let fin := if (ok : bool) then fin else Pos (line p + 1) 0 in
  buf_delete_range_t brk al n b (range_new p fin).

(** [Buffer::replace], replace.rs:76-93. *)
Definition buf_replace_t (brk : brk_rule) (al : allocator) (n : nat) (b : buffer) (content : text) : res (option unit * buffer) :=
  let* old_content := buf_data b in
  if list_N_eqb content old_content then Ok (Some tt, b)
  else
    let* old := buf_data b in
    stored (op_run_t brk al (OpReplace old content) b n).

(** [Buffer::undo], mod.rs:243-261: the operation has left the group or the history
    before it is reversed. *)
Definition buf_undo_t (brk : brk_rule) (al : allocator) (n : nat) (b : buffer) : res (option unit * buffer) :=
  let b0 := set_group b None in
  let '(op, b1) :=
    match b_group b with
    | Some (o :: ops) => (Some (OpGroup (o :: ops)), b0)
    | Some [] | None =>
      let '(op, h) := hist_previous (b_history b0) in (op, set_history b0 h)
    end in
  match op with
  | Some op =>
    let* x := op_reverse_t brk al op b1 n in
    match x with
    | Thrown b => Ok (None, b)
    | Went _ b _ => Ok (Some tt, b)
    end
  | None => Ok (Some tt, b1)
  end.

(** [Buffer::redo], mod.rs:279-284. *)
Definition buf_redo_t (brk : brk_rule) (al : allocator) (n : nat) (b : buffer) : res (option unit * buffer) :=
  let '(op, h) := hist_next (b_history b) in
  let b1 := set_history b h in
  match op with
  | Some op =>
    let* x := op_run_t brk al op b1 n in
    match x with
    | Thrown b => Ok (None, b)
    | Went _ b _ => Ok (Some tt, b)
    end
  | None => Ok (Some tt, b1)
  end.

(** [Buffer::reload], mod.rs:413-425: the history is marked after [replace]. *)
Definition buf_reload_t (brk : brk_rule) (al : allocator) (n : nat) (f : fsys) (b : buffer) : res (option (result unit) * buffer) :=
  match b_path b with
  | None => Ok (Some (RErr MissingPath), b)
  | Some p =>
    match read_to_string f p with
    | None => Ok (Some (RErr IoError), b)
    | Some content =>
      let* (x, b') := buf_replace_t brk al n b content in
      match x with
      | None => Ok (None, b')
      | Some _ => Ok (Some (ROk tt), set_history b' (hist_mark (b_history b')))
      end
    end
  end.

(** Calls during which the callback panics when it is called for the [n+1]st time;
    the result is [None] if it was.  Other calls do not call it. *)
Definition unit_t (x : res (option unit * buffer)) (f : fsys) : res (option bout * buffer * fsys) :=
  let* (r, b) := x in
  Ok (match r with None => None | Some _ => Some BUnit end, b, f).
Definition bexec_t (brk : brk_rule) (al : allocator) (n : nat) (c : bcall) (b : buffer) (f : fsys)
  : res (option bout * buffer * fsys) :=
  match c with
  | BInsert d => unit_t (buf_insert_t brk al n b d) f
  | BDelete => unit_t (buf_delete_t brk al n b) f
  | BDeleteRange p q => unit_t (buf_delete_range_t brk al n b (range_new p q)) f
  | BReplace s => unit_t (buf_replace_t brk al n b s) f
  | BUndo => unit_t (buf_undo_t brk al n b) f
  | BRedo => unit_t (buf_redo_t brk al n b) f
  | BReload =>
    let* (r, b') := buf_reload_t brk al n f b in
    Ok (match r with None => None | Some r => Some (BResult r) end, b', f)
  | _ => let* (o, b', f') := bexec brk al c b f in Ok (Some o, b', f')
  end.

(** Sequences of calls, each with the number of times the callback returns. *)
Fixpoint brun_t (brk : brk_rule) (cs : list (allocator * nat * bcall)) (b : buffer) (f : fsys)
  : res (list (option bout) * buffer * fsys) :=
  match cs with
  | [] => Ok ([], b, f)
  | (al, n, c) :: cs' =>
    let* (o, b1, f1) := bexec_t brk al n c b f in
    let* (os, b2, f2) := brun_t brk cs' b1 f1 in
    Ok (o :: os, b2, f2)
  end.
