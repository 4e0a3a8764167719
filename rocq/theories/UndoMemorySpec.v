(** What the undo history keeps in memory. *)
From Verif Require Import Base Utf8 Grapheme Position GapBuffer Cursor PathModel Buffer Spec BufferCalls
  CopiesSpec Timeline.

(** Bytes that an operation keeps: [w] for the operation itself, and its texts
    (insert.rs:15-18, delete.rs:14-17, replace.rs:9-12, group.rs:11-13). *)
Fixpoint op_bytes (w : nat) (op : operation) : nat :=
  w + match op with
      | OpInsert d _ => size d
      | OpDelete (Some s) _ => size s
      | OpDelete None _ => 0
      | OpReplace s t => size s + size t
      | OpGroup ops => list_sum (map (op_bytes w) ops)
      end.
Definition ops_bytes (w : nat) (ops : list operation) : nat := list_sum (map (op_bytes w) ops).

(** Kept for undoing, with the edits of an open group, and for redoing. *)
Definition group_bytes (w : nat) (b : buffer) : nat :=
  match b_group b with Some ops => ops_bytes w ops | None => 0 end.
Definition kept_past (w : nat) (b : buffer) : nat := ops_bytes w (h_previous (b_history b)) + group_bytes w b.
Definition kept_future (w : nat) (b : buffer) : nat := ops_bytes w (h_next (b_history b)).
Definition kept (w : nat) (b : buffer) : nat := kept_past w b + kept_future w b.

Definition text_of (b : buffer) : text := match buf_data b with Ok t => t | Panic => [] end.
Definition differ (s t : text) : bool := if list_eq_dec N.eq_dec s t then false else true.

(** Is the call an edit? *)
Definition is_edit (c : bcall) (b : buffer) (f : fsys) : bool :=
  match c with
  | BInsert _ | BDelete | BDeleteRange _ _ => true
  | BReplace s => differ s (text_of b)
  | BReload => match file_of b f with Some s => differ s (text_of b) | None => false end
  | _ => false
  end.
(** Bytes it brings in and takes out: what is inserted, what reading the range of a
    deletion gives, or the whole texts before and after. *)
Definition read_size (brk : brk_rule) (b : buffer) (p q : position) : nat :=
  match buf_read brk b (range_new p q) with Ok (Some s) => size s | _ => 0 end.
Definition right_of (brk : brk_rule) (b : buffer) (p : position) : position :=
  match in_bounds brk (b_data b) (Pos (line p) (offset p + 1)) with
  | Ok true => Pos (line p) (offset p + 1)
  | _ => Pos (line p + 1) 0
  end.
Definition turnover (brk : brk_rule) (c : bcall) (b : buffer) (f : fsys) : nat :=
  match c with
  | BInsert d => size d
  | BDelete => read_size brk b (c_pos (b_cursor b)) (right_of brk b (c_pos (b_cursor b)))
  | BDeleteRange p q => read_size brk b p q
  | BReplace s => size (text_of b) + size s
  | BReload => size (text_of b) + match file_of b f with Some s => size s | None => 0 end
  | _ => 0
  end.
(** What a call can add: an edit that, with one operation; the end of a group with
    edits, one operation. *)
Definition group_open (b : buffer) : bool := match b_group b with Some _ => true | None => false end.
Definition group_has_edits (b : buffer) : bool := match b_group b with Some (_ :: _) => true | _ => false end.
Definition adds (w : nat) (brk : brk_rule) (c : bcall) (b : buffer) (f : fsys) : nat :=
  if is_edit c b f then w + turnover brk c b f
  else match c with BEndGroup => if group_has_edits b then w else 0 | _ => 0 end.

(** What the calls of a session can add. *)
Fixpoint session_adds (w : nat) (brk : brk_rule) (cs : list (allocator * bcall)) (b : buffer) (f : fsys) : nat :=
  match cs with
  | [] => 0
  | (al, c) :: cs' =>
    match bexec brk al c b f with
    | Ok (_, b', f') => adds w brk c b f + session_adds w brk cs' b' f'
    | Panic => 0
    end
  end.

(** Bytes handed to a call: its argument, or the file. *)
Definition handed (c : bcall) (b : buffer) (f : fsys) : nat :=
  match c with
  | BInsert d | BReplace d => size d
  | BReload => match file_of b f with Some s => size s | None => 0 end
  | _ => 0
  end.
