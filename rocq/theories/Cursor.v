(** The bounds-checked cursor, src/buffer/cursor.rs. *)
From Verif Require Import Base Utf8 Grapheme Position GapBuffer.

(** [str::split_inclusive('\n')]: lines keeping their terminator, no empty
    last piece (std, used by [str::lines]). *)
Fixpoint split_inclusive (s : text) : list text :=
  match s with
  | [] => []
  | c :: s' =>
    if N.eqb LF c then [c] :: split_inclusive s'
    else match split_inclusive s' with
         | l :: ls => (c :: l) :: ls
         | [] => [[c]]
         end
  end.

(** [str::strip_suffix(c)] for a char; [None] if it does not end with [c]. *)
Definition strip_suffix (c : char) (l : text) : option text :=
  match rev l with
  | x :: r => if N.eqb x c then Some (rev r) else None
  | [] => None
  end.

(** [str::lines]: strips "\n" or "\r\n" (std), used at cursor.rs:95,124,178,225
    and src/buffer/mod.rs:330. *)
Definition strip_eol (l : text) : text :=
  match strip_suffix LF l with
  | None => l
  | Some l' => match strip_suffix CR l' with None => l' | Some l'' => l'' end
  end.
Definition str_lines (s : text) : list text := map strip_eol (split_inclusive s).

(** src/buffer/cursor.rs:12-16. The [data] field, an [Rc] of the buffer's own
    gap buffer, is passed to each method instead. *)
Record cursor := Cur { c_pos : position; c_sticky : nat }.

(** [Cursor::new], cursor.rs:34-40. *)
Definition cursor_new (p : position) : cursor := Cur p (offset p).

(** [move_to], cursor.rs:65-76: returned flag and updated cursor. *)
Definition move_to (brk : brk_rule) (g : gapbuf) (c : cursor) (p : position)
  : res (bool * cursor) :=
  let* ok := in_bounds brk g p in
  if (ok : bool) then Ok (true, Cur p (offset p)) else Ok (false, c).

(** The fallback loops at cursor.rs:94-99 and 123-128. Simplification: the loop
    over [lines().enumerate()] that keeps the count of the line whose number is
    the target is written as a lookup. *)
Definition line_length_or_zero (brk : brk_rule) (s : text) (target : nat) : nat :=
  match nth_error (str_lines s) target with
  | Some l => length (graphemes brk l)
  | None => 0
  end.

(** Common tail of [move_up] (cursor.rs:92-109) and [move_down] (121-138). *)
Definition move_to_line (brk : brk_rule) (g : gapbuf) (c : cursor) (target : nat)
  : res cursor :=
  let new_position := Pos target (c_sticky c) in
  let* (moved, c1) := move_to brk g c new_position in
  if (moved : bool) then Ok c1
  else
    let* s := gb_to_string g in
    let target_offset := line_length_or_zero brk s target in
    let* (_, c2) := move_to brk g c1 (Pos target target_offset) in
    Ok (Cur (c_pos c2) (offset new_position)).

(** [move_up], cursor.rs:80-110. *)
Definition move_up (brk : brk_rule) (g : gapbuf) (c : cursor) : res cursor :=
  if line (c_pos c) =? 0 then Ok c
  else
    let* target := usub (line (c_pos c)) 1 in
    move_to_line brk g c target.

(** [move_down], cursor.rs:114-139. *)
Definition move_down (brk : brk_rule) (g : gapbuf) (c : cursor) : res cursor :=
  move_to_line brk g c (line (c_pos c) + 1).

(** [move_left], cursor.rs:143-154. *)
Definition move_left (brk : brk_rule) (g : gapbuf) (c : cursor) : res cursor :=
  if offset (c_pos c) =? 0 then Ok c
  else
    let* o := usub (offset (c_pos c)) 1 in
    let* (_, c') := move_to brk g c (Pos (line (c_pos c)) o) in Ok c'.

(** [move_right], cursor.rs:158-164. *)
Definition move_right (brk : brk_rule) (g : gapbuf) (c : cursor) : res cursor :=
  let* (_, c') := move_to brk g c (Pos (line (c_pos c)) (offset (c_pos c) + 1)) in Ok c'.

(** [move_to_start_of_line], cursor.rs:167-173. *)
Definition move_to_start_of_line (brk : brk_rule) (g : gapbuf) (c : cursor) : res cursor :=
  let* (_, c') := move_to brk g c (Pos (line (c_pos c)) 0) in Ok c'.

(** [move_to_end_of_line], cursor.rs:176-186. *)
Definition move_to_end_of_line (brk : brk_rule) (g : gapbuf) (c : cursor) : res cursor :=
  let* data := gb_to_string g in
  match nth_error (str_lines data) (line (c_pos c)) with
  | Some l =>
    let* (_, c') := move_to brk g c (Pos (line (c_pos c)) (length (graphemes brk l))) in Ok c'
  | None => Ok c
  end.

(** The counting loop of [move_to_last_line], cursor.rs:191-200. *)
Fixpoint last_line_loop (gs : list grapheme) (ln len : nat) : nat * nat :=
  match gs with
  | [] => (ln, len)
  | g :: gs' => if is_lf g then last_line_loop gs' (ln + 1) 0
                else last_line_loop gs' ln (len + 1)
  end.

(** [move_to_last_line], cursor.rs:189-216. *)
Definition move_to_last_line (brk : brk_rule) (g : gapbuf) (c : cursor) : res cursor :=
  let* data := gb_to_string g in
  let '(ln, len) := last_line_loop (graphemes brk data) 0 0 in
  let target := if len <? c_sticky c then Pos ln len else Pos ln (c_sticky c) in
  let* (_, c') := move_to brk g c target in Ok c'.

(** [move_to_first_line], cursor.rs:219-244. *)
Definition move_to_first_line (brk : brk_rule) (g : gapbuf) (c : cursor) : res cursor :=
  let* data := gb_to_string g in
  let len := match nth_error (str_lines data) 0 with
             | Some l => length (graphemes brk l)
             | None => 0
             end in
  let target := if len <? c_sticky c then Pos 0 len else Pos 0 (c_sticky c) in
  let* (_, c') := move_to brk g c target in Ok c'.
