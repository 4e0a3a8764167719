(** Sequences of cursor calls, and the terms in which they are specified. *)
From Verif Require Import Base Utf8 Grapheme Position GapBuffer Cursor Spec CursorSpec.

(** One call of the cursor API. *)
Definition cexec (brk : brk_rule) (g : gapbuf) (m : cmove) (c : cursor) : res cursor :=
  match m with
  | MTo p => let* (_, c') := move_to brk g c p in Ok c'
  | MUp => move_up brk g c
  | MDown => move_down brk g c
  | MLeft => move_left brk g c
  | MRight => move_right brk g c
  | MStart => move_to_start_of_line brk g c
  | MEnd => move_to_end_of_line brk g c
  | MLast => move_to_last_line brk g c
  | MFirst => move_to_first_line brk g c
  end.
Fixpoint crun (brk : brk_rule) (g : gapbuf) (ms : list cmove) (c : cursor) : res cursor :=
  match ms with
  | [] => Ok c
  | m :: ms' => let* c' := cexec brk g m c in crun brk g ms' c'
  end.
Definition view (c : cursor) : spec_cursor := SC (c_pos c) (c_sticky c).

(** The cursor has not moved, or is at a position of the buffer. *)
Definition in_or_same (brk : brk_rule) (g : gapbuf) (c c' : cursor) : Prop :=
  c_pos c' = c_pos c \/ in_bounds brk g (c_pos c') = Ok true.

(** The cursor is on a line of the text, as close to the wished column as the
    line allows. *)
Definition settled (brk : brk_rule) (t : text) (c : cursor) : Prop :=
  line (c_pos c) < length (lines_of t) /\
  offset (c_pos c) = Nat.min (c_sticky c) (line_width brk t (line (c_pos c))).
