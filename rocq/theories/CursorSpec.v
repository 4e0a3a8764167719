(** Specification of cursor movement over a plain text. *)
From Verif Require Import Base Utf8 Grapheme Position Spec.

(** Number of graphemes on a line; 0 if there is no such line. *)
Definition line_width (brk : brk_rule) (t : text) (l : nat) : nat :=
  length (graphemes brk (nth l (lines_of t) [])).

Inductive cmove :=
| MTo (p : position) | MUp | MDown | MLeft | MRight | MStart | MEnd | MLast | MFirst.

(** A cursor: where it is and the column it would like to be in. *)
Record spec_cursor := SC { at_pos : position; wish : nat }.
Definition go (p : position) : spec_cursor := SC p (offset p).

(** A movement whose target does not exist leaves the cursor alone. *)
Definition spec_move (brk : brk_rule) (t : text) (m : cmove) (c : spec_cursor) : spec_cursor :=
  let l := line (at_pos c) in
  let o := offset (at_pos c) in
  let n := length (lines_of t) in
  let go_to p := if exists_at brk t p then go p else c in
  let go_line k := if k <? n then SC (Pos k (Nat.min (wish c) (line_width brk t k))) (wish c) else c in
  match m with
  | MTo p => go_to p
  | MUp => if l =? 0 then c else go_line (l - 1)
  | MDown => go_line (l + 1)
  | MLeft => if o =? 0 then c else go_to (Pos l (o - 1))
  | MRight => go_to (Pos l (o + 1))
  | MStart => go_to (Pos l 0)
  | MEnd => (* an empty last line has no end to go to: the wish is kept *)
    if (l =? n - 1) && (line_width brk t l =? 0) then c else go_to (Pos l (line_width brk t l))
  | MLast => go (Pos (n - 1) (Nat.min (wish c) (line_width brk t (n - 1))))
  | MFirst => go (Pos 0 (Nat.min (wish c) (line_width brk t 0)))
  end.

(** The line reached by moving up and down only. *)
Fixpoint spec_lines (n : nat) (ups : list bool) (l : nat) : nat :=
  match ups with
  | [] => l
  | true :: r => spec_lines n r (l - 1)
  | false :: r => spec_lines n r (Nat.min (l + 1) (n - 1))
  end.
