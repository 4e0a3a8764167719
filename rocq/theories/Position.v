(** Positions, distances, ranges. *)
From Verif Require Import Base Utf8.

(** src/buffer/position.rs:10-14. *)
Record position := Pos { line : nat; offset : nat }.

(** Derived [PartialEq], src/buffer/position.rs:10. *)
Definition pos_eqb (p q : position) : bool :=
  (line p =? line q) && (offset p =? offset q).

(** [PartialOrd::partial_cmp], src/buffer/position.rs:16-30 (always [Some]). *)
Definition pos_cmp (p q : position) : comparison :=
  if line p <? line q then Lt
  else if line q <? line p then Gt
  else if offset p <? offset q then Lt
  else if offset q <? offset p then Gt
  else Eq.

(** The operators [<], [>], [>=] derived by std from [partial_cmp]. *)
Definition pos_ltb (p q : position) : bool := match pos_cmp p q with Lt => true | _ => false end.
Definition pos_gtb (p q : position) : bool := match pos_cmp p q with Gt => true | _ => false end.
Definition pos_geb (p q : position) : bool := match pos_cmp p q with Lt => false | _ => true end.

(** [Position::new], src/buffer/position.rs:73-75. *)
Definition pos_new : position := Pos 0 0.

(** src/buffer/distance.rs:5-8. *)
Record distance := Dist { d_lines : nat; d_offset : nat }.

(** Number of newline chars: [s.chars().filter(|&c| c == '\n').count()]
    (src/buffer/distance.rs:27, src/buffer/mod.rs:389,
    src/buffer/operation/insert.rs:40). *)
Definition count_lf (s : text) : nat := length (filter (N.eqb LF) s).

(** [s.split('\n')] (src/buffer/distance.rs:28, operation/insert.rs:50). *)
Fixpoint split_lf (s : text) : list text :=
  match s with
  | [] => [[]]
  | c :: s' =>
    if N.eqb LF c then [] :: split_lf s'
    else match split_lf s' with
         | l :: ls => (c :: l) :: ls
         | [] => [[c]]
         end
  end.

(** [s.split('\n').last()]. *)
Definition last_line (s : text) : option text :=
  match rev (split_lf s) with [] => None | l :: _ => Some l end.

(** [Distance::of_str], src/buffer/distance.rs:25-30. *)
Definition of_str (s : text) : distance :=
  Dist (count_lf s)
       (match last_line s with Some l => blen l | None => 0 end).

(** [Add<Distance> for Position], src/buffer/position.rs:32-47. *)
Definition pos_add (p : position) (d : distance) : position :=
  let off := if 0 <? d_lines d then d_offset d else offset p + d_offset d in
  Pos (line p + d_lines d) off.

(** [AddAssign<Distance> for Position], src/buffer/position.rs:49-58. *)
Definition pos_add_assign (p : position) (d : distance) : position :=
  let l := line p + d_lines d in
  let off := if 0 <? d_lines d then d_offset d else offset p + d_offset d in
  Pos l off.

(** src/buffer/range.rs:5-8. *)
Record prange := Rng { r_start : position; r_end : position }.

(** [Range::new], src/buffer/range.rs:13-23. *)
Definition range_new (start fin : position) : prange :=
  if pos_gtb start fin then Rng fin start else Rng start fin.

(** [Range::includes], src/buffer/range.rs:59-61. *)
Definition range_includes (r : prange) (p : position) : bool :=
  pos_geb p (r_start r) && pos_ltb p (r_end r).

(** src/buffer/line_range.rs:5-8. *)
Record line_range := LRng { lr_start : nat; lr_end : nat }.

(** [LineRange::new], src/buffer/line_range.rs:13-22. *)
Definition line_range_new (start fin : nat) : line_range :=
  if start <? fin then LRng start fin else LRng fin start.

(** [LineRange::to_range], src/buffer/line_range.rs:48-59. *)
Definition to_range (r : line_range) : prange :=
  range_new (Pos (lr_start r) 0) (Pos (lr_end r) 0).

(** [LineRange::to_inclusive_range], src/buffer/line_range.rs:78-89. *)
Definition to_inclusive_range (r : line_range) : prange :=
  range_new (Pos (lr_start r) 0) (Pos (lr_end r + 1) 0).

(** [LineRange::includes], src/buffer/line_range.rs:105-107. *)
Definition line_range_includes (r : line_range) (l : nat) : bool :=
  (lr_start r <=? l) && (l <? lr_end r).
