(** Extended grapheme cluster segmentation.

    Models [UnicodeSegmentation::graphemes(true)] and [grapheme_indices(true)]
    of the crate unicode-segmentation (Cargo.toml), used at
    src/buffer/gap_buffer.rs:212,235, src/buffer/cursor.rs:97,126,182,193,227,
    src/buffer/operation/insert.rs:46,51, src/buffer/token/token_iterator.rs:104.

    The crate itself is not in the sandbox.  Segmentation is a left-to-right
    scan; whether there is a boundary before the next char is decided by a rule
    [brk cluster c] from the (non-empty) cluster accumulated so far.  The rules
    of UAX #29 have this form: each of them looks at the next char and at
    preceding chars of the current cluster only. *)
From Verif Require Import Base Utf8.

Notation grapheme := (list N) (only parsing).
(** A break rule. *)
Definition brk_rule := list char -> char -> bool.

(** Segment [s], [cur] being the cluster under construction. *)
Fixpoint seg_from (brk : brk_rule) (cur : list char) (s : text) : list grapheme :=
  match s with
  | [] => [cur]
  | c :: s' => if brk cur c then cur :: seg_from brk [c] s'
               else seg_from brk (cur ++ [c]) s'
  end.

(** [s.graphemes(true)] collected. *)
Definition graphemes (brk : brk_rule) (s : text) : list grapheme :=
  match s with
  | [] => []
  | c :: s' => seg_from brk [c] s'
  end.

(** [grapheme == "\n"]. *)
Definition is_lf (g : grapheme) : bool := list_N_eqb g [LF].

(** ** The UAX #29 rules (Unicode 15.0, crate version 1.10)

    Grapheme break classes, [GraphemeCat] of the crate. *)
Inductive gcb :=
| GC_Any | GC_CR | GC_LF | GC_Control | GC_Extend | GC_ZWJ
| GC_Regional_Indicator | GC_Prepend | GC_SpacingMark
| GC_L | GC_V | GC_T | GC_LV | GC_LVT | GC_Extended_Pictographic.

Definition gcb_eqb (a b : gcb) : bool :=
  match a, b with
  | GC_Any, GC_Any | GC_CR, GC_CR | GC_LF, GC_LF | GC_Control, GC_Control
  | GC_Extend, GC_Extend | GC_ZWJ, GC_ZWJ
  | GC_Regional_Indicator, GC_Regional_Indicator | GC_Prepend, GC_Prepend
  | GC_SpacingMark, GC_SpacingMark | GC_L, GC_L | GC_V, GC_V | GC_T, GC_T
  | GC_LV, GC_LV | GC_LVT, GC_LVT
  | GC_Extended_Pictographic, GC_Extended_Pictographic => true
  | _, _ => false
  end.

(** Is the (reversed) left context of the form ExtPict Extend* ?  ([handle_emoji]) *)
Fixpoint emoji_ctx (rcl : list gcb) : bool :=
  match rcl with
  | GC_Extend :: r => emoji_ctx r
  | GC_Extended_Pictographic :: _ => true
  | _ => false
  end.

(** Number of regional indicators ending the context.  ([handle_regional]) *)
Fixpoint ri_run (rcl : list gcb) : nat :=
  match rcl with
  | GC_Regional_Indicator :: r => S (ri_run r)
  | _ => 0
  end.

(** Boundary decision from the reversed classes of the current cluster and the
    class of the next char.  Mirrors [check_pair], [handle_emoji] and
    [handle_regional] of the crate. *)
Definition uax29_cls (rcl : list gcb) (after : gcb) : bool :=
  match rcl with
  | [] => true                                                       (* GB1 *)
  | before :: ctx =>
    match before, after with
    | GC_CR, GC_LF => false                                          (* GB3 *)
    | GC_Control, _ | GC_CR, _ | GC_LF, _ => true                    (* GB4 *)
    | _, GC_Control | _, GC_CR | _, GC_LF => true                    (* GB5 *)
    | GC_L, GC_L | GC_L, GC_V | GC_L, GC_LV | GC_L, GC_LVT => false  (* GB6 *)
    | GC_LV, GC_V | GC_LV, GC_T | GC_V, GC_V | GC_V, GC_T => false   (* GB7 *)
    | GC_LVT, GC_T | GC_T, GC_T => false                             (* GB8 *)
    | _, GC_Extend | _, GC_ZWJ => false                              (* GB9 *)
    | _, GC_SpacingMark => false                                     (* GB9a *)
    | GC_Prepend, _ => false                                         (* GB9b *)
    | GC_ZWJ, GC_Extended_Pictographic => negb (emoji_ctx ctx)       (* GB11 *)
    | GC_Regional_Indicator, GC_Regional_Indicator =>
        Nat.even (ri_run rcl)                                        (* GB12, GB13 *)
    | _, _ => true                                                   (* GB999 *)
    end
  end.

(** The UAX #29 break rule over a class table. *)
Definition uax29 (cls : char -> gcb) : brk_rule :=
  fun cur c => uax29_cls (rev (map cls cur)) (cls c).
