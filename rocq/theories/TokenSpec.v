(** Specification of line iteration and tokens. *)
From Coq Require Import Sorted.
From Verif Require Import Base Utf8 Grapheme Position Spec Buffer Token.

(** Calling [next] until it first returns [None] yields [xs]. *)
Inductive drains {I X : Type} (next : I -> res (option X * I)) : I -> list X -> I -> Prop :=
| drains_end it it' : next it = Ok (None, it') -> drains next it [] it'
| drains_more it x it1 xs it' :
    next it = Ok (Some x, it1) -> drains next it1 xs it' -> drains next it (x :: xs) it'.

(** The first [n] calls of [next]: what they return, and the iterator. *)
Fixpoint steps {I X : Type} (next : I -> res (option X * I)) (n : nat) (it : I) : res (list (option X) * I) :=
  match n with
  | 0 => Ok ([], it)
  | S n' => let* (x, it1) := next it in let* (xs, it2) := steps next n' it1 in Ok (x :: xs, it2)
  end.

(** The text of tokens. *)
Definition token_text {S} (k : token S) : text :=
  match k with Newline => [LF] | Lexeme l => lx_value l end.
Definition text_of {S} (ts : list (token S)) : text := concat (map token_text ts).

(** Line and byte offset at which a text ends. *)
Definition end_line (t : text) : nat := length (lines_of t) - 1.
Definition end_byte (t : text) : nat := blen (last (lines_of t) []).

(** The lexemes of the last line. *)
Fixpoint last_line_values {S} (ts : list (token S)) (acc : list text) : list text :=
  match ts with
  | [] => acc
  | Newline :: ts' => last_line_values ts' []
  | Lexeme l :: ts' => last_line_values ts' (acc ++ [lx_value l])
  end.

Section Parser.
Variables pstate scopeop stack : Type.
Variable parse_line : pstate -> text -> option (list (nat * scopeop)) * pstate.
Variable apply : stack -> scopeop -> stack * bool.

(** What is assumed of the parser: events are at char boundaries of the line... *)
Definition on_boundaries : Prop := forall s l evs s', parse_line s l = (Some evs, s') ->
  Forall (fun e => exists a r, l = a ++ r /\ fst e = blen a) evs.
(** ... and, where said, in order. *)
Definition in_order : Prop := forall s l evs s', parse_line s l = (Some evs, s') ->
  Sorted le (map fst evs).

(** Parsing lines one after the other; [None] if one fails. *)
Fixpoint parse_all (s : pstate) (ls : list text) : option (list (list (nat * scopeop))) :=
  match ls with
  | [] => Some []
  | l :: ls' =>
    match parse_line s l with
    | (Some evs, s') => match parse_all s' ls' with Some r => Some (evs :: r) | None => None end
    | (None, _) => None
    end
  end.

(** Applying events one after the other; [None] if one fails. *)
Fixpoint apply_all (sc : stack) (ops : list scopeop) : option stack :=
  match ops with
  | [] => Some sc
  | op :: ops' => let '(sc', ok) := apply sc op in if (ok : bool) then apply_all sc' ops' else None
  end.

(** The scope at byte [k] of line [i]: all events of earlier lines, and those of
    line [i] at or before [k], applied in order. *)
Definition scope_at (start : pstate) (new : stack) (t : text) (i k : nat) : option stack :=
  match parse_all start (firstn (S i) (full_lines t)) with
  | Some evss =>
    apply_all new (map snd (concat (firstn i evss) ++ filter (fun e => fst e <=? k) (nth i evss [])))
  | None => None
  end.

(** Nothing fails: every line parses and every event applies. *)
Definition all_fine (start : pstate) (new : stack) (t : text) : Prop :=
  exists evss sc, parse_all start (full_lines t) = Some evss /\
    apply_all new (map snd (concat evss)) = Some sc.

(** Creating an iterator over a text and draining it yields [ks]. *)
Definition yields (brk : brk_rule) (start : pstate) (new : stack) (t : text)
           (ks : list (token stack)) (it : token_iter pstate scopeop stack) : Prop :=
  exists it0, ti_new _ _ _ parse_line new t start = Ok (ROk it0) /\
    drains (ti_next _ _ _ parse_line apply brk) it0 ks it.
End Parser.

(** Every token starts and ends at a cluster boundary of the text. *)
Definition on_clusters {S} (brk : brk_rule) (t : text) (ks : list (token S)) : Prop :=
  forall pre post, ks = pre ++ post ->
    no_merge brk [text_of pre; skipn (length (text_of pre)) t].
