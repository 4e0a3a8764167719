(** Specification: two highlightings that agree on the first lines. *)
From Verif Require Import Base Utf8 Grapheme Position Buffer Token TokenSpec.

Section Highlight.
Variables pstate scopeop stack : Type.
Variable parse_line : pstate -> text -> option (list (nat * scopeop)) * pstate.
Variable apply : stack -> scopeop -> stack * bool.
Variable brk : brk_rule.
Let next := ti_next pstate scopeop stack parse_line apply brk.

(** What [k] calls of [next] return and the error recorded then. *)
Definition heard (k : nat) (it : token_iter pstate scopeop stack)
  : res (list (option (token stack)) * option error) :=
  let* (xs, it') := steps next k it in Ok (xs, ti_error it').

(** Whatever is called, after the first [m] calls only lexemes on line [n] or
    later are returned. *)
Definition beyond (n m : nat) (it : token_iter pstate scopeop stack) : Prop :=
  forall k xs it', steps next k it = Ok (xs, it') ->
    Forall (fun x => match x with Some (Lexeme l) => n <= line (lx_position l) | _ => True end) (skipn m xs).

(** Highlighting two texts gives the same on the first [n] lines: both fail in
    the first line, or some number of calls return the same (or panic alike), with
    the same errors recorded, after which both are at line [n] or later. *)
Definition highlighted_alike (start : pstate) (new : stack) (n : nat) (t t' : text) : Prop :=
  match ti_new pstate scopeop stack parse_line new t start, ti_new pstate scopeop stack parse_line new t' start with
  | Ok (ROk it), Ok (ROk it') =>
    exists m, (forall k, k <= m -> heard k it = heard k it') /\ beyond n m it /\ beyond n m it'
  | Ok (RErr e), Ok (RErr e') => e = e'
  | _, _ => False
  end.
End Highlight.
