(** Specification: everything a token iterator ever returns, for any parser. *)
From Verif Require Import Base Utf8 Grapheme Position LineIterator Spec Buffer Token.

Section Stream.
Variables pstate scopeop stack : Type.
Variable parse_line : pstate -> text -> option (list (nat * scopeop)) * pstate.
Variable apply : stack -> scopeop -> stack * bool.
Variable brk : brk_rule.

(** A token, an error (which ends iteration for now), or a panic. *)
Inductive item := Tok (k : token stack) | Stop (e : error) | Boom.

(** A line, its text [c] without the newline, from byte [from], which is column
    [col]; [evs] are the events to come.  Each event beyond the last cut cuts off
    a lexeme, with the scope from before the event; if the event cannot be
    applied the lexeme is lost.  What is left at the end is a lexeme too.
    [str_slice] is std's [&c[a..b]], which panics off char boundaries. *)
Fixpoint line_items (n : nat) (c : text) (evs : list (nat * scopeop)) (sc : stack) (from col : nat)
  : list item * stack :=
  match evs with
  | [] =>
    (if from <? blen c then
       [match str_slice c from (blen c) with Ok v => Tok (Lexeme (Lex v sc (Pos n col))) | Panic => Boom end]
     else [], sc)
  | (at_byte, op) :: evs' =>
    let '(sc', ok) := apply sc op in
    if from <? at_byte then
      match str_slice c from (Nat.min at_byte (blen c)) with
      | Ok v =>
        let '(ks, sc'') := line_items n c evs' sc' at_byte (col + length (graphemes brk v)) in
        ((if ok then Tok (Lexeme (Lex v sc (Pos n col))) else Stop ScopeError) :: ks, sc'')
      | Panic => ([Boom], sc)
      end
    else
      let '(ks, sc'') := line_items n c evs' sc' from col in
      (if ok then ks else Stop ScopeError :: ks, sc'')
  end.

(** What the parser is given: the line with its newline, if it has one. *)
Definition whole (c : text) (rest : list text) : text :=
  match rest with [] => c | _ => c ++ [LF] end.

(** The lines after the first, from line [n].  A line that is not parsed is left
    out, with the newline before it. *)
Fixpoint rest_items (n : nat) (cs : list text) (s : pstate) (sc : stack) : list item :=
  match cs with
  | [] => []
  | c :: cs' =>
    match parse_line s (whole c cs') with
    | (None, s') => Stop ParsingError :: rest_items (S n) cs' s' sc
    | (Some evs, s') =>
      let '(ks, sc') := line_items n c evs sc 0 0 in
      Tok Newline :: ks ++ rest_items (S n) cs' s' sc'
    end
  end.

(** The whole text; [None] if the first line is not parsed. *)
Definition stream (start : pstate) (new : stack) (t : text) : option (list item) :=
  match lines_of t with
  | [] => None
  | c :: cs =>
    match parse_line start (whole c cs) with
    | (None, _) => None
    | (Some evs, s) =>
      let '(ks, sc) := line_items 0 c evs new 0 0 in Some (ks ++ rest_items 1 cs s sc)
    end
  end.

(** What [n] calls return, [None] if one panics: after the last item, nothing
    any more. *)
Fixpoint play (n : nat) (ks : list item) : option (list (option (token stack))) :=
  match n, ks with
  | 0, _ => Some []
  | S n', [] => option_map (cons None) (play n' [])
  | S n', Tok k :: ks' => option_map (cons (Some k)) (play n' ks')
  | S n', Stop e :: ks' => option_map (cons None) (play n' ks')
  | S _, Boom :: _ => None
  end.
(** The error recorded then: the last one. *)
Definition recorded (n : nat) (ks : list item) : option error :=
  fold_left (fun r k => match k with Stop e => Some e | _ => r end) (firstn n ks) None.
End Stream.
Arguments Tok {stack} _.
Arguments Stop {stack} _.
Arguments Boom {stack}.
Arguments play {stack} _ _.
Arguments recorded {stack} _ _.
