(** Tokens: src/buffer/token/{mod,token_iterator,token_set}.rs.

    syntect's parser and scope stack are external: their types and the two
    functions the code calls are section variables, so every result about this
    file quantifies over all of them. *)
From Verif Require Import Base Utf8 Grapheme Position LineIterator Buffer.

Section Syntect.

(** [ParseState], [ScopeStackOp], [ScopeStack]. *)
Variables pstate scopeop stack : Type.
(** [ParseState::parse_line]: the events, or a [ParsingError] ([None]), and the
    updated parser state. *)
Variable parse_line : pstate -> text -> option (list (nat * scopeop)) * pstate.
(** [ScopeStack::apply]: the updated stack and whether it succeeded. *)
Variable apply : stack -> scopeop -> stack * bool.
(** [ScopeStack::new]. *)
Variable stack_new : stack.
(** Grapheme segmentation. *)
Variable brk : brk_rule.

(** [Lexeme], token/mod.rs:17-21. *)
Record lexeme := Lex { lx_value : text; lx_scope : stack; lx_position : position }.
(** [Token], token/mod.rs:11-14. *)
Inductive token := Newline | Lexeme (l : lexeme).

(** token_iterator.rs:8-18.  [ti_events] is in pop order (the vector reversed). *)
Record token_iter := TI {
  ti_scopes : stack;
  ti_parser : pstate;
  ti_lines : line_iter;
  ti_line : option text;
  ti_byte_offset : nat;
  ti_position : position;
  ti_events : list (nat * scopeop);
  ti_error : option error }.

(** [parse_next_line], token_iterator.rs:135-159.  [None]: parsing error.
    [ti_events] in pop order: the two reversals (line 140 and [pop]) cancel. *)
Definition parse_next_line (t : token_iter) : res (option error * token_iter) :=
  let* (l, lines) := li_next (ti_lines t) in
  match l with
  | Some (line_number, line) =>
    let '(evs, parser) := parse_line (ti_parser t) line in
    match evs with
    | None =>
      Ok (Some ParsingError,
          TI (ti_scopes t) parser lines (ti_line t) (ti_byte_offset t) (ti_position t)
             (ti_events t) (ti_error t))
    | Some line_events =>
      Ok (None,
          TI (ti_scopes t) parser lines (Some line) 0 (Pos line_number 0)
             line_events (ti_error t))
    end
  | None =>
    Ok (None,
        TI (ti_scopes t) (ti_parser t) lines None (ti_byte_offset t) (ti_position t)
           (ti_events t) (ti_error t))
  end.

(** [TokenIterator::new], token_iterator.rs:21-42. *)
Definition ti_new (data : text) (parser : pstate) : res (result token_iter) :=
  let* (e, t) := parse_next_line
      (TI stack_new parser (li_new data) None 0 (Pos 0 0) [] None) in
  match e with
  | Some e => Ok (RErr e)
  | None => Ok (ROk t)
  end.

(** Result of [build_next_token]: [Ok(Some token)], [Ok(None)] or [Err]. *)
Inductive build_result := BToken (t : token) | BNone | BErr (e : error).

(** [line.ends_with('\n')] *)
Definition ends_with_lf (l : text) : bool :=
  match rev l with c :: _ => N.eqb c LF | [] => false end.

(** [end_of_line], token_iterator.rs:81-85. *)
Definition end_of_line (l : text) : nat :=
  if ends_with_lf l then blen l - 1 else blen l.

(** The [while let] loop and the end of [build_next_token] for a present line,
    token_iterator.rs:87-132: result, scopes, byte offset, position, remaining
    events and whether the current line is kept. *)
Fixpoint build_loop (line : text) (eol : nat) (evs : list (nat * scopeop))
         (scopes : stack) (boff : nat) (pos : position)
  : res (build_result * stack * nat * position * list (nat * scopeop) * bool) :=
  match evs with
  | [] =>
    if boff <? eol then
      let* v := str_slice line boff eol in
      Ok (BToken (Lexeme (Lex v scopes pos)), scopes, boff, pos, [], false)
    else Ok (BNone, scopes, boff, pos, [], false)
  | (event_offset, scope_change) :: evs' =>
    if boff <? event_offset then
      let end_of_token := Nat.min event_offset eol in
      let* v := str_slice line boff end_of_token in
      let lx := BToken (Lexeme (Lex v scopes pos)) in
      let pos' := Pos (Position.line pos) (offset pos + length (graphemes brk v)) in
      let '(scopes', ok) := apply scopes scope_change in
      if ok then Ok (lx, scopes', event_offset, pos', evs', true)
      else Ok (BErr ScopeError, scopes', event_offset, pos', evs', true)
    else
      let '(scopes', ok) := apply scopes scope_change in
      if ok then build_loop line eol evs' scopes' boff pos
      else Ok (BErr ScopeError, scopes', boff, pos, evs', true)
  end.

(** [build_next_token], token_iterator.rs:76-133. *)
Definition build_next_token (t : token_iter) : res (build_result * token_iter) :=
  match ti_line t with
  | Some line =>
    let* (r, scopes, boff, pos, evs, keep) :=
      build_loop line (end_of_line line) (ti_events t) (ti_scopes t)
                 (ti_byte_offset t) (ti_position t) in
    Ok (r, TI scopes (ti_parser t) (ti_lines t) (if (keep : bool) then Some line else None)
              boff pos evs (ti_error t))
  | None => Ok (BNone, t)
  end.

Definition set_error (t : token_iter) (e : error) : token_iter :=
  TI (ti_scopes t) (ti_parser t) (ti_lines t) (ti_line t) (ti_byte_offset t)
     (ti_position t) (ti_events t) (Some e).

(** [next_token] / [Iterator::next], token_iterator.rs:44-74,162-168. *)
Definition ti_next (t : token_iter) : res (option token * token_iter) :=
  let* (r, t1) := build_next_token t in
  match r with
  | BErr e => Ok (None, set_error t1 e)
  | BToken tok => Ok (Some tok, t1)
  | BNone =>
    let* (e, t2) := parse_next_line t1 in
    match e with
    | Some e => Ok (None, set_error t2 e)
    | None => match ti_line t2 with
              | Some _ => Ok (Some Newline, t2)
              | None => Ok (None, t2)
              end
    end
  end.

End Syntect.

Arguments Lex {stack} _ _ _.
Arguments lx_value {stack} _.
Arguments lx_scope {stack} _.
Arguments lx_position {stack} _.
Arguments Newline {stack}.
Arguments Lexeme {stack} _.
Arguments TI {pstate scopeop stack} _ _ _ _ _ _ _ _.
Arguments ti_scopes {pstate scopeop stack} _.
Arguments ti_parser {pstate scopeop stack} _.
Arguments ti_lines {pstate scopeop stack} _.
Arguments ti_line {pstate scopeop stack} _.
Arguments ti_byte_offset {pstate scopeop stack} _.
Arguments ti_position {pstate scopeop stack} _.
Arguments ti_events {pstate scopeop stack} _.
Arguments ti_error {pstate scopeop stack} _.

(** [TokenSet], token_set.rs:5-9, without its borrowed syntax set. *)
Record token_set := TS { ts_data : text; ts_syntax : syntax }.

(** [TokenSet::iter], token_set.rs:20-22; [start] is [ParseState::new]. *)
Definition ts_iter {pstate scopeop stack : Type}
           (parse_line : pstate -> text -> option (list (nat * scopeop)) * pstate)
           (stack_new : stack) (start : syntax -> pstate) (ts : token_set)
  : res (result (token_iter pstate scopeop stack)) :=
  ti_new _ _ _ parse_line stack_new (ts_data ts) (start (ts_syntax ts)).
