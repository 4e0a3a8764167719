(** Property C75: everything a token iterator ever returns.  Specification:
    TokenStream.v ([stream], [play], [recorded]) and TokenSpec.v ([steps],
    [yields]).  Nothing is assumed of the parser unless said. *)
From Coq Require Import String.
From Verif Require Import Base Utf8 Grapheme UnicodeTable Position LineIterator Buffer Token Spec TokenSpec
  TokenStream TokenStreamProofs TokenWitness Witness.

(** C75: what [n] calls of [next] return, and the error recorded then, also after
    [next] has returned [None], for every number of calls, text, parser and scope
    stack; and exactly when they panic. *)
Theorem C75_stream_exactly : forall pstate scopeop stack
  (parse_line : pstate -> text -> option (list (nat * scopeop)) * pstate)
  (apply : stack -> scopeop -> stack * bool) brk start new t,
  match stream pstate scopeop stack parse_line apply brk start new t with
  | None => ti_new pstate scopeop stack parse_line new t start = Ok (RErr ParsingError)
  | Some ks => exists it, ti_new pstate scopeop stack parse_line new t start = Ok (ROk it) /\ forall n,
      match steps (ti_next pstate scopeop stack parse_line apply brk) n it with
      | Ok (xs, it') => play n ks = Some xs /\ ti_error it' = recorded n ks
      | Panic => play n ks = None
      end
  end.
Proof. exact stream_exactly. Qed.
Print Assumptions C75_stream_exactly.

(** C75: with events at char boundaries no call panics, whatever else fails. *)
Theorem C75_no_panic : forall pstate scopeop stack
  (parse_line : pstate -> text -> option (list (nat * scopeop)) * pstate)
  (apply : stack -> scopeop -> stack * bool) brk start new t,
  on_boundaries pstate scopeop parse_line ->
  match stream pstate scopeop stack parse_line apply brk start new t with
  | None => True
  | Some ks => ~ In Boom ks /\ forall n, exists xs, play n ks = Some xs
  end.
Proof. exact stream_fine. Qed.
Print Assumptions C75_no_panic.

(** C75: the tokens up to the first [None] are the items up to the first error,
    and that error is the one recorded. *)
Theorem C75_until_the_first_error : forall pstate scopeop stack
  (parse_line : pstate -> text -> option (list (nat * scopeop)) * pstate)
  (apply : stack -> scopeop -> stack * bool) brk start new t xs it,
  yields pstate scopeop stack parse_line apply brk start new t xs it ->
  exists rest, stream pstate scopeop stack parse_line apply brk start new t = Some (map Tok xs ++ rest)%list /\
  match rest with
  | [] => ti_error it = None
  | Stop e :: _ => ti_error it = Some e
  | _ => False
  end.
Proof. exact yields_stream. Qed.
Print Assumptions C75_until_the_first_error.

(** The exclamation mark cannot be applied, so the lexeme before it is lost; the
    second line is not parsed; the third follows. *)
Definition failing : text := (txt "a!b" ++ nl ++ txt "c?" ++ nl ++ txt "d e")%list.
Example C75_example :
  on_boundaries nat N (mark_line spaces) /\
  stream nat N (list N) (mark_line spaces) push uax29_15 0 [] failing =
  Some [Stop ScopeError; Tok (Lexeme (Lex (txt "!b") [33%N] (Pos 0 1)));
        Stop ParsingError;
        Tok Newline; Tok (Lexeme (Lex (txt "d") [0; 33]%N (Pos 2 0)));
        Tok (Lexeme (Lex (txt " e") [32; 0; 33]%N (Pos 2 1)))].
Proof. split; [apply mark_line_boundaries|]. vm_compute. reflexivity. Qed.
(** An event in the middle of a char panics. *)
Example C75_boom_example :
  stream nat N (list N) (fun s _ => (Some [(1, 7%N)], s)) push uax29_15 0 [] e_acute = Some [Boom].
Proof. vm_compute. reflexivity. Qed.
