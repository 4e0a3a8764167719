(** Properties C34-C38 and C50: line iteration and tokens.
    Specification: TokenSpec.v.  All theorems hold for every parser and scope
    stack ([parse_line], [apply]) that meet the hypotheses stated. *)
From Coq Require Import String Sorted.
From Verif Require Import Base Utf8 Grapheme UnicodeTable Position GapBuffer LineIterator Buffer Token
  Spec GapProps BufferCalls Timeline BufferSimple BufferFacts TokenSpec TokenProofs TokenProps Witness TokenWitness.

Ltac drain := eexists; split; [vm_compute; reflexivity|];
  repeat (eapply drains_more; [vm_compute; reflexivity|]); eapply drains_end; vm_compute; reflexivity.

(** C34: lines are numbered from 0, each with the newline that ends it;
    concatenated they are the text; afterwards there is nothing more. *)
Theorem C34_line_iterator : forall t, exists ls it, drains li_next (li_new t) ls it /\
  concat (map snd ls) = t /\ map fst ls = seq 0 (List.length ls) /\ map snd ls = full_lines t /\
  List.length ls = 1 + count_occ N.eq_dec t LF /\
  Forall (fun l => forall a b, snd l = a ++ LF :: b -> b = []) ls /\
  li_next it = Ok (None, it).
Proof. exact lines_partition. Qed.
Print Assumptions C34_line_iterator.

Example C34_example : full_lines (txt "a" ++ nl ++ nl ++ txt "b" ++ nl) = [txt "a" ++ nl; nl; txt "b" ++ nl; []].
Proof. vm_compute. reflexivity. Qed.

(** C35: if nothing fails, the tokens reproduce the text. *)
Theorem C35_tokens_reproduce : forall pstate scopeop stack parse_line apply new brk,
  on_boundaries pstate scopeop parse_line -> forall start data,
  all_fine pstate scopeop stack parse_line apply start new data ->
  exists ks it, yields pstate scopeop stack parse_line apply brk start new data ks it /\
    text_of ks = data /\
    (forall l, In (Lexeme l) ks -> ~ In LF (lx_value l)) /\
    ti_error it = None /\ ti_next pstate scopeop stack parse_line apply brk it = Ok (None, it).
Proof. exact tokens_reproduce. Qed.
Print Assumptions C35_tokens_reproduce.

Example C35_example :
  on_boundaries nat N (mark_line spaces) /\ in_order nat N (mark_line spaces) /\
  all_fine nat N (list N) (mark_line spaces) push 0 [] (txt "ab cd" ++ nl ++ txt "ef") /\
  exists it, mark_yields spaces (txt "ab cd" ++ nl ++ txt "ef")
    [Lexeme (Lex (txt "ab") [] (Pos 0 0)); Lexeme (Lex (txt " cd") [32%N] (Pos 0 2)); Newline;
     Lexeme (Lex (txt "ef") [0; 32]%N (Pos 1 0))] it.
Proof.
  split; [apply mark_line_boundaries|]. split; [apply mark_line_order|]. split.
  - eexists _, _. split; vm_compute; reflexivity.
  - eexists. drain.
Qed.

(** C36: a lexeme's position is where its value starts, and reading from there
    gives the value, if tokens start and end at cluster boundaries... *)
Theorem C36_token_positions :
  forall brk b f tl pstate scopeop stack parse_line apply new start ks it pre l post,
  on_boundaries pstate scopeop parse_line ->
  session brk b f tl -> on_clusters brk (tl_text tl) ks ->
  yields pstate scopeop stack parse_line apply brk start new (tl_text tl) ks it ->
  ks = pre ++ Lexeme l :: post ->
  prefix_at brk (tl_text tl) (lx_position l) = Some (text_of pre) /\
  buf_read brk b (range_new (lx_position l)
    (Pos (line (lx_position l)) (offset (lx_position l) + List.length (graphemes brk (lx_value l)))))
  = Ok (Some (lx_value l)).
Proof. exact token_read. Qed.
Print Assumptions C36_token_positions.

(** ... which is so for texts whose clusters are single chars. *)
Theorem C36_token_positions_single_chars :
  forall brk b f tl pstate scopeop stack parse_line apply new start ks it pre l post,
  on_boundaries pstate scopeop parse_line ->
  session brk b f tl -> singles brk (tl_text tl) ->
  yields pstate scopeop stack parse_line apply brk start new (tl_text tl) ks it ->
  ks = pre ++ Lexeme l :: post ->
  prefix_at brk (tl_text tl) (lx_position l) = Some (text_of pre) /\
  buf_read brk b (range_new (lx_position l)
    (Pos (line (lx_position l)) (offset (lx_position l) + List.length (lx_value l))))
  = Ok (Some (lx_value l)).
Proof. exact token_read_singles. Qed.
Print Assumptions C36_token_positions_single_chars.

Example C36_example : exists b f tl it, session uax29_15 b f tl /\
  buf_data b = Ok (txt "ab cd" ++ nl ++ txt "e f") /\ singles uax29_15 (tl_text tl) /\
  mark_yields spaces (tl_text tl)
    [Lexeme (Lex (txt "ab") [] (Pos 0 0)); Lexeme (Lex (txt " cd") [32%N] (Pos 0 2)); Newline;
     Lexeme (Lex (txt "e") [0; 32]%N (Pos 1 0)); Lexeme (Lex (txt " f") [32; 0; 32]%N (Pos 1 1))] it.
Proof.
  destruct (play_new_tight [BInsert (txt "ab cd" ++ nl ++ txt "e f")] no_files)
    as [[[b f] tl]|] eqn:E; [|vm_compute in E; discriminate].
  pose proof (played_new _ _ _ _ _ E) as [S W]. eexists b, f, tl, _. split; [exact S|].
  vm_compute in E. injection E as <- _ <-. split; [vm_compute; reflexivity|]. split; [vm_compute; reflexivity|].
  drain.
Qed.

(** C36: the condition on clusters is needed.  An event between a letter and
    its combining mark shifts the positions of what follows. *)
Theorem C36_split_cluster_shifts : exists ks it pre l post,
  yields nat N (list N) (mark_line (N.eqb 769 )) push uax29_15 0 [] (txt "e" ++ acute ++ nl ++ txt "e" ++ acute) ks it /\
  ks = pre ++ Lexeme l :: post /\ lx_position l = Pos 0 1 /\ text_of pre = txt "e" /\
  prefix_at uax29_15 (txt "e" ++ acute ++ nl ++ txt "e" ++ acute) (lx_position l) = Some (txt "e" ++ acute).
Proof.
  eexists _, _, [_], _, _. split; [drain|]. split; [reflexivity|]. repeat split; vm_compute; reflexivity.
Qed.
Print Assumptions C36_split_cluster_shifts.

(** C37: a lexeme's scope is that of its first byte, and no event falls inside
    a lexeme.  Also for iterations that end in an error. *)
Theorem C37_token_scopes : forall pstate scopeop stack parse_line apply new brk,
  on_boundaries pstate scopeop parse_line -> forall start data ks it pre l post,
  in_order pstate scopeop parse_line ->
  yields pstate scopeop stack parse_line apply brk start new data ks it ->
  ks = pre ++ Lexeme l :: post ->
  let i := end_line (text_of pre) in let k := end_byte (text_of pre) in
  scope_at pstate scopeop stack parse_line apply start new data i k = Some (lx_scope l) /\
  forall evss, parse_all pstate scopeop parse_line start (firstn (S i) (full_lines data)) = Some evss ->
    Forall (fun e => ~ (k < fst e < k + blen (lx_value l))) (nth i evss []).
Proof. exact tokens_scopes. Qed.
Print Assumptions C37_token_scopes.

Example C37_example :
  scope_at nat N (list N) (mark_line spaces) push 0 [] (txt "ab cd" ++ nl ++ txt "e f") 1 1 = Some [32; 0; 32]%N.
Proof. vm_compute. reflexivity. Qed.

(** C38: creating the iterator reports a failure to parse the first line;
    otherwise iteration ends. *)
Theorem C38_tokens_end : forall pstate scopeop stack parse_line apply new brk,
  on_boundaries pstate scopeop parse_line -> forall start data,
  (ti_new pstate scopeop stack parse_line new data start = Ok (RErr ParsingError) /\
     parse_all pstate scopeop parse_line start (firstn 1 (full_lines data)) = None) \/
  exists ks it, yields pstate scopeop stack parse_line apply brk start new data ks it.
Proof. exact yields_or. Qed.
Print Assumptions C38_tokens_end.

(** C38: the tokens are a prefix of the text.  With no error recorded it is the
    whole text and nothing failed.  A parsing error comes after the tokens of
    all lines before the one that failed; a scope error means that the events
    cannot all be applied. *)
Theorem C38_token_errors : forall pstate scopeop stack parse_line apply new brk,
  on_boundaries pstate scopeop parse_line -> forall start data ks it,
  yields pstate scopeop stack parse_line apply brk start new data ks it ->
  exists w, data = text_of ks ++ w /\
  match ti_error it with
  | None => w = [] /\ all_fine pstate scopeop stack parse_line apply start new data
  | Some ParsingError =>
    exists k evss, parse_all pstate scopeop parse_line start (firstn k (full_lines data)) = Some evss /\
      parse_all pstate scopeop parse_line start (firstn (S k) (full_lines data)) = None /\
      text_of ks ++ [LF] = concat (firstn k (full_lines data))
  | Some ScopeError =>
    exists k evss, parse_all pstate scopeop parse_line start (firstn k (full_lines data)) = Some evss /\
      apply_all scopeop stack apply new (map snd (concat evss)) = None
  | Some _ => False
  end.
Proof. exact tokens_errors. Qed.
Print Assumptions C38_token_errors.

Example C38_example :
  (exists it, mark_yields spaces (txt "a" ++ nl ++ txt "b?" ++ nl ++ txt "c") [Lexeme (Lex (txt "a") [] (Pos 0 0))] it /\
     ti_error it = Some ParsingError) /\
  (exists it, mark_yields spaces (txt "a b!c") [Lexeme (Lex (txt "a") [] (Pos 0 0))] it /\
     ti_error it = Some ScopeError).
Proof. split; eexists; (split; [drain|reflexivity]). Qed.

(** C38: a caller that goes on after the error gets more tokens, without the
    line that failed. *)
Theorem C38_iteration_can_resume : exists it it' it'' ks,
  mark_yields spaces (txt "a" ++ nl ++ txt "b?" ++ nl ++ txt "c") [Lexeme (Lex (txt "a") [] (Pos 0 0))] it /\
  ti_error it = Some ParsingError /\
  ti_next nat N (list N) (mark_line spaces) push uax29_15 it = Ok (Some Newline, it') /\
  drains (ti_next nat N (list N) (mark_line spaces) push uax29_15) it' ks it'' /\ text_of ks = txt "c".
Proof.
  eexists _, _, _, _. split; [drain|]. split; [reflexivity|]. split; [vm_compute; reflexivity|]. split.
  - repeat (eapply drains_more; [vm_compute; reflexivity|]); eapply drains_end; vm_compute; reflexivity.
  - vm_compute. reflexivity.
Qed.
Print Assumptions C38_iteration_can_resume.

(** C50, partial: only the last lexeme of a line can be empty. *)
Theorem C50_nonempty_lexemes_partial : forall pstate scopeop stack parse_line apply new brk,
  on_boundaries pstate scopeop parse_line -> forall start data ks it pre l l' post,
  yields pstate scopeop stack parse_line apply brk start new data ks it ->
  ks = pre ++ Lexeme l :: Lexeme l' :: post -> lx_value l <> [].
Proof. exact tokens_nonempty. Qed.
Print Assumptions C50_nonempty_lexemes_partial.

(** C50, full statement: false.  An event at the end of a line's content
    followed by one after its newline gives an empty lexeme. *)
Theorem C50_empty_lexeme_refuted : exists it,
  mark_yields spaces_lf (txt "a" ++ nl ++ txt "b")
    [Lexeme (Lex (txt "a") [] (Pos 0 0)); Lexeme (Lex [] [10%N] (Pos 0 1)); Newline;
     Lexeme (Lex (txt "b") [0; 10]%N (Pos 1 0))] it.
Proof. eexists. drain. Qed.
Print Assumptions C50_empty_lexeme_refuted.
