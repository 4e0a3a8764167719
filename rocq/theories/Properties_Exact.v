(** Properties C31, C48, C50 and C71: exactly when calls do what one expects,
    and exactly which tokens there are.
    Specification: Spec.v, SearchSpec.v, TokenSpec.v, TokenCuts.v, MarkSpec.v. *)
From Coq Require Import String Sorted.
From Verif Require Import Base Utf8 Utf8Proofs Grapheme UnicodeTable Position GapBuffer Cursor PathModel LineIterator Buffer Token
  Spec Calls GapProps BufferCalls Timeline TimelineProofs BufferSimple BufferFacts SearchSpec TokenSpec TokenCuts MarkSpec
  TokenCutsProofs ExactProofs Witness TokenWitness.

(** C31: the positions a search gives, on any text.  Each is on the line of an
    occurrence.  Its offset, a number of bytes, works as a column (reading the
    line up to it gives what precedes the occurrence) exactly if what precedes
    the occurrence is ASCII and each of its chars is a cluster of its own. *)
Theorem C31_columns_partial : forall brk b f tl needle ps p, session brk b f tl ->
  valid_text needle -> needle <> [] -> ~ In LF needle -> no_crlf (tl_text tl) \/ ~ In CR needle ->
  buf_search b needle = Ok ps -> In p ps ->
  exists a r, nth_error (lines_of (tl_text tl)) (line p) = Some (a ++ needle ++ r) /\ offset p = blen a /\
    (buf_read brk b (range_new (Pos (line p) 0) p) = Ok (Some a) <->
     ascii a /\ firstn (List.length a) (graphemes brk (a ++ needle ++ r)) = map (fun c => [c]) a).
Proof. exact search_columns. Qed.
Print Assumptions C31_columns_partial.

Example C31_columns_example : exists b f tl, session uax29_15 b f tl /\ no_crlf (tl_text tl) /\
  buf_search b (txt "ab") = Ok [Pos 0 0; Pos 0 4] /\
  buf_read uax29_15 b (range_new (Pos 0 0) (Pos 0 0)) = Ok (Some []) /\
  buf_read uax29_15 b (range_new (Pos 0 0) (Pos 0 4)) = Ok (Some (txt "ab" ++ e_acute ++ txt "a")).
Proof.
  pose (t := txt "ab" ++ e_acute ++ txt "ab").
  destruct (from_file tight (one_file t) the_path) as [[b|]|] eqn:E; [|vm_compute in E; discriminate..].
  exists b, (one_file t), (TL [] (t, true) [] None (Some t)). split.
  { apply (session_file _ tight _ the_path); [exact E|vm_compute; reflexivity|].
    apply singles_plain. vm_compute. reflexivity. }
  split.
  - intros a c X. assert (I : In CR t) by (change t with (tl_text (TL [] (t, true) [] None (Some t))); rewrite X; apply in_or_app; right; now left).
    vm_compute in I. intuition discriminate.
  - vm_compute in E. injection E as <-. vm_compute. auto.
Qed.

(** C48: exactly when an insert out of bounds leaves the text alone: when it
    fits in the gap, or the text taken as a whole has no such position either. *)
Theorem C48_exactly_when : forall brk al g data p t,
  reachable brk g -> alloc_ok al -> valid_text data -> data <> [] ->
  gb_to_string g = Ok t -> in_bounds brk g p = Ok false ->
  exists g', gb_insert brk al g data p = Ok g' /\
    (gb_to_string g' = Ok t <->
     List.length (enc data) <= gap_length g \/ locate brk (Marked t [] 0) p = None).
Proof. exact out_of_bounds_exactly_when. Qed.
Print Assumptions C48_exactly_when.

(** C48: an insert that does not fit goes where the text taken as a whole has
    the position, in bounds or not. *)
Theorem C48_growing_insert : forall brk al g data p t, reachable brk g -> alloc_ok al -> valid_text data ->
  gb_to_string g = Ok t ->
  exists g', gb_insert brk al g data p = Ok g' /\
    (gap_length g < List.length (enc data) ->
     gb_to_string g' = Ok (match locate brk (Marked t [] 0) p with Some (a, b) => a ++ data ++ b | None => t end)).
Proof. exact insert_text. Qed.
Print Assumptions C48_growing_insert.

Example C48_exactly_example :
  exists g, reachable uax29_15 g /\ gb_to_string g = Ok (crlf ++ txt "b") /\ gap_length g = 0 /\
    in_bounds uax29_15 g (Pos 0 2) = Ok false /\ in_bounds uax29_15 g (Pos 5 0) = Ok false /\
    locate uax29_15 (Marked (crlf ++ txt "b") [] 0) (Pos 0 2) = Some (crlf ++ txt "b", []) /\
    locate uax29_15 (Marked (crlf ++ txt "b") [] 0) (Pos 5 0) = None.
Proof.
  pose (run := gsession uax29_15 tight (nl ++ txt "b") [(tight, GInsert [CR] (Pos 0 0))]).
  destruct run as [[os g]|] eqn:E; [|vm_compute in E; discriminate]. exists g. split.
  { exists tight, (nl ++ txt "b")%list, [(tight, GInsert [CR] (Pos 0 0))], os.
    split; [now apply valid_textb_ok|]. split; [repeat constructor; apply tight_ok|].
    split; [repeat constructor|exact E]. }
  vm_compute in E. injection E as _ <-. vm_compute. auto 9.
Qed.

(** C71: if nothing fails, the lexemes of each line are its content cut at the
    offsets of its events.  Nothing is assumed about the order of the events. *)
Theorem C71_tokens_exactly : forall pstate scopeop stack parse_line apply new brk,
  on_boundaries pstate scopeop parse_line -> forall start data ks it,
  yields pstate scopeop stack parse_line apply brk start new data ks it -> ti_error it = None ->
  exists evss, parse_all pstate scopeop parse_line start (full_lines data) = Some evss /\
    List.length evss = List.length (lines_of data) /\
    map (map enc) (token_lines ks)
    = map (fun line_events => pieces (enc (fst line_events)) 0 (map fst (snd line_events)))
          (combine (lines_of data) evss).
Proof. exact tokens_cut. Qed.
Print Assumptions C71_tokens_exactly.

Example C71_example : exists it ks, mark_yields spaces_lf (txt "ab cd" ++ nl ++ txt " e" ++ e_acute) ks it /\
  ti_error it = None /\ token_lines ks = [[txt "ab"; txt " cd"; []]; [txt " e" ++ e_acute]] /\
  pieces (enc (txt "ab cd")) 0 [2; 5; 6] = [enc (txt "ab"); enc (txt " cd"); []].
Proof.
  eexists _, _. split; [|split; [|split]].
  - eexists. split; [vm_compute; reflexivity|].
    repeat (eapply drains_more; [vm_compute; reflexivity|]); eapply drains_end; vm_compute; reflexivity.
  - reflexivity.
  - vm_compute. reflexivity.
  - vm_compute. reflexivity.
Qed.

(** C50: exactly when there is an empty lexeme, for parsers that give events in
    order: when some line has events both at its end (or nothing before its end)
    and after its newline. *)
Theorem C50_exactly_when : forall pstate scopeop stack parse_line apply new brk,
  on_boundaries pstate scopeop parse_line -> forall start data ks it,
  in_order pstate scopeop parse_line ->
  yields pstate scopeop stack parse_line apply brk start new data ks it -> ti_error it = None ->
  exists evss, parse_all pstate scopeop parse_line start (full_lines data) = Some evss /\
    ((exists l, In (Lexeme l) ks /\ lx_value l = []) <->
     exists line evs, In (line, evs) (combine (lines_of data) evss) /\
       (line = [] \/ In (blen line) (map fst evs)) /\ In (blen line + 1) (map fst evs)).
Proof. exact empty_exactly. Qed.
Print Assumptions C50_exactly_when.

Example C50_exactly_example : on_boundaries nat N (mark_line spaces_lf) /\ in_order nat N (mark_line spaces_lf) /\
  parse_all nat N (mark_line spaces_lf) 0 (full_lines (txt "a" ++ nl ++ txt "b")) = Some [[(1, 10%N); (2, 0%N)]; [(1, 0%N)]].
Proof. split; [apply mark_line_boundaries|]. split; [apply mark_line_order|]. vm_compute. reflexivity. Qed.
