(** Properties C31-C33: search, line counts and file names.
    Specification: Spec.v and SearchSpec.v. *)
From Coq Require Import String Sorted.
From Verif Require Import Base Utf8 LossySpec LossyProofs Grapheme GraphemeProofs UnicodeTable Position GapBuffer
  Cursor PathModel Buffer Spec CursorSpec Calls CursorCalls TextProofs UaxProofs TextFacts GapProps
  BufferCalls Timeline TimelineProofs AnyTextProofs BufferProps BufferIoProps BufferSimple
  BufferFacts SearchSpec SearchProofs Witness.

(** C31, partial: on ASCII text the result lists in strictly increasing order
    exactly the positions at which the needle occurs.  (Needles of one line; for
    needles with carriage returns, text without CRLF, which [str::lines] strips.)
    Missing: other text, and needles of several lines. *)
Theorem C31_search_ascii_partial : forall brk b f t needle,
  reachable_buffer brk b f -> buf_data b = Ok t -> ascii t ->
  valid_text needle -> needle <> [] -> ~ In LF needle -> no_crlf t \/ ~ In CR needle ->
  exists ps, buf_search b needle = Ok ps /\ StronglySorted lex_lt ps /\
    forall p, In p ps <-> exists a, occurs needle t (line p) a /\ offset p = List.length a.
Proof. exact search_ascii. Qed.
Print Assumptions C31_search_ascii_partial.

(** C31: on any text, the offsets are byte offsets. *)
Theorem C31_search_bytes_partial : forall brk b f t needle,
  reachable_buffer brk b f -> buf_data b = Ok t ->
  valid_text needle -> needle <> [] -> ~ In LF needle -> no_crlf t \/ ~ In CR needle ->
  exists ps, buf_search b needle = Ok ps /\ StronglySorted lex_lt ps /\
    forall p, In p ps <-> exists a, occurs needle t (line p) a /\ offset p = blen a.
Proof. exact search_spec. Qed.
Print Assumptions C31_search_bytes_partial.

(** C31: reading from a found position returns the needle (ASCII text whose
    chars are clusters of their own). *)
Theorem C31_search_reads_back_partial : forall brk b f tl needle ps, session brk b f tl ->
  ascii (tl_text tl) -> singles brk (tl_text tl) ->
  valid_text needle -> needle <> [] -> ~ In LF needle -> no_crlf (tl_text tl) \/ ~ In CR needle ->
  buf_search b needle = Ok ps ->
  Forall (fun p => in_bounds brk (b_data b) p = Ok true /\
    buf_read brk b (range_new p (Pos (line p) (offset p + List.length needle))) = Ok (Some needle)) ps.
Proof. exact search_reads_back. Qed.
Print Assumptions C31_search_reads_back_partial.

Example C31_example : exists b f tl, session uax29_15 b f tl /\
  buf_data b = Ok (txt "abab" ++ nl ++ txt "bab") /\ ascii (tl_text tl) /\ singles uax29_15 (tl_text tl) /\
  no_crlf (tl_text tl) /\ buf_search b (txt "ab") = Ok [Pos 0 0; Pos 0 2; Pos 1 1].
Proof.
  destruct (play_new_tight [BInsert (txt "ab" ++ nl ++ txt "bab"); BInsert (txt "ab")] no_files)
    as [[[b f] tl]|] eqn:E; [|vm_compute in E; discriminate].
  pose proof (played_new _ _ _ _ _ E) as [S W]. exists b, f, tl. split; [exact S|].
  assert (Et : tl_text tl = txt "abab" ++ nl ++ txt "bab") by (vm_compute in E; injection E as _ _ <-; reflexivity).
  rewrite Et. split; [now rewrite (session_text _ _ _ _ S), Et|].
  split; [repeat constructor|]. split; [vm_compute; reflexivity|]. split.
  - intros a c X.
    assert (I : In CR (txt "abab" ++ nl ++ txt "bab")) by (rewrite X; apply in_or_app; right; now left).
    vm_compute in I. intuition discriminate.
  - vm_compute in E. injection E as <- _ _. vm_compute. reflexivity.
Qed.

(** C31, full statement: false.  After a two-byte char the position given is
    past the needle; a needle of two lines is not found. *)
Theorem C31_search_refuted :
  (exists b f needle p, reachable_buffer uax29_15 b f /\ ~ In LF needle /\
     buf_search b needle = Ok [p] /\ buf_data b = Ok (e_acute ++ needle ++ txt "cd") /\
     buf_read uax29_15 b (range_new p (Pos (line p) (offset p + List.length needle))) <> Ok (Some needle)) /\
  (exists b f, reachable_buffer uax29_15 b f /\ buf_data b = Ok (txt "a" ++ nl ++ txt "b") /\
     buf_search b (txt "a" ++ nl ++ txt "b") = Ok []).
Proof.
  split.
  - destruct (from_new [BInsert (e_acute ++ txt "abcd")] no_files) as [[[os b] f]|] eqn:E;
      [|vm_compute in E; discriminate].
    pose proof (from_new_reachable _ _ _ _ _ E eq_refl) as R. exists b, f, (txt "ab"), (Pos 0 2).
    split; [exact R|]. vm_compute in E. injection E as _ <- _.
    split; [vm_compute; intuition discriminate|]. split; [vm_compute; reflexivity|].
    split; [vm_compute; reflexivity|]. vm_compute. discriminate.
  - destruct (from_new [BInsert (txt "a" ++ nl ++ txt "b")] no_files) as [[[os b] f]|] eqn:E;
      [|vm_compute in E; discriminate].
    pose proof (from_new_reachable _ _ _ _ _ E eq_refl) as R. exists b, f.
    split; [exact R|]. vm_compute in E. injection E as _ <- _. split; vm_compute; reflexivity.
Qed.
Print Assumptions C31_search_refuted.

(** C32: the number of lines of the text; any text. *)
Theorem C32_line_count : forall brk b f t, reachable_buffer brk b f -> buf_data b = Ok t ->
  buf_line_count b = Ok (List.length (lines_of t)).
Proof. exact line_count_lines. Qed.
Print Assumptions C32_line_count.

(** C32, partial: it is one more than the number of newlines, and the lines that
    can be addressed are those below it.  Missing: text with CRLF. *)
Theorem C32_line_count_addresses_partial : forall brk b f tl, session brk b f tl ->
  exists n, buf_line_count b = Ok n /\ n = 1 + count_occ N.eq_dec (tl_text tl) LF /\
    forall l, in_bounds brk (b_data b) (Pos l 0) = Ok (l <? n).
Proof. exact line_count_addresses. Qed.
Print Assumptions C32_line_count_addresses_partial.

Example C32_example : exists b f tl, session uax29_15 b f tl /\ buf_data b = Ok (txt "a" ++ nl) /\
  buf_line_count b = Ok 2.
Proof.
  destruct (play_new_tight [BInsert (txt "a" ++ nl)] no_files) as [[[b f] tl]|] eqn:E;
    [|vm_compute in E; discriminate].
  pose proof (played_new _ _ _ _ _ E) as [S W]. exists b, f, tl. split; [exact S|].
  vm_compute in E. injection E as <- _ _. split; vm_compute; reflexivity.
Qed.

(** C32, full statement: false.  A text with CRLF counts two lines, the second of
    which cannot be addressed. *)
Theorem C32_line_count_refuted : exists b f, reachable_buffer uax29_15 b f /\
  buf_data b = Ok (txt "a" ++ crlf ++ txt "b") /\ buf_line_count b = Ok 2 /\
  in_bounds uax29_15 (b_data b) (Pos 1 0) = Ok false.
Proof.
  destruct (from_disk [] (one_file (txt "a" ++ crlf ++ txt "b"))) as [[[os b] f]|] eqn:E;
    [|vm_compute in E; discriminate].
  pose proof (from_disk_reachable _ _ _ _ _ E eq_refl) as R. exists b, f. split; [exact R|].
  vm_compute in E. injection E as _ <- _. repeat split; vm_compute; reflexivity.
Qed.
Print Assumptions C32_line_count_refuted.

(** C33: the file name is the last component of the path, if it is a normal one
    and valid UTF-8. *)
Theorem C33_file_name : forall b t, buf_file_name b = Some t <->
  exists p q, b_path b = Some p /\ p = q ++ [Normal (enc t)] /\ valid_text t.
Proof. exact file_name_ok. Qed.
Print Assumptions C33_file_name.

(** C33: the extension is what follows the last dot of that component, if
    neither it nor what precedes the dot is empty; bytes in it that are not
    UTF-8 give replacement characters, as [lossy] (LossySpec.v) says... *)
Theorem C33_file_extension : forall b p q name stem ext,
  b_path b = Some p -> p = q ++ [Normal name] -> named name stem ext ->
  forall t, buf_file_extension b = Some t <-> lossy ext t.
Proof. exact extension_iff. Qed.
Print Assumptions C33_file_extension.

(** C33: so an extension that is UTF-8 is returned as it is, and one that is not
    is visibly changed. *)
Theorem C33_file_extension_text : forall b p q name stem t,
  b_path b = Some p -> p = q ++ [Normal name] -> named name stem (enc t) -> valid_text t ->
  buf_file_extension b = Some t.
Proof. exact extension_text. Qed.
Print Assumptions C33_file_extension_text.

Theorem C33_file_extension_lossy : forall b p q name stem ext,
  b_path b = Some p -> p = q ++ [Normal name] -> named name stem ext ->
  (forall t, valid_text t -> ext <> enc t) ->
  exists t, buf_file_extension b = Some t /\ In REPLACEMENT t.
Proof. exact extension_lossy. Qed.
Print Assumptions C33_file_extension_lossy.

(** C33: ... and otherwise there is none. *)
Theorem C33_no_file_extension : forall b, buf_file_extension b = None <->
  (forall q name stem ext, b_path b = Some (q ++ [Normal name]) -> ~ named name stem ext).
Proof. exact extension_none. Qed.
Print Assumptions C33_no_file_extension.

Example C33_example :
  named (enc (txt "a.tar.gz")) (enc (txt "a.tar")) (enc (txt "gz")) /\
  (exists t, lossy [226; 130; 99; 255]%N t /\ t = [REPLACEMENT; 99; REPLACEMENT]%N) /\
  (forall stem ext, ~ named (enc (txt ".bashrc")) stem ext).
Proof.
  split.
  - split; [vm_compute; reflexivity|]. split; [discriminate|]. split; [discriminate|].
    vm_compute. intuition discriminate.
  - split; [eexists; split; [apply decode_lossy_iff; reflexivity|vm_compute; reflexivity]|].
    intros stem ext (E & Hs & _ & _). destruct stem as [|s stem]; [now apply Hs|].
    vm_compute in E. injection E as _ E.
    assert (X : In DOT [98; 97; 115; 104; 114; 99]%N) by (rewrite E; apply in_or_app; right; now left).
    vm_compute in X. intuition discriminate.
Qed.
