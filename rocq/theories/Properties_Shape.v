(** Properties C62 and C63, and the parts of C14 that hold for every text. *)
From Coq Require Import String.
From Verif Require Import Base Utf8 Grapheme GraphemeProofs UnicodeTable Position GapBuffer
  Cursor Spec Calls HalvesProofs ShapeProofs Witness.

(** C62: the positions of a buffer are those of some lines, numbered from 0, and
    of every column up to the width of the line: for any text and any calls. *)
Theorem C62_positions_form_lines : forall brk g, reachable brk g ->
  exists ws, ws <> [] /\ forall p,
    in_bounds brk g p = Ok ((line p <? List.length ws) && (offset p <=? nth (line p) ws 0)).
Proof. exact positions_form_lines. Qed.
Print Assumptions C62_positions_form_lines.

(** C14, any text and any calls: left and start of line. *)
Theorem C14_left_any_text : forall brk g c, reachable brk g -> in_bounds brk g (c_pos c) = Ok true ->
  move_left brk g c =
  Ok (if offset (c_pos c) =? 0 then c
      else cursor_new (Pos (line (c_pos c)) (offset (c_pos c) - 1))).
Proof. exact left_any. Qed.
Print Assumptions C14_left_any_text.
Theorem C14_start_of_line_any_text : forall brk g c,
  reachable brk g -> in_bounds brk g (c_pos c) = Ok true ->
  move_to_start_of_line brk g c = Ok (cursor_new (Pos (line (c_pos c)) 0)).
Proof. exact start_any. Qed.
Print Assumptions C14_start_of_line_any_text.

(** C63: reads of neighbouring ranges join to the read of the whole range. *)
Theorem C63_reads_join : forall brk g p q r,
  reachable brk g -> before q p = false -> before r q = false -> in_bounds brk g q = Ok true ->
  forall x,
  gb_read brk g (range_new p r) = Ok (Some x) <->
  exists a b, gb_read brk g (range_new p q) = Ok (Some a)
    /\ gb_read brk g (range_new q r) = Ok (Some b) /\ x = a ++ b.
Proof. exact reads_join. Qed.
Print Assumptions C63_reads_join.

(** C63: reading from the first position to the last gives the whole text. *)
Theorem C63_read_everything : forall brk g, reachable brk g ->
  exists t p, gb_to_string g = Ok t /\ in_bounds brk g p = Ok true
    /\ (forall q, in_bounds brk g q = Ok true -> before p q = false)
    /\ gb_read brk g (range_new (Pos 0 0) p) = Ok (Some t).
Proof. exact read_everything. Qed.
Print Assumptions C63_read_everything.

(** C63: data that fits in the spare capacity is inserted just after what [read]
    returns up to the position. *)
Theorem C63_insert_where_read : forall brk al g data p a t,
  reachable brk g -> alloc_ok al -> valid_text data -> blen data <= gap_length g ->
  gb_to_string g = Ok t -> gb_read brk g (range_new (Pos 0 0) p) = Ok (Some a) ->
  exists b g', t = a ++ b /\ gb_insert brk al g data p = Ok g'
    /\ gb_to_string g' = Ok (a ++ data ++ b).
Proof. exact insert_where_read. Qed.
Print Assumptions C63_insert_where_read.

(** A buffer whose gap is inside a "\r\n": three positions on line 0 would be the
    answer for the text, but it has two, and two on line 1. *)
Example C62_C63_example : exists g,
  reachable uax29_15 g /\ gb_to_string g = Ok (crlf ++ txt "b")
  /\ in_bounds uax29_15 g (Pos 0 1) = Ok true /\ in_bounds uax29_15 g (Pos 0 2) = Ok false
  /\ in_bounds uax29_15 g (Pos 1 1) = Ok true
  /\ before (Pos 0 1) (Pos 0 0) = false /\ before (Pos 1 1) (Pos 0 1) = false
  /\ gb_read uax29_15 g (range_new (Pos 0 0) (Pos 0 1)) = Ok (Some [CR])
  /\ gb_read uax29_15 g (range_new (Pos 0 1) (Pos 1 1)) = Ok (Some (nl ++ txt "b"))
  /\ blen (txt "X") <= gap_length g.
Proof.
  pose (run := gsession uax29_15 (roomy 8 0%N) (nl ++ txt "b") [(roomy 8 0%N, GInsert [CR] (Pos 0 0))]).
  destruct run as [[os g]|] eqn:E; [|vm_compute in E; discriminate]. exists g.
  split.
  { exists (roomy 8 0%N), (nl ++ txt "b"), [(roomy 8 0%N, GInsert [CR] (Pos 0 0))], os.
    split; [now apply valid_textb_ok|]. split; [repeat constructor; apply roomy_ok|].
    split; [repeat constructor|exact E]. }
  vm_compute in E. injection E as _ <-.
  do 8 (split; [vm_compute; reflexivity|]). apply Nat.leb_le. vm_compute. reflexivity.
Qed.
