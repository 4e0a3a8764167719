(** Calls that stay within lines, and histories over simple texts. *)
From Verif Require Import Base Utf8 Grapheme Position GapBuffer Cursor PathModel Buffer Spec ClusterSpec CursorSpec
  CursorCalls BufferCalls.

(** What is put into the buffer is made of simple clusters.  (What [reload] puts
    there depends on the disk; it does not occur.) *)
Definition simple_input (cls : char -> gcb) (c : bcall) : Prop :=
  match c with
  | BInsert d | BReplace d => words (simple_cluster cls) d
  | BReload => False
  | _ => True
  end.
(** Buffers that any calls with such input produce, from a new buffer or from a
    file with such a text. *)
Definition simple_history (cls : char -> gcb) (b : buffer) (f : fsys) : Prop :=
  exists b0 f0 t0 cs os, fresh_buffer f0 b0 /\ buf_data b0 = Ok t0 /\ words (simple_cluster cls) t0 /\
    Forall (fun ac => alloc_ok (fst ac) /\ simple_input cls (snd ac)) cs /\
    brun (uax29 cls) cs b0 f0 = Ok (os, b, f).

(** The call edits, if at all, within one line that is in [L], at a place that
    exists, and neither puts in nor takes out a newline. *)
Definition in_line (cls : char -> gcb) (L : nat -> bool) (c : bcall) (b : buffer) : Prop :=
  let brk := uax29 cls in
  let here := c_pos (b_cursor b) in
  match c with
  | BInsert d =>
    L (line here) = true /\ in_bounds brk (b_data b) here = Ok true /\ words (simple_cluster cls) d /\ ~ In LF d
  | BDelete => L (line here) = true /\ in_bounds brk (b_data b) (Pos (line here) (offset here + 1)) = Ok true
  | BDeleteRange p q =>
    line p = line q /\ L (line p) = true /\
    in_bounds brk (b_data b) p = Ok true /\ in_bounds brk (b_data b) q = Ok true
  | BMove _ | BCursor _ => True
  | _ => False
  end.
Fixpoint in_lines (cls : char -> gcb) (L : nat -> bool) (cs : list (allocator * bcall)) (b : buffer) (f : fsys) : Prop :=
  match cs with
  | [] => True
  | (al, c) :: cs' =>
    in_line cls L c b /\
    forall o b' f', bexec (uax29 cls) al c b f = Ok (o, b', f') -> in_lines cls L cs' b' f'
  end.
Definition edits_text (c : bcall) : bool :=
  match c with BInsert _ | BDelete | BDeleteRange _ _ => true | _ => false end.

(** The call leaves the change callback as it is. *)
Definition quiet (c : bcall) : Prop := match c with BSetCallback _ => False | _ => True end.
(** The call does not assign the cursor's position, which is a public field. *)
Definition not_assigned (c : bcall) : Prop := match c with BCursor _ => False | _ => True end.
