(** Calls whose numbers are far from the largest machine integer. *)
From Verif Require Import Base Utf8 Grapheme Position GapBuffer Cursor PathModel Buffer BufferCalls Machine.

(** [K] is the length of the longest string ([isize::MAX]) and [2 * K + 1] the
    largest number ([usize::MAX]).  Strings are never longer than [K]; a position
    that is assigned to the cursor has to be within [K]; the lines of a range
    have to be below [usize::MAX]. *)
Definition within_machine (K : nat) (c : bcall) : Prop :=
  match c with
  | BInsert d => length (enc d) <= K
  | BCursor p => line p <= K /\ offset p <= K
  | BDeleteRange p q => line p <= 2 * K /\ line q <= 2 * K
  | _ => True
  end.

(** New buffers and buffers loaded from a file. *)
Definition u_fresh (K : nat) (f : fsys) (b : buffer) : Prop :=
  (exists al, u_buffer_new K al = MOk b) \/ (exists al p, u_from_file K al f p = MOk (ROk b)).

(** Buffers that a machine reaches by such calls, with the disk they leave. *)
Definition u_reached (K : nat) (brk : brk_rule) (b : buffer) (f : fsys) : Prop :=
  exists b0 f0 cs os, u_fresh K f0 b0 /\
    Forall (fun ac => alloc_ok (fst ac) /\ call_ok (snd ac) /\ within_machine K (snd ac)) cs /\
    u_brun K brk cs b0 f0 = MOk (os, b, f).
