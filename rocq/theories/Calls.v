(** Running sequences of gap buffer calls on the model.  Ranges reach the gap
    buffer only through [Range::new] (its fields are private). *)
From Verif Require Import Base Utf8 Grapheme Position GapBuffer Spec.

Definition gexec (brk : brk_rule) (al : allocator) (c : gcall) (g : gapbuf)
  : res (gout * gapbuf) :=
  match c with
  | GInsert data p => let* g' := gb_insert brk al g data p in Ok (OUnit, g')
  | GDelete p q => let* g' := gb_delete brk g (range_new p q) in Ok (OUnit, g')
  | GRead p q => let* r := gb_read brk g (range_new p q) in Ok (ORead r, g)
  | GInBounds p => let* b := in_bounds brk g p in Ok (OBool b, g)
  | GToString => let* t := gb_to_string g in Ok (OText t, g)
  end.

(** A sequence of calls, each with the allocator behaviour it meets. *)
Fixpoint grun (brk : brk_rule) (cs : list (allocator * gcall)) (g : gapbuf)
  : res (list gout * gapbuf) :=
  match cs with
  | [] => Ok ([], g)
  | (al, c) :: cs' =>
    let* (o, g1) := gexec brk al c g in
    let* (os, g2) := grun brk cs' g1 in
    Ok (o :: os, g2)
  end.

(** From [GapBuffer::new(s)]. *)
Definition gsession (brk : brk_rule) (al : allocator) (s : text)
           (cs : list (allocator * gcall)) : res (list gout * gapbuf) :=
  let* g := gb_new al s in grun brk cs g.

(** Gap buffers that some sequence of calls produces. *)
Definition reachable (brk : brk_rule) (g : gapbuf) : Prop :=
  exists al s cs os,
    valid_text s /\
    Forall (fun ac => alloc_ok (fst ac)) cs /\
    Forall (fun ac => match snd ac with GInsert d _ => valid_text d | _ => True end) cs /\
    gsession brk al s cs = Ok (os, g).

(** Sessions in which no call merges clusters, and the buffers they produce. *)
Definition clean_session (brk : brk_rule) (s : text) (cs : list (allocator * gcall)) : Prop :=
  valid_text s /\ plain_newlines brk s /\
  Forall (fun ac => alloc_ok (fst ac)) cs /\
  clean_calls brk (map snd cs) s.
Definition clean_buffer (brk : brk_rule) (g : gapbuf) (t : text) : Prop :=
  exists al s cs os,
    clean_session brk s cs /\ gsession brk al s cs = Ok (os, g) /\ gb_to_string g = Ok t.

(** Buffers, after any calls at all, whose reads answer as their text [t] does:
    [read] of any two positions gives the text between them.  Buffers just made
    and buffers of clean sessions are so; after a call that merged clusters a
    cluster may straddle the gap, and then the buffer is not (until it is
    reallocated). *)
Definition coherent (brk : brk_rule) (g : gapbuf) (t : text) : Prop :=
  reachable brk g /\ plain_newlines brk t /\ gb_to_string g = Ok t /\
  forall p q, gb_read brk g (range_new p q) = Ok (spec_read brk t p q).

(** What a session returns, forgetting the internal state. *)
Definition outputs {A B} (r : res (A * B)) : option A :=
  match r with Ok (o, _) => Some o | Panic => None end.

(** Allocators that return the same amounts of memory, with any contents. *)
Definition same_sizes (al al' : allocator) : Prop :=
  forall len additional, length (al len additional) = length (al' len additional).
