(** How many bytes of the text the gap buffer moves: the functions of GapBuffer.v
    that move bytes, each with a counter of how often the body of a loop of
    [move_gap] (gap_buffer.rs:268-271 and 277-280) is run.  Not counted: what
    [Vec::reserve] copies when it reallocates, the bytes that are inserted, and what
    looking for a position reads. *)
From Verif Require Import Base Utf8 Grapheme Position GapBuffer Spec Calls.

(** One byte moved and counted. *)
Definition tick (body : nat -> list byte -> res (list byte)) (index : nat) (s : list byte * nat)
  : res (list byte * nat) :=
  let* d := body index (fst s) in Ok (d, S (snd s)).

(** [move_gap], gap_buffer.rs:259-289. *)
Definition c_move_gap (g : gapbuf) (off : nat) : res (gapbuf * nat) :=
  if gap_length g =? 0 then Ok (GB (gb_data g) off (gap_length g), 0)
  else match Nat.compare off (gap_start g) with
       | Lt =>
         let* (d, n) := for_each (rev (range off (gap_start g))) (bytes g, 0)
                                 (tick (shift_left_body (gap_length g))) in
         Ok (GB (Vec d (v_spare (gb_data g))) off (gap_length g), n)
       | Gt =>
         let* (d, n) := for_each (range (gap_start g + gap_length g) off) (bytes g, 0)
                                 (tick (shift_right_body (gap_length g))) in
         let* gs := usub off (gap_length g) in
         Ok (GB (Vec d (v_spare (gb_data g))) gs (gap_length g), n)
       | Eq => Ok (g, 0)
       end.

(** The first part of [insert], gap_buffer.rs:60-77. *)
Definition c_ensure_capacity (al : allocator) (g : gapbuf) (data : text) : res (gapbuf * nat) :=
  if gap_length g <? blen data then
    let* (g, n) := c_move_gap g (vcap (gb_data g)) in
    let d := vreserve al (gb_data g) (blen data) in
    let capacity := vcap d in
    let* gl := usub capacity (gap_start g) in
    let* d := vset_len d capacity in
    Ok (GB d (gap_start g) gl, n)
  else Ok (g, 0).

(** [insert], gap_buffer.rs:58-86. *)
Definition c_insert (brk : brk_rule) (al : allocator) (g : gapbuf) (data : text) (p : position)
  : res (gapbuf * nat) :=
  let* (g, n) := c_ensure_capacity al g data in
  let* o := find_offset brk g p in
  match o with
  | None => Ok (g, n)
  | Some off =>
    let* (g, m) := c_move_gap g off in
    let* g := write_to_gap g data in
    Ok (g, n + m)
  end.

(** [delete], gap_buffer.rs:152-186. *)
Definition c_delete (brk : brk_rule) (g : gapbuf) (r : prange) : res (gapbuf * nat) :=
  let* so := find_offset brk g (r_start r) in
  match so with
  | None => Ok (g, 0)
  | Some start_offset =>
    let* (g, n) := c_move_gap g start_offset in
    let* eo := find_offset brk g (r_end r) in
    match eo with
    | Some off =>
      let* gl := usub off (gap_start g) in
      Ok (GB (gb_data g) (gap_start g) gl, n)
    | None =>
      let start_of_next_line := Pos (line (r_end r) + 1) 0 in
      let* no := find_offset brk g start_of_next_line in
      match no with
      | Some off =>
        let* gl := usub off (gap_start g) in
        Ok (GB (gb_data g) (gap_start g) gl, n)
      | None =>
        let* gl := usub (vlen (gb_data g)) (gap_start g) in
        Ok (GB (gb_data g) (gap_start g) gl, n)
      end
    end
  end.

(** A call, as in Calls.v; the other calls take the buffer by [&self] and move
    nothing (gap_buffer.rs:104-134, 190-254, 300-307). *)
Definition c_exec (brk : brk_rule) (al : allocator) (c : gcall) (g : gapbuf)
  : res (gout * gapbuf * nat) :=
  match c with
  | GInsert data p => let* (g', n) := c_insert brk al g data p in Ok (OUnit, g', n)
  | GDelete p q => let* (g', n) := c_delete brk g (range_new p q) in Ok (OUnit, g', n)
  | _ => let* (o, g') := gexec brk al c g in Ok (o, g', 0)
  end.

(** A sequence of calls. *)
Fixpoint c_run (brk : brk_rule) (cs : list (allocator * gcall)) (g : gapbuf)
  : res (list gout * gapbuf * nat) :=
  match cs with
  | [] => Ok ([], g, 0)
  | (al, c) :: cs' =>
    match c_exec brk al c g with
    | Panic => Panic
    | Ok (o, g1, n) =>
      match c_run brk cs' g1 with
      | Panic => Panic
      | Ok (os, g2, m) => Ok (o :: os, g2, n + m)
      end
    end
  end.
