(** The gap buffer, src/buffer/gap_buffer.rs. *)
From Verif Require Import Base Utf8 Grapheme Position.

(** [Vec<u8>]: initialised bytes and spare, uninitialised capacity. *)
Record vec := Vec { v_init : list byte; v_spare : list byte }.

(** [Vec::len], [Vec::capacity]. *)
Definition vlen (v : vec) : nat := length (v_init v).
Definition vcap (v : vec) : nat := length (v_init v) + length (v_spare v).

(** Unsafe [Vec::set_len]: makes the first [n] bytes of the allocation
    observable; calling it beyond the capacity is undefined behaviour (modelled
    as [Panic]). *)
Definition vset_len (v : vec) (n : nat) : res vec :=
  if n <=? vcap v then
    let all := v_init v ++ v_spare v in Ok (Vec (firstn n all) (skipn n all))
  else Panic.

(** The allocator: given the current length and the additional room requested,
    the spare bytes (number and contents) after (re)allocation. *)
Definition allocator := nat -> nat -> list byte.
Definition alloc_ok (al : allocator) : Prop :=
  forall len additional, additional <= length (al len additional).

(** [Vec::reserve]. *)
Definition vreserve (al : allocator) (v : vec) (additional : nat) : vec :=
  if additional <=? length (v_spare v) then v
  else Vec (v_init v) (al (vlen v) additional).

(** src/buffer/gap_buffer.rs:12-16. *)
Record gapbuf := GB { gb_data : vec; gap_start : nat; gap_length : nat }.

Definition bytes (g : gapbuf) : list byte := v_init (gb_data g).

(** [GapBuffer::new], gap_buffer.rs:29-43. [to_owned] may over-allocate. *)
Definition gb_new (al : allocator) (s : text) : res gapbuf :=
  let bs := Vec (enc s) (al (blen s) 0) in
  let capacity := vcap bs in
  let gs := vlen bs in
  let* gl := usub capacity gs in
  let* bs := vset_len bs capacity in
  Ok (GB bs gs gl).

(** One body execution of the left-shifting loop, gap_buffer.rs:269-272. *)
Definition shift_left_body (gl index : nat) (d : list byte) : res (list byte) :=
  let* x := get d index in
  let* d := upd d (index + gl) x in
  upd d index 0%N.

(** One body execution of the right-shifting loop, gap_buffer.rs:278-281. *)
Definition shift_right_body (gl index : nat) (d : list byte) : res (list byte) :=
  let* x := get d index in
  let* target := usub index gl in
  let* d := upd d target x in
  upd d index 0%N.

(** [move_gap], gap_buffer.rs:259-289. *)
Definition move_gap (g : gapbuf) (off : nat) : res gapbuf :=
  if gap_length g =? 0 then Ok (GB (gb_data g) off (gap_length g))
  else match Nat.compare off (gap_start g) with
       | Lt =>
         let* d := for_each (rev (range off (gap_start g))) (bytes g)
                            (shift_left_body (gap_length g)) in
         Ok (GB (Vec d (v_spare (gb_data g))) off (gap_length g))
       | Gt =>
         let* d := for_each (range (gap_start g + gap_length g) off) (bytes g)
                            (shift_right_body (gap_length g)) in
         let* gs := usub off (gap_length g) in
         Ok (GB (Vec d (v_spare (gb_data g))) gs (gap_length g))
       | Eq => Ok g
       end.

(** [write_to_gap], gap_buffer.rs:291-297. *)
Definition write_to_gap (g : gapbuf) (data : text) : res gapbuf :=
  for_each (enc data) g (fun b g =>
    let* d := upd (bytes g) (gap_start g) b in
    let* gl := usub (gap_length g) 1 in
    Ok (GB (Vec d (v_spare (gb_data g))) (gap_start g + 1) gl)).

(** Result of one scanning loop of [find_offset]: the byte index of the
    grapheme at the position, or the line/offset counters after the loop. *)
Inductive scan_result :=
| Found (off : nat)
| NotFound (line line_offset : nat).

(** The loops at gap_buffer.rs:212-225 and 235-248: [grapheme_indices] yields
    each grapheme with its byte index. *)
Fixpoint scan (gs : list grapheme) (off ln lo : nat) (p : position) : scan_result :=
  match gs with
  | [] => NotFound ln lo
  | g :: gs' =>
    if (ln =? line p) && (lo =? offset p) then Found off
    else if is_lf g then scan gs' (off + blen g) (ln + 1) 0 p
    else scan gs' (off + blen g) ln (lo + 1) p
  end.

(** The lossily decoded halves, gap_buffer.rs:208,234,302-303. *)
Definition first_half (g : gapbuf) : res text :=
  let* d := slice (bytes g) 0 (gap_start g) in Ok (decode_lossy d).
Definition second_half (g : gapbuf) : res text :=
  let* d := slice (bytes g) (gap_start g + gap_length g) (length (bytes g)) in
  Ok (decode_lossy d).

(** [find_offset], gap_buffer.rs:207-257. *)
Definition find_offset (brk : brk_rule) (g : gapbuf) (p : position) : res (option nat) :=
  let* first := first_half g in
  match scan (graphemes brk first) 0 0 0 p with
  | Found off => Ok (Some off)
  | NotFound ln lo =>
    if (ln =? line p) && (lo =? offset p) then
      Ok (Some (gap_start g + gap_length g))
    else
      let* second := second_half g in
      match scan (graphemes brk second) 0 ln lo p with
      | Found off => Ok (Some (gap_start g + gap_length g + off))
      | NotFound ln lo =>
        if (ln =? line p) && (lo =? offset p) then Ok (Some (vlen (gb_data g)))
        else Ok None
      end
  end.

(** [in_bounds], gap_buffer.rs:202-204. *)
Definition in_bounds (brk : brk_rule) (g : gapbuf) (p : position) : res bool :=
  let* o := find_offset brk g p in
  Ok (match o with Some _ => true | None => false end).

(** The reallocating branch of [insert], gap_buffer.rs:60-77. *)
Definition ensure_capacity (al : allocator) (g : gapbuf) (data : text) : res gapbuf :=
  if gap_length g <? blen data then
    let* g := move_gap g (vcap (gb_data g)) in
    let d := vreserve al (gb_data g) (blen data) in
    let capacity := vcap d in
    let* gl := usub capacity (gap_start g) in
    let* d := vset_len d capacity in
    Ok (GB d (gap_start g) gl)
  else Ok g.

(** [insert], gap_buffer.rs:58-86. *)
Definition gb_insert (brk : brk_rule) (al : allocator) (g : gapbuf)
           (data : text) (p : position) : res gapbuf :=
  let* g := ensure_capacity al g data in
  let* o := find_offset brk g p in
  match o with
  | None => Ok g
  | Some off => let* g := move_gap g off in write_to_gap g data
  end.

(** [read], gap_buffer.rs:104-134. *)
Definition gb_read (brk : brk_rule) (g : gapbuf) (r : prange) : res (option text) :=
  let* so := find_offset brk g (r_start r) in
  match so with
  | None => Ok None
  | Some start_offset =>
    let* eo := find_offset brk g (r_end r) in
    match eo with
    | None => Ok None
    | Some end_offset =>
      if (start_offset <? gap_start g) && (gap_start g <? end_offset) then
        let* first := slice (bytes g) start_offset (gap_start g) in
        let* second := slice (bytes g) (gap_start g + gap_length g) end_offset in
        Ok (Some (decode_lossy first ++ decode_lossy second))
      else
        let* d := slice (bytes g) start_offset end_offset in
        Ok (Some (decode_lossy d))
    end
  end.

(** [delete], gap_buffer.rs:152-186. *)
Definition gb_delete (brk : brk_rule) (g : gapbuf) (r : prange) : res gapbuf :=
  let* so := find_offset brk g (r_start r) in
  match so with
  | None => Ok g
  | Some start_offset =>
    let* g := move_gap g start_offset in
    let* eo := find_offset brk g (r_end r) in
    match eo with
    | Some off =>
      let* gl := usub off (gap_start g) in
      Ok (GB (gb_data g) (gap_start g) gl)
    | None =>
      let start_of_next_line := Pos (line (r_end r) + 1) 0 in
      let* no := find_offset brk g start_of_next_line in
      match no with
      | Some off =>
        let* gl := usub off (gap_start g) in
        Ok (GB (gb_data g) (gap_start g) gl)
      | None =>
        let* gl := usub (vlen (gb_data g)) (gap_start g) in
        Ok (GB (gb_data g) (gap_start g) gl)
      end
    end
  end.

(** [Display::fmt] / [to_string], gap_buffer.rs:300-307. *)
Definition gb_to_string (g : gapbuf) : res text :=
  let* first := first_half g in
  let* second := second_half g in
  Ok (first ++ second).
