(** The same code on machine integers: src/buffer/{gap_buffer,cursor,position,
    line_range,mod}.rs and operation/*.rs once more, now with every sum of two
    [usize] checked.

    [K] is [isize::MAX]; [usize::MAX] is [2 * K + 1].  A sum that does not fit
    panics (debug build, [MOverflow]).  No allocation is larger than [K] bytes:
    Rust panics with "capacity overflow" or aborts before that ([MNoMemory]).
    Subtractions, indices and slices are as in the other model files.  Byte
    lengths and counts computed by std and by unicode-segmentation (string
    lengths, [count()], [enumerate()], [grapheme_indices()]) are not checked:
    they are at most the length of a string in memory. *)
From Verif Require Import Base Utf8 Grapheme Position GapBuffer Cursor PathModel Buffer
  CursorSpec BufferCalls.

Inductive mres (A : Type) : Type :=
| MOk (a : A)
| MPanic
| MOverflow
| MNoMemory.
Arguments MOk {A} a.
Arguments MPanic {A}.
Arguments MOverflow {A}.
Arguments MNoMemory {A}.

Definition mbind {A B} (m : mres A) (f : A -> mres B) : mres B :=
  match m with MOk a => f a | MPanic => MPanic | MOverflow => MOverflow | MNoMemory => MNoMemory end.
Notation "'let+' x ':=' m 'in' k" := (mbind m (fun x => k))
  (at level 200, x pattern, m at level 100, k at level 200) : res_scope.

(** Steps without sums. *)
Definition of_res {A} (r : res A) : mres A := match r with Ok a => MOk a | Panic => MPanic end.

(** [a + b] on usize. *)
Definition uadd (K a b : nat) : mres nat := if a + b <=? 2 * K + 1 then MOk (a + b) else MOverflow.

(** The result of an allocation. *)
Definition allocated (K : nat) (v : vec) : mres vec := if vcap v <=? K then MOk v else MNoMemory.

Fixpoint mfor_each {A S} (xs : list A) (s : S) (body : A -> S -> mres S) : mres S :=
  match xs with
  | [] => MOk s
  | x :: xs' => let+ s' := body x s in mfor_each xs' s' body
  end.

(** ** gap_buffer.rs *)

(** [GapBuffer::new], gap_buffer.rs:29-43. *)
Definition u_new (K : nat) (al : allocator) (s : text) : mres gapbuf :=
  let+ bs := allocated K (Vec (enc s) (al (blen s) 0)) in
  let capacity := vcap bs in
  let gs := vlen bs in
  let+ gl := of_res (usub capacity gs) in
  let+ bs := of_res (vset_len bs capacity) in
  MOk (GB bs gs gl).

(** gap_buffer.rs:269-272: [index + self.gap_length]. *)
Definition u_shift_left_body (K gl index : nat) (d : list byte) : mres (list byte) :=
  let+ x := of_res (get d index) in
  let+ i := uadd K index gl in
  let+ d := of_res (upd d i x) in
  of_res (upd d index 0%N).

(** [move_gap], gap_buffer.rs:259-289. *)
Definition u_move_gap (K : nat) (g : gapbuf) (off : nat) : mres gapbuf :=
  if gap_length g =? 0 then MOk (GB (gb_data g) off (gap_length g))
  else match Nat.compare off (gap_start g) with
       | Lt =>
         let+ d := mfor_each (rev (range off (gap_start g))) (bytes g)
                             (u_shift_left_body K (gap_length g)) in
         MOk (GB (Vec d (v_spare (gb_data g))) off (gap_length g))
       | Gt =>
         let+ e := uadd K (gap_start g) (gap_length g) in
         let+ d := mfor_each (range e off) (bytes g)
                             (fun i d => of_res (shift_right_body (gap_length g) i d)) in
         let+ gs := of_res (usub off (gap_length g)) in
         MOk (GB (Vec d (v_spare (gb_data g))) gs (gap_length g))
       | Eq => MOk g
       end.

(** [write_to_gap], gap_buffer.rs:291-297. *)
Definition u_write_to_gap (K : nat) (g : gapbuf) (data : text) : mres gapbuf :=
  mfor_each (enc data) g (fun b g =>
    let+ d := of_res (upd (bytes g) (gap_start g) b) in
    let+ gs := uadd K (gap_start g) 1 in
    let+ gl := of_res (usub (gap_length g) 1) in
    MOk (GB (Vec d (v_spare (gb_data g))) gs gl)).

(** The loops at gap_buffer.rs:212-225 and 235-248. *)
Fixpoint u_scan (K : nat) (gs : list grapheme) (off ln lo : nat) (p : position) : mres scan_result :=
  match gs with
  | [] => MOk (NotFound ln lo)
  | g :: gs' =>
    if (ln =? line p) && (lo =? offset p) then MOk (Found off)
    else if is_lf g then let+ ln' := uadd K ln 1 in u_scan K gs' (off + blen g) ln' 0 p
    else let+ lo' := uadd K lo 1 in u_scan K gs' (off + blen g) ln lo' p
  end.

(** gap_buffer.rs:234,303. *)
Definition u_second_half (K : nat) (g : gapbuf) : mres text :=
  let+ e := uadd K (gap_start g) (gap_length g) in
  let+ d := of_res (slice (bytes g) e (length (bytes g))) in
  MOk (decode_lossy d).

(** [find_offset], gap_buffer.rs:207-257. *)
Definition u_find_offset (K : nat) (brk : brk_rule) (g : gapbuf) (p : position) : mres (option nat) :=
  let+ first := of_res (first_half g) in
  let+ r := u_scan K (graphemes brk first) 0 0 0 p in
  match r with
  | Found off => MOk (Some off)
  | NotFound ln lo =>
    if (ln =? line p) && (lo =? offset p) then
      let+ e := uadd K (gap_start g) (gap_length g) in MOk (Some e)
    else
      let+ second := u_second_half K g in
      let+ r := u_scan K (graphemes brk second) 0 ln lo p in
      match r with
      | Found off =>
        let+ e := uadd K (gap_start g) (gap_length g) in
        let+ o := uadd K e off in
        MOk (Some o)
      | NotFound ln lo =>
        if (ln =? line p) && (lo =? offset p) then MOk (Some (vlen (gb_data g)))
        else MOk None
      end
  end.

(** [in_bounds], gap_buffer.rs:202-204. *)
Definition u_in_bounds (K : nat) (brk : brk_rule) (g : gapbuf) (p : position) : mres bool :=
  let+ o := u_find_offset K brk g p in
  MOk (match o with Some _ => true | None => false end).

(** The reallocating branch of [insert], gap_buffer.rs:60-77. *)
Definition u_ensure_capacity (K : nat) (al : allocator) (g : gapbuf) (data : text) : mres gapbuf :=
  if gap_length g <? blen data then
    let+ g := u_move_gap K g (vcap (gb_data g)) in
    let+ d := allocated K (vreserve al (gb_data g) (blen data)) in
    let capacity := vcap d in
    let+ gl := of_res (usub capacity (gap_start g)) in
    let+ d := of_res (vset_len d capacity) in
    MOk (GB d (gap_start g) gl)
  else MOk g.

(** [insert], gap_buffer.rs:58-86. *)
Definition u_insert (K : nat) (brk : brk_rule) (al : allocator) (g : gapbuf)
           (data : text) (p : position) : mres gapbuf :=
  let+ g := u_ensure_capacity K al g data in
  let+ o := u_find_offset K brk g p in
  match o with
  | None => MOk g
  | Some off => let+ g := u_move_gap K g off in u_write_to_gap K g data
  end.

(** [read], gap_buffer.rs:104-134. *)
Definition u_read (K : nat) (brk : brk_rule) (g : gapbuf) (r : prange) : mres (option text) :=
  let+ so := u_find_offset K brk g (r_start r) in
  match so with
  | None => MOk None
  | Some start_offset =>
    let+ eo := u_find_offset K brk g (r_end r) in
    match eo with
    | None => MOk None
    | Some end_offset =>
      if (start_offset <? gap_start g) && (gap_start g <? end_offset) then
        let+ first := of_res (slice (bytes g) start_offset (gap_start g)) in
        let+ e := uadd K (gap_start g) (gap_length g) in
        let+ second := of_res (slice (bytes g) e end_offset) in
        MOk (Some (decode_lossy first ++ decode_lossy second))
      else
        let+ d := of_res (slice (bytes g) start_offset end_offset) in
        MOk (Some (decode_lossy d))
    end
  end.

(** [delete], gap_buffer.rs:152-186. *)
Definition u_delete (K : nat) (brk : brk_rule) (g : gapbuf) (r : prange) : mres gapbuf :=
  let+ so := u_find_offset K brk g (r_start r) in
  match so with
  | None => MOk g
  | Some start_offset =>
    let+ g := u_move_gap K g start_offset in
    let+ eo := u_find_offset K brk g (r_end r) in
    match eo with
    | Some off =>
      let+ gl := of_res (usub off (gap_start g)) in
      MOk (GB (gb_data g) (gap_start g) gl)
    | None =>
      let+ next := uadd K (line (r_end r)) 1 in
      let+ no := u_find_offset K brk g (Pos next 0) in
      match no with
      | Some off =>
        let+ gl := of_res (usub off (gap_start g)) in
        MOk (GB (gb_data g) (gap_start g) gl)
      | None =>
        let+ gl := of_res (usub (vlen (gb_data g)) (gap_start g)) in
        MOk (GB (gb_data g) (gap_start g) gl)
      end
    end
  end.

(** [Display::fmt] / [to_string], gap_buffer.rs:300-307. *)
Definition u_to_string (K : nat) (g : gapbuf) : mres text :=
  let+ first := of_res (first_half g) in
  let+ second := u_second_half K g in
  MOk (first ++ second).

(** ** position.rs, line_range.rs *)

(** [Add<Distance> for Position], src/buffer/position.rs:32-47. *)
Definition u_pos_add (K : nat) (p : position) (d : distance) : mres position :=
  let+ off := (if 0 <? d_lines d then MOk (d_offset d) else uadd K (offset p) (d_offset d)) in
  let+ l := uadd K (line p) (d_lines d) in
  MOk (Pos l off).

(** [AddAssign<Distance> for Position], src/buffer/position.rs:49-58. *)
Definition u_pos_add_assign (K : nat) (p : position) (d : distance) : mres position :=
  let+ l := uadd K (line p) (d_lines d) in
  let+ off := (if 0 <? d_lines d then MOk (d_offset d) else uadd K (offset p) (d_offset d)) in
  MOk (Pos l off).

(** [LineRange::to_inclusive_range], src/buffer/line_range.rs:78-89. *)
Definition u_to_inclusive_range (K : nat) (r : line_range) : mres prange :=
  let+ e := uadd K (lr_end r) 1 in
  MOk (range_new (Pos (lr_start r) 0) (Pos e 0)).

(** ** cursor.rs *)

(** [move_to], cursor.rs:65-76. *)
Definition u_move_to (K : nat) (brk : brk_rule) (g : gapbuf) (c : cursor) (p : position)
  : mres (bool * cursor) :=
  let+ ok := u_in_bounds K brk g p in
  if (ok : bool) then MOk (true, Cur p (offset p)) else MOk (false, c).

(** Common tail of [move_up] (cursor.rs:92-109) and [move_down] (121-138). *)
Definition u_move_to_line (K : nat) (brk : brk_rule) (g : gapbuf) (c : cursor) (target : nat)
  : mres cursor :=
  let new_position := Pos target (c_sticky c) in
  let+ (moved, c1) := u_move_to K brk g c new_position in
  if (moved : bool) then MOk c1
  else
    let+ s := u_to_string K g in
    let target_offset := line_length_or_zero brk s target in
    let+ (_, c2) := u_move_to K brk g c1 (Pos target target_offset) in
    MOk (Cur (c_pos c2) (offset new_position)).

(** [move_up], cursor.rs:80-110. *)
Definition u_move_up (K : nat) (brk : brk_rule) (g : gapbuf) (c : cursor) : mres cursor :=
  if line (c_pos c) =? 0 then MOk c
  else
    let+ target := of_res (usub (line (c_pos c)) 1) in
    u_move_to_line K brk g c target.

(** [move_down], cursor.rs:114-139. *)
Definition u_move_down (K : nat) (brk : brk_rule) (g : gapbuf) (c : cursor) : mres cursor :=
  let+ target := uadd K (line (c_pos c)) 1 in
  u_move_to_line K brk g c target.

(** [move_left], cursor.rs:143-154. *)
Definition u_move_left (K : nat) (brk : brk_rule) (g : gapbuf) (c : cursor) : mres cursor :=
  if offset (c_pos c) =? 0 then MOk c
  else
    let+ o := of_res (usub (offset (c_pos c)) 1) in
    let+ (_, c') := u_move_to K brk g c (Pos (line (c_pos c)) o) in MOk c'.

(** [move_right], cursor.rs:158-164. *)
Definition u_move_right (K : nat) (brk : brk_rule) (g : gapbuf) (c : cursor) : mres cursor :=
  let+ o := uadd K (offset (c_pos c)) 1 in
  let+ (_, c') := u_move_to K brk g c (Pos (line (c_pos c)) o) in MOk c'.

(** [move_to_start_of_line], cursor.rs:167-173. *)
Definition u_move_to_start_of_line (K : nat) (brk : brk_rule) (g : gapbuf) (c : cursor) : mres cursor :=
  let+ (_, c') := u_move_to K brk g c (Pos (line (c_pos c)) 0) in MOk c'.

(** [move_to_end_of_line], cursor.rs:176-186. *)
Definition u_move_to_end_of_line (K : nat) (brk : brk_rule) (g : gapbuf) (c : cursor) : mres cursor :=
  let+ data := u_to_string K g in
  match nth_error (str_lines data) (line (c_pos c)) with
  | Some l =>
    let+ (_, c') := u_move_to K brk g c (Pos (line (c_pos c)) (length (graphemes brk l))) in MOk c'
  | None => MOk c
  end.

(** The counting loop of [move_to_last_line], cursor.rs:191-200. *)
Fixpoint u_last_line_loop (K : nat) (gs : list grapheme) (ln len : nat) : mres (nat * nat) :=
  match gs with
  | [] => MOk (ln, len)
  | g :: gs' => if is_lf g then let+ ln' := uadd K ln 1 in u_last_line_loop K gs' ln' 0
                else let+ len' := uadd K len 1 in u_last_line_loop K gs' ln len'
  end.

(** [move_to_last_line], cursor.rs:189-216. *)
Definition u_move_to_last_line (K : nat) (brk : brk_rule) (g : gapbuf) (c : cursor) : mres cursor :=
  let+ data := u_to_string K g in
  let+ (ln, len) := u_last_line_loop K (graphemes brk data) 0 0 in
  let target := if len <? c_sticky c then Pos ln len else Pos ln (c_sticky c) in
  let+ (_, c') := u_move_to K brk g c target in MOk c'.

(** [move_to_first_line], cursor.rs:219-244. *)
Definition u_move_to_first_line (K : nat) (brk : brk_rule) (g : gapbuf) (c : cursor) : mres cursor :=
  let+ data := u_to_string K g in
  let len := match nth_error (str_lines data) 0 with
             | Some l => length (graphemes brk l)
             | None => 0
             end in
  let target := if len <? c_sticky c then Pos 0 len else Pos 0 (c_sticky c) in
  let+ (_, c') := u_move_to K brk g c target in MOk c'.

(** One call of the cursor API. *)
Definition u_cexec (K : nat) (brk : brk_rule) (g : gapbuf) (m : cmove) (c : cursor) : mres cursor :=
  match m with
  | MTo p => let+ (_, c') := u_move_to K brk g c p in MOk c'
  | MUp => u_move_up K brk g c
  | MDown => u_move_down K brk g c
  | MLeft => u_move_left K brk g c
  | MRight => u_move_right K brk g c
  | MStart => u_move_to_start_of_line K brk g c
  | MEnd => u_move_to_end_of_line K brk g c
  | MLast => u_move_to_last_line K brk g c
  | MFirst => u_move_to_first_line K brk g c
  end.

(** ** mod.rs, operation/*.rs *)

(** [Buffer::new], mod.rs:58-76,90-92. *)
Definition u_buffer_new (K : nat) (al : allocator) : mres buffer :=
  let+ g := u_new K al [] in
  MOk (Buf None g None (cursor_new (Pos 0 0)) hist_new None None false []).

(** The end position computed by [Insert::reverse], insert.rs:38-61: the line
    count is added before 1 is taken away. *)
Definition u_insert_end (K : nat) (brk : brk_rule) (content : text) (p : position)
  : mres (option position) :=
  let+ line_count := uadd K (count_lf content) 1 in
  let+ past := uadd K (line p) line_count in
  let+ end_line := of_res (usub past 1) in
  if line_count =? 1 then
    let+ end_offset := uadd K (offset p) (length (graphemes brk content)) in
    MOk (Some (Pos end_line end_offset))
  else
    match last_line content with
    | Some l => MOk (Some (Pos end_line (length (graphemes brk l))))
    | None => MOk None
    end.

(** [replace_content], replace.rs:96-117. *)
Definition u_replace_content (K : nat) (brk : brk_rule) (al : allocator) (content : text) (b : buffer)
  : mres buffer :=
  let+ g := u_new K al content in
  let c0 := cursor_new (Pos 0 0) in
  let+ (moved, c1) := u_move_to K brk g c0 (c_pos (b_cursor b)) in
  let+ c2 := (if (moved : bool) then MOk c1
              else let+ (_, c) := u_move_to K brk g c1 (Pos (line (c_pos (b_cursor b))) 0) in MOk c) in
  MOk (notify (set_cursor (set_data b g) c2) (Pos 0 0)).

(** [Operation::run]: insert.rs:22-32, delete.rs:20-31, replace.rs:23-25,
    group.rs:20-24. *)
Fixpoint u_op_run (K : nat) (brk : brk_rule) (al : allocator) (op : operation) (b : buffer) {struct op}
  : mres (operation * buffer) :=
  match op with
  | OpInsert content p =>
    let+ g := u_insert K brk al (b_data b) content p in
    MOk (op, notify (set_data b g) p)
  | OpDelete _ r =>
    let+ content := u_read K brk (b_data b) r in
    let+ g := u_delete K brk (b_data b) r in
    MOk (OpDelete content r, notify (set_data b g) (r_start r))
  | OpReplace old new =>
    let+ b' := u_replace_content K brk al new b in MOk (op, b')
  | OpGroup ops =>
    let+ (ops', b') :=
      (fix go (ops : list operation) (b : buffer) : mres (list operation * buffer) :=
         match ops with
         | [] => MOk ([], b)
         | o :: rest =>
           let+ (o', b1) := u_op_run K brk al o b in
           let+ (rest', b2) := go rest b1 in
           MOk (o' :: rest', b2)
         end) ops b in
    MOk (OpGroup ops', b')
  end.

(** [Operation::reverse]: insert.rs:37-71, delete.rs:33-45, replace.rs:27-29,
    group.rs:27-31. *)
Fixpoint u_op_reverse (K : nat) (brk : brk_rule) (al : allocator) (op : operation) (b : buffer) {struct op}
  : mres buffer :=
  match op with
  | OpInsert content p =>
    let+ fin := u_insert_end K brk content p in
    match fin with
    | None => MOk b
    | Some e =>
      let+ g := u_delete K brk (b_data b) (range_new p e) in
      MOk (notify (set_data b g) p)
    end
  | OpDelete (Some content) r =>
    let+ g := u_insert K brk al (b_data b) content (r_start r) in
    MOk (notify (set_data b g) (r_start r))
  | OpDelete None _ => MOk b
  | OpReplace old new => u_replace_content K brk al old b
  | OpGroup ops =>
    (fix go (ops : list operation) (b : buffer) : mres buffer :=
       match ops with
       | [] => MOk b
       | o :: rest =>
         let+ b1 := go rest b in
         u_op_reverse K brk al o b1
       end) ops b
  end.

(** [Buffer::insert], insert.rs:97-108. *)
Definition u_buf_insert (K : nat) (brk : brk_rule) (al : allocator) (b : buffer) (data : text)
  : mres buffer :=
  let+ (op, b') := u_op_run K brk al (OpInsert data (c_pos (b_cursor b))) b in
  MOk (store b' op).

(** [Buffer::delete_range], delete.rs:123-134. *)
Definition u_buf_delete_range (K : nat) (brk : brk_rule) (al : allocator) (b : buffer) (r : prange)
  : mres buffer :=
  let+ (op, b') := u_op_run K brk al (OpDelete None r) b in
  MOk (store b' op).

(** [Buffer::delete], delete.rs:77-100. *)
Definition u_buf_delete (K : nat) (brk : brk_rule) (al : allocator) (b : buffer) : mres buffer :=
  let p := c_pos (b_cursor b) in
  let+ next := uadd K (offset p) 1 in
  let fin := Pos (line p) next in
  let+ ok := u_in_bounds K brk (b_data b) fin in
  let+ fin := (if (ok : bool) then MOk fin
               else let+ below := uadd K (line p) 1 in MOk (Pos below 0)) in
  u_buf_delete_range K brk al b (range_new p fin).

(** [Buffer::replace], replace.rs:76-93. *)
Definition u_buf_replace (K : nat) (brk : brk_rule) (al : allocator) (b : buffer) (content : text)
  : mres buffer :=
  let+ old_content := u_to_string K (b_data b) in
  if list_N_eqb content old_content then MOk b
  else
    let+ old := u_to_string K (b_data b) in
    let+ (op, b') := u_op_run K brk al (OpReplace old content) b in
    MOk (store b' op).

(** [Buffer::undo], mod.rs:243-261. *)
Definition u_buf_undo (K : nat) (brk : brk_rule) (al : allocator) (b : buffer) : mres buffer :=
  let b0 := set_group b None in
  let '(op, b1) :=
    match b_group b with
    | Some (o :: ops) => (Some (OpGroup (o :: ops)), b0)
    | Some [] | None =>
      let '(op, h) := hist_previous (b_history b0) in (op, set_history b0 h)
    end in
  match op with
  | Some op => u_op_reverse K brk al op b1
  | None => MOk b1
  end.

(** [Buffer::redo], mod.rs:279-284. *)
Definition u_buf_redo (K : nat) (brk : brk_rule) (al : allocator) (b : buffer) : mres buffer :=
  let '(op, h) := hist_next (b_history b) in
  let b1 := set_history b h in
  match op with
  | Some op => let+ (_, b2) := u_op_run K brk al op b1 in MOk b2
  | None => MOk b1
  end.

(** [Buffer::from_file], mod.rs:113-137. *)
Definition u_from_file (K : nat) (al : allocator) (f : fsys) (p : path) : mres (result buffer) :=
  match read_to_string f p with
  | None => MOk (RErr IoError)
  | Some content =>
    let+ g := u_new K al content in
    match fs_canon f p with
    | None => MOk (RErr IoError)
    | Some cp =>
      MOk (ROk (Buf None g (Some cp) (cursor_new (Pos 0 0)) (hist_mark hist_new)
                    None None false []))
    end
  end.

(** [Buffer::save], mod.rs:180-196. *)
Definition u_buf_save (K : nat) (f : fsys) (w : write_outcome) (b : buffer)
  : mres (result unit * buffer * fsys) :=
  match b_path b with
  | None => MOk (RErr IoError, b, f)
  | Some p =>
    match outcome f p w with
    | CreateFails => MOk (RErr IoError, b, f)
    | WriteFails k =>
      let+ data := u_to_string K (b_data b) in
      MOk (RErr IoError, b, fs_write f p (firstn k (enc data)))
    | WriteSucceeds =>
      let+ data := u_to_string K (b_data b) in
      MOk (ROk tt, set_history b (hist_mark (b_history b)), fs_write f p (enc data))
    end
  end.

(** [Buffer::reload], mod.rs:413-425. *)
Definition u_buf_reload (K : nat) (brk : brk_rule) (al : allocator) (f : fsys) (b : buffer)
  : mres (result unit * buffer) :=
  match b_path b with
  | None => MOk (RErr MissingPath, b)
  | Some p =>
    match read_to_string f p with
    | None => MOk (RErr IoError, b)
    | Some content =>
      let+ b' := u_buf_replace K brk al b content in
      MOk (ROk tt, set_history b' (hist_mark (b_history b')))
    end
  end.

(** One call of the buffer API, and a sequence of them. *)
Definition u_bexec (K : nat) (brk : brk_rule) (al : allocator) (c : bcall) (b : buffer) (f : fsys)
  : mres (bout * buffer * fsys) :=
  match c with
  | BInsert d => let+ b' := u_buf_insert K brk al b d in MOk (BUnit, b', f)
  | BDelete => let+ b' := u_buf_delete K brk al b in MOk (BUnit, b', f)
  | BDeleteRange p q => let+ b' := u_buf_delete_range K brk al b (range_new p q) in MOk (BUnit, b', f)
  | BReplace s => let+ b' := u_buf_replace K brk al b s in MOk (BUnit, b', f)
  | BUndo => let+ b' := u_buf_undo K brk al b in MOk (BUnit, b', f)
  | BRedo => let+ b' := u_buf_redo K brk al b in MOk (BUnit, b', f)
  | BMove m => let+ c' := u_cexec K brk (b_data b) m (b_cursor b) in MOk (BUnit, set_cursor b c', f)
  | BSave w => let+ (r, b', f') := u_buf_save K f w b in MOk (BResult r, b', f')
  | BReload => let+ (r, b') := u_buf_reload K brk al f b in MOk (BResult r, b', f)
  | BStartGroup | BEndGroup | BCursor _ | BSetPath _ | BSetId _ | BSetSyntax _
  | BSetCallback _ | BDisk _ => of_res (bexec brk al c b f)
  end.
Fixpoint u_brun (K : nat) (brk : brk_rule) (cs : list (allocator * bcall)) (b : buffer) (f : fsys)
  : mres (list bout * buffer * fsys) :=
  match cs with
  | [] => MOk ([], b, f)
  | (al, c) :: cs' =>
    let+ (o, b1, f1) := u_bexec K brk al c b f in
    let+ (os, b2, f2) := u_brun K brk cs' b1 f1 in
    MOk (o :: os, b2, f2)
  end.
