(** The rest of the code on machine integers: src/util/line_iterator.rs,
    src/buffer/token/token_iterator.rs, [Buffer::line_count] and src/workspace.rs
    once more, as Machine.v does for the buffer.

    [Buffer::search] and [LineRange::includes] have no sums of their own: line
    numbers and offsets come from [enumerate()] and [char_indices()] (std).  A
    vector of more than [K] buffers does not fit in memory (buffers are larger
    than a byte: a machine gives up earlier). *)
From Verif Require Import Base Utf8 Grapheme Position LineIterator GapBuffer Cursor PathModel Buffer
  BufferCalls Token Workspace WorkspaceSpec Machine MachineSpec.

(** [Buffer::data], mod.rs:143-145, [Buffer::line_count], mod.rs:388-390, and
    [Buffer::search], mod.rs:327-344. *)
Definition u_buf_data (K : nat) (b : buffer) : mres text := u_to_string K (b_data b).
Definition u_buf_line_count (K : nat) (b : buffer) : mres nat :=
  let+ data := u_buf_data K b in uadd K (count_lf data) 1.
Definition u_buf_search (K : nat) (b : buffer) (needle : text) : mres (list position) :=
  let+ data := u_buf_data K b in
  MOk (search_lines needle 0 (str_lines data)).

(** ** line_iterator.rs *)

(** line_iterator.rs:41-49. *)
Fixpoint u_li_scan (K : nat) (cs : text) (e : nat) : mres (nat * bool) :=
  match cs with
  | [] => MOk (e, false)
  | c :: cs' => let+ e' := uadd K e (len1 c) in
                if N.eqb c LF then MOk (e', true) else u_li_scan K cs' e'
  end.

(** [next], line_iterator.rs:28-62. *)
Definition u_li_next (K : nat) (it : line_iter) : mres (option (nat * text) * line_iter) :=
  if li_done it then MOk (None, it)
  else
    let start := li_end it in
    let+ rest := of_res (bskip (li_data it) start) in
    let+ (e, trailing_newline) := u_li_scan K rest (li_end it) in
    let+ l := of_res (str_slice (li_data it) start e) in
    let it1 := LI (li_data it) (li_number it) start e (li_done it) in
    let+ it2 := (if out_of_data it1 && negb trailing_newline
                 then MOk (LI (li_data it) (li_number it) start e true)
                 else let+ n := uadd K (li_number it) 1 in MOk (LI (li_data it) n start e (li_done it))) in
    MOk (Some (li_number it, l), it2).

(** ** token_iterator.rs *)

Section Syntect.
Variables pstate scopeop stack : Type.
Variable parse_line : pstate -> text -> option (list (nat * scopeop)) * pstate.
Variable apply : stack -> scopeop -> stack * bool.
Variable stack_new : stack.
Variable brk : brk_rule.
Variable K : nat.
Notation token_iter := (token_iter pstate scopeop stack).

(** [parse_next_line], token_iterator.rs:135-159. *)
Definition u_parse_next_line (t : token_iter) : mres (option error * token_iter) :=
  let+ (l, lines) := u_li_next K (ti_lines t) in
  match l with
  | Some (line_number, line) =>
    let '(evs, parser) := parse_line (ti_parser t) line in
    match evs with
    | None =>
      MOk (Some ParsingError,
          TI (ti_scopes t) parser lines (ti_line t) (ti_byte_offset t) (ti_position t)
             (ti_events t) (ti_error t))
    | Some line_events =>
      MOk (None,
          TI (ti_scopes t) parser lines (Some line) 0 (Pos line_number 0)
             line_events (ti_error t))
    end
  | None =>
    MOk (None,
        TI (ti_scopes t) (ti_parser t) lines None (ti_byte_offset t) (ti_position t)
           (ti_events t) (ti_error t))
  end.

(** [TokenIterator::new], token_iterator.rs:21-42. *)
Definition u_ti_new (data : text) (parser : pstate) : mres (result token_iter) :=
  let+ (e, t) := u_parse_next_line
      (TI stack_new parser (li_new data) None 0 (Pos 0 0) [] None) in
  match e with
  | Some e => MOk (RErr e)
  | None => MOk (ROk t)
  end.

(** token_iterator.rs:87-132. *)
Fixpoint u_build_loop (line : text) (eol : nat) (evs : list (nat * scopeop))
         (scopes : stack) (boff : nat) (pos : position)
  : mres (build_result stack * stack * nat * position * list (nat * scopeop) * bool) :=
  match evs with
  | [] =>
    if boff <? eol then
      let+ v := of_res (str_slice line boff eol) in
      MOk (BToken _ (Lexeme (Lex v scopes pos)), scopes, boff, pos, [], false)
    else MOk (BNone _, scopes, boff, pos, [], false)
  | (event_offset, scope_change) :: evs' =>
    if boff <? event_offset then
      let end_of_token := Nat.min event_offset eol in
      let+ v := of_res (str_slice line boff end_of_token) in
      let lx := BToken _ (Lexeme (Lex v scopes pos)) in
      let+ o := uadd K (offset pos) (length (graphemes brk v)) in
      let pos' := Pos (Position.line pos) o in
      let '(scopes', ok) := apply scopes scope_change in
      if ok then MOk (lx, scopes', event_offset, pos', evs', true)
      else MOk (BErr _ ScopeError, scopes', event_offset, pos', evs', true)
    else
      let '(scopes', ok) := apply scopes scope_change in
      if ok then u_build_loop line eol evs' scopes' boff pos
      else MOk (BErr _ ScopeError, scopes', boff, pos, evs', true)
  end.

(** [build_next_token], token_iterator.rs:76-133. *)
Definition u_build_next_token (t : token_iter) : mres (build_result stack * token_iter) :=
  match ti_line t with
  | Some line =>
    let+ (r, scopes, boff, pos, evs, keep) :=
      u_build_loop line (end_of_line line) (ti_events t) (ti_scopes t)
                   (ti_byte_offset t) (ti_position t) in
    MOk (r, TI scopes (ti_parser t) (ti_lines t) (if (keep : bool) then Some line else None)
               boff pos evs (ti_error t))
  | None => MOk (BNone _, t)
  end.

(** [next_token] / [Iterator::next], token_iterator.rs:44-74,162-168. *)
Definition u_ti_next (t : token_iter) : mres (option (token stack) * token_iter) :=
  let+ (r, t1) := u_build_next_token t in
  match r with
  | BErr _ e => MOk (None, set_error _ _ _ t1 e)
  | BToken _ tok => MOk (Some tok, t1)
  | BNone _ =>
    let+ (e, t2) := u_parse_next_line t1 in
    match e with
    | Some e => MOk (None, set_error _ _ _ t2 e)
    | None => match ti_line t2 with
              | Some _ => MOk (Some Newline, t2)
              | None => MOk (None, t2)
              end
    end
  end.
End Syntect.

(** ** workspace.rs *)

(** [Vec::insert] (std) on the vector of buffers: it may have to grow. *)
Definition u_vec_insert {A} (K : nat) (l : list A) (i : nat) (x : A) : mres (list A) :=
  let+ l' := of_res (vec_insert l i x) in
  if length l' <=? K then MOk l' else MNoMemory.

(** [select_buffer], workspace.rs:447-466. *)
Definition u_select_buffer (K : nat) (al : allocator) (w : workspace) (index : nat)
  : mres (bool * workspace) :=
  let+ w1 := of_res
    match w_current w with
    | Some current =>
      match w_index w with
      | None => Panic
      | Some i =>
        let* slot := get (w_buffers w) i in
        let* bs := upd (w_buffers w) i current in
        Ok (WS (w_path w) bs (w_next_id w) (Some slot) (w_index w) (w_syntaxes w))
      end
    | None => Ok w
    end in
  match nth_error (w_buffers w1) index with
  | Some target =>
    let+ blank := u_buffer_new K al in
    let+ bs := of_res (upd (w_buffers w1) index blank) in
    MOk (true, WS (w_path w1) bs (w_next_id w1) (Some target) (Some index) (w_syntaxes w1))
  | None => MOk (false, w1)
  end.

(** [add_buffer], workspace.rs:66-86. *)
Definition u_add_buffer (K : nat) (al : allocator) (w : workspace) (buf : buffer) : mres workspace :=
  let buf := set_id buf (Some (w_next_id w)) in
  let+ next := uadd K (w_next_id w) 1 in
  let+ target_index := (match w_index w with Some i => uadd K i 1 | None => MOk 0 end) in
  let+ bs := u_vec_insert K (w_buffers w) target_index buf in
  let+ (_, w2) := u_select_buffer K al
      (WS (w_path w) bs next (w_current w) (w_index w) (w_syntaxes w)) target_index in
  match w_current w2 with
  | Some b => match b_syntax b with
              | None => MOk (snd (update_current_syntax w2))
              | Some _ => MOk w2
              end
  | None => MOk w2
  end.

(** [select_buffer_by_path], workspace.rs:468-489. *)
Definition u_select_buffer_by_path (K : nat) (al : allocator) (f : fsys) (w : workspace) (p : path)
  : mres (bool * workspace) :=
  match fs_canon f p with
  | Some cp =>
    if path_is (match w_current w with Some b => b_path b | None => None end) cp
    then MOk (true, w)
    else match find_index (fun b => path_is (b_path b) cp) (w_buffers w) with
         | Some index => u_select_buffer K al w index
         | None => MOk (false, w)
         end
  | None => MOk (false, w)
  end.

(** [open_buffer], workspace.rs:111-120. *)
Definition u_open_buffer (K : nat) (al : allocator) (f : fsys) (w : workspace) (p : path)
  : mres (result unit * workspace) :=
  let+ (found, w1) := u_select_buffer_by_path K al f w p in
  if (found : bool) then MOk (ROk tt, w1)
  else
    let+ r := u_from_file K al f p in
    match r with
    | RErr e => MOk (RErr e, w1)
    | ROk b => let+ w2 := u_add_buffer K al w1 b in MOk (ROk tt, w2)
    end.

(** [close_current_buffer], workspace.rs:214-226. *)
Definition u_close_current_buffer (K : nat) (al : allocator) (w : workspace) : mres workspace :=
  match w_index w with
  | Some index =>
    let+ bs := of_res (vec_remove (w_buffers w) index) in
    match bs with
    | [] => MOk (WS (w_path w) bs (w_next_id w) None None (w_syntaxes w))
    | _ =>
      let+ (_, w2) := u_select_buffer K al
          (WS (w_path w) bs (w_next_id w) None (w_index w) (w_syntaxes w)) (index - 1) in
      MOk w2
    end
  | None => MOk (WS (w_path w) (w_buffers w) (w_next_id w) None (w_index w) (w_syntaxes w))
  end.

(** [previous_buffer], workspace.rs:253-261. *)
Definition u_previous_buffer (K : nat) (al : allocator) (w : workspace) : mres workspace :=
  match w_index w with
  | Some index =>
    if 0 <? index then
      let+ (_, w') := u_select_buffer K al w (index - 1) in MOk w'
    else
      let+ last := of_res (usub (length (w_buffers w)) 1) in
      let+ (_, w') := u_select_buffer K al w last in MOk w'
  | None => MOk w
  end.

(** [next_buffer], workspace.rs:288-296. *)
Definition u_next_buffer (K : nat) (al : allocator) (w : workspace) : mres workspace :=
  match w_index w with
  | Some index =>
    let+ last := of_res (usub (length (w_buffers w)) 1) in
    if index =? last then
      let+ (_, w') := u_select_buffer K al w 0 in MOk w'
    else
      let+ next := uadd K index 1 in
      let+ (_, w') := u_select_buffer K al w next in MOk w'
  | None => MOk w
  end.

(** [current_buffer_tokens], workspace.rs:330-342. *)
Definition u_current_buffer_tokens (K : nat) (w : workspace) : mres (result token_set) :=
  match w_current w with
  | None => MOk (RErr EmptyWorkspace)
  | Some b =>
    let+ data := u_buf_data K b in
    match b_syntax b with
    | None => MOk (RErr MissingSyntax)
    | Some s => MOk (ROk (TS data s))
    end
  end.

(** One call on a workspace, and a sequence of them. *)
Definition u_wexec (K : nat) (brk : brk_rule) (al : allocator) (c : wcall) (w : workspace) (f : fsys)
  : mres (wout * workspace * fsys) :=
  match c with
  | WAdd b => let+ w' := u_add_buffer K al w b in MOk (WUnit, w', f)
  | WOpen p => let+ (r, w') := u_open_buffer K al f w p in MOk (WResult r, w', f)
  | WClose => let+ w' := u_close_current_buffer K al w in MOk (WUnit, w', f)
  | WNext => let+ w' := u_next_buffer K al w in MOk (WUnit, w', f)
  | WPrevious => let+ w' := u_previous_buffer K al w in MOk (WUnit, w', f)
  | WEdit c =>
    match w_current w with
    | None => MOk (WEdited None, w, f)
    | Some b =>
      let+ (o, b', f') := u_bexec K brk al c b f in
      MOk (WEdited (Some o),
           WS (w_path w) (w_buffers w) (w_next_id w) (Some b') (w_index w) (w_syntaxes w), f')
    end
  | WSyntax => let '(r, w') := update_current_syntax w in MOk (WResult r, w', f)
  | WSetPath p =>
    MOk (WUnit, WS p (w_buffers w) (w_next_id w) (w_current w) (w_index w) (w_syntaxes w), f)
  | WSetSyntaxes ss =>
    MOk (WUnit, WS (w_path w) (w_buffers w) (w_next_id w) (w_current w) (w_index w) ss, f)
  | WDisk f' => MOk (WUnit, w, f')
  end.
Fixpoint u_wrun (K : nat) (brk : brk_rule) (cs : list (allocator * wcall)) (w : workspace) (f : fsys)
  : mres (list wout * workspace * fsys) :=
  match cs with
  | [] => MOk ([], w, f)
  | (al, c) :: cs' =>
    let+ (o, w1, f1) := u_wexec K brk al c w f in
    let+ (os, w2, f2) := u_wrun K brk cs' w1 f1 in
    MOk (o :: os, w2, f2)
  end.
