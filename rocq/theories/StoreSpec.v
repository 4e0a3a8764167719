(** What calls in programs with many buffers do to the storages, when storages are
    plain values that nobody borrows. *)
From Verif Require Import Base Utf8 Grapheme Position GapBuffer Cursor PathModel Buffer
  Spec Calls CursorSpec CursorCalls BufferCalls Shared SharedSpec World WorldSpec.

(** The contents of the storages. *)
Definition store := list gapbuf.
Definition contents (w : world) : store := map c_gap (wo_heap w).

Section Stores.
Variable brk : brk_rule.
Variable code : closures.

(** A closure on plain values: its calls one after the other, and its note. *)
Fixpoint on_values (s : script) (st : store) : res (text * store) :=
  match s with
  | Note t => Ok (t, st)
  | Use al r c k =>
    match nth_error st r with
    | None => Panic
    | Some g => let* (o, g') := gexec brk al c g in on_values (k o) (put_at st r g')
    end
  end.

(** What happens to the text of a buffer: text is put at a position, a range is cut,
    or there is a new text, in a new storage. *)
Inductive event := Put (d : text) (p : position) | Cut (r : prange) | New (t : text).
Definition place (e : event) : position :=
  match e with Put _ p => p | Cut r => r_start r | New _ => Pos 0 0 end.
Definition occur (al : allocator) (e : event) (r : ref) (st : store) : res (ref * store) :=
  match e with
  | New t => let* g := gb_new al t in Ok (length st, st ++ [g])
  | Put d p =>
    match nth_error st r with
    | None => Panic
    | Some g => let* g' := gb_insert brk al g d p in Ok (r, put_at st r g')
    end
  | Cut x =>
    match nth_error st r with
    | None => Panic
    | Some g => let* g' := gb_delete brk g x in Ok (r, put_at st r g')
    end
  end.

(** Events one after the other; right after each of them the closure, if there is
    one, is called once, with the place. *)
Fixpoint happen (al : allocator) (cb : option nat) (es : list event)
         (r : ref) (log : list (position * text)) (st : store)
  : res (ref * list (position * text) * store) :=
  match es with
  | [] => Ok (r, log, st)
  | e :: es' =>
    let* (r1, st1) := occur al e r st in
    match cb with
    | None => happen al cb es' r1 log st1
    | Some n =>
      let* (t, st2) := on_values (code n (place e) log) st1 in
      happen al cb es' r1 (log ++ [(place e, t)]) st2
    end
  end.

(** The events of an operation that is repeated, and of one that is undone. *)
Fixpoint repeated (op : operation) : list event :=
  match op with
  | OpInsert d p => [Put d p]
  | OpDelete _ r => [Cut r]
  | OpReplace _ new => [New new]
  | OpGroup ops => (fix go ops := match ops with [] => [] | o :: rest => repeated o ++ go rest end) ops
  end.
Fixpoint undone (op : operation) : list event :=
  match op with
  | OpInsert d p => [Cut (range_new p (text_end brk p d))]
  | OpDelete (Some d) r => [Put d (r_start r)]
  | OpDelete None _ => []
  | OpReplace old _ => [New old]
  | OpGroup ops => (fix go ops := match ops with [] => [] | o :: rest => go rest ++ undone o end) ops
  end.

(** Which operation is undone. *)
Definition latest (b : rbuffer) : option operation :=
  match rb_group b with
  | Some (o :: ops) => Some (OpGroup (o :: ops))
  | _ => hd_error (h_previous (rb_history b))
  end.

(** The events of a call on the buffer [b], where its storage holds [g]. *)
Definition renewed (g : gapbuf) (t : text) : list event :=
  match gb_to_string g with Ok u => if list_N_eqb t u then [] else [New t] | Panic => [] end.
Definition events (g : gapbuf) (f : fsys) (c : bcall) (b : rbuffer) : list event :=
  let p := c_pos (rc_at (rb_cursor b)) in
  match c with
  | BInsert d => [Put d p]
  | BDelete =>
    let next := Pos (line p) (offset p + 1) in
    [Cut (range_new p match in_bounds brk g next with Ok true => next | _ => Pos (line p + 1) 0 end)]
  | BDeleteRange x y => [Cut (range_new x y)]
  | BReplace t => renewed g t
  | BReload =>
    match rb_path b with
    | Some q => match read_to_string f q with Some t => renewed g t | None => [] end
    | None => []
    end
  | BUndo => match latest b with Some op => undone op | None => [] end
  | BRedo => match h_next (rb_history b) with op :: _ => repeated op | [] => [] end
  | _ => []
  end.
End Stores.

(** The calls that may change the content of the storage [r]: those on a buffer
    whose storage it is, or whose callback writes there, and writes through a handle. *)
Definition may_change (code : closures) (w : world) (c : ncall) (r : ref) : Prop :=
  match c with
  | NBuffer i _ => exists b, nth_error (wo_buffers w) i = Some b /\
      (rb_data b = r \/ exists n, rb_callback b = Some n /\ closure_writes code n r)
  | NGap k c => changes c /\ exists x, nth_error (wo_cursors w) k = Some x /\ rc_data x = r
  | _ => False
  end.
(** The calls that may change the cursor [k] of the program. *)
Definition may_move (c : ncall) (k : nat) : Prop :=
  match c with NMove j _ | NPlace j _ | NData j _ => j = k | _ => False end.
