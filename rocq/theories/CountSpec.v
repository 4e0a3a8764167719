(** What [modified()] answers, computed from numbers only: how many steps can be
    undone and redone, at which of them the text was saved, and how many edits
    the open group has. *)
From Verif Require Import Base Utf8 Grapheme Position GapBuffer Cursor PathModel Buffer Spec ClusterSpec CursorSpec
  CursorCalls BufferCalls.

(** [k_saved] is the number of steps that could be undone when the text was last
    saved or loaded; [None] if that state cannot be reached any more. *)
Record counts := Counts { k_past : nat; k_future : nat; k_saved : option nat; k_open : option nat }.

Definition k_modified (k : counts) : bool :=
  match k_saved k with Some n => negb (n =? k_past k) | None => true end.
(** A new step: nothing can be redone, and a saved text that was to be reached by
    redoing is lost. *)
Definition k_step (k : counts) : counts :=
  Counts (k_past k + 1) 0 (match k_saved k with Some n => if n <=? k_past k then Some n else None | None => None end) None.
Definition k_edit (k : counts) : counts :=
  match k_open k with
  | Some n => Counts (k_past k) (k_future k) (k_saved k) (Some (n + 1))
  | None => k_step k
  end.
Definition k_sync (k : counts) : counts := Counts (k_past k) (k_future k) (Some (k_past k)) (k_open k).

(** One call: what it returned, and whether the text changed. *)
Definition k_call (c : bcall) (o : bout) (changed : bool) (k : counts) : counts :=
  match c with
  | BInsert _ | BDelete | BDeleteRange _ _ => k_edit k
  | BReplace _ => if changed then k_edit k else k
  | BReload =>
    match o with BResult (ROk _) => k_sync (if changed then k_edit k else k) | _ => k end
  | BSave _ => match o with BResult (ROk _) => k_sync k | _ => k end
  | BUndo =>
    match k_open k, k_past k with
    | Some (S _), _ => Counts (k_past k) (k_future k) (k_saved k) None
    | _, S n => Counts n (k_future k + 1) (k_saved k) None
    | _, 0 => Counts 0 (k_future k) (k_saved k) None
    end
  | BRedo =>
    match k_future k with
    | S n => Counts (k_past k + 1) n (k_saved k) (k_open k)
    | 0 => k
    end
  | BStartGroup =>
    Counts (k_past k) (k_future k) (k_saved k) (match k_open k with Some n => Some n | None => Some 0 end)
  | BEndGroup =>
    match k_open k with
    | Some (S _) => k_step k
    | _ => Counts (k_past k) (k_future k) (k_saved k) None
    end
  | _ => k
  end.

(** Counting along calls. *)
Definition text_changed (b b' : buffer) : bool :=
  match buf_data b, buf_data b' with
  | Ok t, Ok t' => if list_eq_dec N.eq_dec t t' then false else true
  | _, _ => true
  end.
Definition k_start (b : buffer) : counts := Counts 0 0 (match b_path b with Some _ => Some 0 | None => None end) None.
Fixpoint counted (brk : brk_rule) (cs : list (allocator * bcall)) (b : buffer) (f : fsys) (k : counts) : counts :=
  match cs with
  | [] => k
  | (al, c) :: cs' =>
    match bexec brk al c b f with
    | Ok (o, b', f') => counted brk cs' b' f' (k_call c o (text_changed b b') k)
    | Panic => k
    end
  end.
