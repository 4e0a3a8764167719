(** What there is of a buffer besides its text and what its callback noted. *)
From Verif Require Import Base Utf8 Grapheme Position GapBuffer Cursor PathModel Buffer
  Spec Calls CursorSpec CursorCalls BufferCalls Shared SharedSpec World WorldSpec StoreSpec.

(** Its id, path, cursor, history, open group, syntax, and whether it has a callback. *)
Definition but_text (v : buffer)
  : option nat * option path * cursor * history * option (list operation) * option syntax * bool :=
  (b_id v, b_path v, b_cursor v, b_history v, b_group v, b_syntax v, b_callback v).

(** Text in a new storage. *)
Definition renews (e : event) : bool := match e with New _ => true | _ => false end.
