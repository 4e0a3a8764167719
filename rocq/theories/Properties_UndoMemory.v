(** Property C98: what the undo history keeps in memory.  Statements only; the
    words are in UndoMemorySpec.v. *)
From Coq Require Import String.
From Verif Require Import Base Utf8 Grapheme UnicodeTable Position GapBuffer Cursor PathModel Buffer
  Spec BufferCalls Witness Disks CopiesSpec Timeline UndoMemorySpec UndoMemoryProofs.

(** C98: exactly what each call changes, for every text.  An edit adds what it
    brings in and takes out, and outside a group it frees what could be redone.
    Undo and redo add nothing, and free nothing but an open group with edits, which
    is gone once it is undone.  The end of such a group frees what could be redone.
    No other call changes anything. *)
Theorem C98_each_call : forall w brk al c b f o b' f', bexec brk al c b f = Ok (o, b', f') ->
  if is_edit c b f then
    kept_past w b' = kept_past w b + w + turnover brk c b f /\
    kept_future w b' = (if group_open b then kept_future w b else 0)
  else match c with
  | BUndo => if group_has_edits b then kept_past w b' + group_bytes w b = kept_past w b /\ kept_future w b' = kept_future w b
             else kept w b' = kept w b
  | BRedo => kept w b' = kept w b
  | BEndGroup => kept_past w b' = kept_past w b + (if group_has_edits b then w else 0) /\
                 kept_future w b' = (if group_has_edits b then 0 else kept_future w b)
  | _ => kept_past w b' = kept_past w b /\ kept_future w b' = kept_future w b
  end.
Proof. exact call_kept. Qed.
Print Assumptions C98_each_call.

(** C98: after any session, at most what its edits brought in and took out. *)
Theorem C98_sessions : forall w brk f0 b0 cs os b f, fresh_buffer f0 b0 -> brun brk cs b0 f0 = Ok (os, b, f) ->
  kept w b <= session_adds w brk cs b0 f0.
Proof. exact sessions_kept. Qed.
Print Assumptions C98_sessions.

(** C98: and that is never more than what the call was given and the text it found. *)
Theorem C98_at_most : forall brk c b f, reachable_buffer brk b f ->
  turnover brk c b f <= handed c b f + size (text_of b).
Proof. exact turnover_le. Qed.
Print Assumptions C98_at_most.

(** The values after each call of a session, with 100 bytes for each operation. *)
Example C98_example : exists b0, buffer_new tight = Ok b0 /\
  map (fun n => match brun uax29_15 (firstn n (map (pair tight)
      [BInsert (txt "hello"); BDelete; BUndo; BRedo; BUndo; BUndo; BInsert (txt "a");
       BReplace (txt "bcd"); BUndo; BStartGroup; BInsert (txt "xy"); BEndGroup;
       BStartGroup; BDeleteRange (Pos 0 0) (Pos 0 2); BUndo])) b0 no_files with
    | Ok (_, b, _) => (kept_past 100 b, kept_future 100 b) | Panic => (0, 0) end) (seq 0 16) =
  [(0, 0); (105, 0); (206, 0); (105, 101); (206, 0); (105, 101); (0, 206); (101, 0);
   (205, 0); (101, 104); (101, 104); (203, 104); (303, 0); (303, 0); (405, 0); (303, 0)].
Proof. eexists. split; [reflexivity|]. vm_compute. reflexivity. Qed.

(** C98: there is no other limit.  For every [n], a session of [2 * n] calls leaves
    an empty text and [n] times two operations and their letters in the history. *)
Theorem C98_no_limit : forall n, exists cs os b f, from_new cs no_files = Ok (os, b, f) /\ reachable_buffer uax29_15 b f /\
  List.length cs = 2 * n /\ buf_data b = Ok [] /\ forall w, kept w b = n * (2 * w + 2).
Proof. exact no_limit. Qed.
Print Assumptions C98_no_limit.
