(** What is said about programs with a workspace over shared storages. *)
From Verif Require Import Base Utf8 Grapheme Position GapBuffer Cursor PathModel Buffer
  Spec Calls CursorSpec CursorCalls BufferCalls Token Workspace WorkspaceSpec Shared SharedSpec World WorldSpec Desk.

(** The open buffers, the current one in its place. *)
Definition lineup (w : rworkspace) : list rbuffer :=
  match rw_index w, rw_current w with
  | Some i, Some b => put_at (rw_buffers w) i b
  | _, _ => rw_buffers w
  end.
Definition d_lineup (s : desk) : list rbuffer := lineup (d_ws s).
Definition d_heap (s : desk) : heap := wo_heap (d_world s).
Definition d_index (s : desk) : option nat := rw_index (d_ws s).
Definition d_current (s : desk) : option rbuffer := rw_current (d_ws s).

(** Rust strings are valid text, and closures have handles on what exists. *)
Definition dcall_ok (code : closures) (s : desk) (c : dcall) : Prop :=
  match c with
  | DWorld c => ncall_ok code (d_world s) c
  | DBuffer c => ncall_ok code (d_world s) (NBuffer 0 c)
  | DCallback n => ncall_ok code (d_world s) (NCallback 0 n)
  | _ => True
  end.

(** Sessions, from a new workspace on a program that has nothing yet. *)
Inductive desk_session (brk : brk_rule) (code : closures) (Q : dcall -> Prop) (f : fsys) (ws : rworkspace)
  : list (allocator * dcall) -> list dout -> desk -> Prop :=
| desk_start : desk_session brk code Q f ws [] [] (Desk (World [] [] [] [] f) ws)
| desk_call cs os s al c o s' : desk_session brk code Q f ws cs os s ->
    alloc_ok al -> dcall_ok code s c -> Q c -> dexec brk code al c s = Ok (o, s') ->
    desk_session brk code Q f ws (cs ++ [(al, c)]) (os ++ [o]) s'.
Definition desk_reached (brk : brk_rule) (code : closures) (s : desk) : Prop :=
  exists f p ss ws cs os, rws_new f p (Some ss) = ROk ws /\
    desk_session brk code (fun _ => True) f ws cs os s.

(** The calls of the workspace that are about which buffers are open and which of
    them is current. *)
Definition arranges (c : dcall) : Prop :=
  match c with
  | DAdd _ | DOpen _ | DClose | DNext | DPrevious | DSyntax | DSetPath _ | DSetSyntaxes _ => True
  | _ => False
  end.

(** The storages the other calls have to borrow. *)
Definition desk_needs (code : closures) (s : desk) (c : dcall) (r : ref) : Prop :=
  match c with
  | DWorld c => needs code (d_world s) c r
  | DBuffer c => exists b, d_current s = Some b /\ call_needs code b c r
  | DTokens => exists b, d_current s = Some b /\ r = rb_data b
  | _ => False
  end.

(** ** What becomes of the open buffers *)

Definition insert_at {A} (l : list A) (k : nat) (x : A) : list A := firstn k l ++ x :: skipn k l.
(** The same buffer (storage, path, cursor, history, open group, callback and what
    it noted), with another id and syntax definition. *)
Definition entered (b b' : rbuffer) : Prop := exists i y, b' = rset_syntax (rset_id b i) y.
Definition resyntaxed (b b' : rbuffer) : Prop := exists y, b' = rset_syntax b y.

Definition arranged (c : dcall) (s : desk) (o : dout) (s' : desk) : Prop :=
  let L := d_lineup s in
  let n := length L in
  let k := match d_index s with Some i => S i | None => 0 end in
  let free := wo_buffers (d_world s) in
  let stays := d_lineup s' = L /\ d_index s' = d_index s in
  match c with
  | DNext => d_lineup s' = L /\ d_index s' = option_map (fun i => (i + 1) mod n) (d_index s)
  | DPrevious => d_lineup s' = L /\ d_index s' = option_map (fun i => (i + (n - 1)) mod n) (d_index s)
  | DClose =>
    match d_index s with
    | None => stays
    | Some i => d_lineup s' = without L i /\ d_index s' = if n =? 1 then None else Some (i - 1)
    end
  | DAdd j =>
    match nth_error free j with
    | None => stays /\ wo_buffers (d_world s') = free
    | Some b => wo_buffers (d_world s') = without free j /\
        exists b', entered b b' /\ d_lineup s' = insert_at L k b' /\ d_index s' = Some k
    end
  | DOpen p =>
    match o with
    | VResult (RErr _) => stays
    | _ => exists cp, fs_canon (wo_disk (d_world s)) p = Some cp /\
        ((exists i b, nth_error L i = Some b /\ rb_path b = Some cp /\
            d_lineup s' = L /\ d_index s' = Some i) \/
         ((forall b, In b L -> rb_path b <> Some cp) /\ exists b, length (d_heap s) <= rb_data b /\ rb_path b = Some cp /\ rc_data (rb_cursor b) = rb_data b /\
            rb_callback b = None /\ d_lineup s' = insert_at L k b /\ d_index s' = Some k))
    end
  | DSyntax =>
    match d_index s, d_current s with
    | Some i, Some b => exists b', resyntaxed b b' /\ d_lineup s' = put_at L i b' /\ d_index s' = Some i
    | _, _ => stays
    end
  | DBuffer _ | DCallback _ | DAssign _ =>
    match d_index s with
    | Some i => (exists b', d_lineup s' = put_at L i b') /\ d_index s' = Some i
    | None => stays
    end
  | _ => stays
  end.

(** The calls that are about an open buffer: those on it while it is current,
    writes to its storage through a handle, and calls whose callback writes there. *)
Definition desk_concerns (code : closures) (s : desk) (c : dcall) (b : rbuffer) : Prop :=
  match c with
  | DBuffer _ => d_current s = Some b \/
      exists b0 n, d_current s = Some b0 /\ rb_callback b0 = Some n /\ closure_writes code n (rb_data b)
  | DCallback _ | DAssign _ | DSyntax | DClose => d_current s = Some b
  | DWorld (NBuffer i _) =>
      exists b0 n, nth_error (wo_buffers (d_world s)) i = Some b0 /\ rb_callback b0 = Some n /\ closure_writes code n (rb_data b)
  | DWorld (NGap k c) => changes c /\ exists x, nth_error (wo_cursors (d_world s)) k = Some x /\ rc_data x = rb_data b
  | _ => False
  end.

(** ** Values *)

Definition desk_plain (c : dcall) : Prop :=
  match c with DWorld c => plain c | DAssign _ => False | _ => True end.

(** The same calls on separate buffers: those of the program's own, and the list of
    WorkspaceSpec.v. *)
Record vdesk := VDesk { vd_own : list buffer; vd_shelf : shelf }.
Definition arranging (c : dcall) : option wcall :=
  match c with
  | DOpen p => Some (WOpen p)
  | DClose => Some WClose
  | DNext => Some WNext
  | DPrevious => Some WPrevious
  | DSyntax => Some WSyntax
  | DSetPath p => Some (WSetPath p)
  | DSetSyntaxes ss => Some (WSetSyntaxes ss)
  | DBuffer c => Some (WEdit c)
  | _ => None
  end.
Definition answer (o : wout) : dout :=
  match o with
  | WUnit | WEdited None => VUnit
  | WResult r => VResult r
  | WEdited (Some o) => VWorld (UBuffer o)
  end.
Definition dvexec (brk : brk_rule) (al : allocator) (c : dcall) (v : vdesk) (f : fsys) : res (dout * vdesk * fsys) :=
  let '(VDesk bs sh) := v in
  match arranging c with
  | Some wc => let* (o, sh', f') := spec_wcall brk al wc sh f in Ok (answer o, VDesk bs sh', f')
  | None =>
    match c with
    | DWorld c => let* (o, bs', f') := vexec brk al c bs f in Ok (VWorld o, VDesk bs' sh, f')
    | DAdd i =>
      match nth_error bs i with
      | None => Ok (VUnit, v, f)
      | Some b => Ok (VUnit, VDesk (without bs i) (WorkspaceSpec.put sh b), f)
      end
    | DTokens =>
      match selected sh with
      | None => Ok (VTokens (RErr EmptyWorkspace), v, f)
      | Some b =>
        let* t := buf_data b in
        Ok (VTokens (match b_syntax b with None => RErr MissingSyntax | Some y => ROk (TS t y) end), v, f)
      end
    | DCallback _ =>
      match selected sh with
      | None => Ok (VUnit, v, f)
      | Some b => Ok (VUnit, VDesk bs (replace_selected sh (set_callback b true)), f)
      end
    | DDrop i => Ok (VUnit, VDesk (without bs i) sh, f)
    | _ => Ok (VUnit, v, f)
    end
  end.
Fixpoint dvrun (brk : brk_rule) (cs : list (allocator * dcall)) (v : vdesk) (f : fsys) : res (list dout * vdesk * fsys) :=
  match cs with
  | [] => Ok ([], v, f)
  | (al, c) :: cs' =>
    let* (o, v1, f1) := dvexec brk al c v f in
    let* (os, v2, f2) := dvrun brk cs' v1 f1 in
    Ok (o :: os, v2, f2)
  end.
(** What is returned by calls on buffers and on the workspace. *)
Definition from_desk (o : dout) : dout := match o with VWorld o => VWorld (from_buffers o) | _ => o end.

(** The program shows these buffers. *)
Definition desk_shows (s : desk) (v : vdesk) : Prop :=
  s_path (vd_shelf v) = rw_path (d_ws s) /\ s_syntaxes (vd_shelf v) = rw_syntaxes (d_ws s) /\
  s_selected (vd_shelf v) = d_index s /\ option_map Some (selected (vd_shelf v)) = option_map (seen (d_heap s)) (d_current s) /\
  map Some (s_buffers (vd_shelf v)) = map (seen (d_heap s)) (d_lineup s) /\
  map Some (vd_own v) = map (seen (d_heap s)) (wo_buffers (d_world s)).
