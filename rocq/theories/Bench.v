(** The public field [Workspace::current_buffer] (workspace.rs:15) may be assigned
    at any time.  The specification of what becomes of the workspace then: the
    list of WorkspaceSpec.v, and where the field stands to it. *)
From Verif Require Import Base Utf8 Grapheme Position GapBuffer PathModel Buffer BufferCalls Token
  Workspace WorkspaceSpec.

(** A call, or an assignment to the field. *)
Inductive fcall := FCall (c : wcall) | FAssign (b : option buffer).

(** workspace.rs:15: [workspace.current_buffer = b]. *)
Definition fexec (brk : brk_rule) (al : allocator) (c : fcall) (w : workspace) (f : fsys)
  : res (wout * workspace * fsys) :=
  match c with
  | FCall c => wexec brk al c w f
  | FAssign b =>
    Ok (WUnit, WS (w_path w) (w_buffers w) (w_next_id w) b (w_index w) (w_syntaxes w), f)
  end.
Fixpoint frun (brk : brk_rule) (cs : list (allocator * fcall)) (w : workspace) (f : fsys)
  : res (list wout * workspace * fsys) :=
  match cs with
  | [] => Ok ([], w, f)
  | (al, c) :: cs' =>
    let* (o, w1, f1) := fexec brk al c w f in
    let* (os, w2, f2) := frun brk cs' w1 f1 in
    Ok (o :: os, w2, f2)
  end.
Definition fcall_ok (brk : brk_rule) (c : fcall) : Prop :=
  match c with
  | FCall c => wcall_ok brk c
  | FAssign (Some b) => exists f, reachable_buffer brk b f
  | FAssign None => True
  end.

(** The field holds the selected buffer of the list; or it was emptied, and a new
    buffer stands in the selected place; or nothing is selected and the field
    holds a buffer that is not in the list. *)
Inductive field := Kept | Taken | Stray (b : buffer).
Record bench := Bench { be_list : shelf; be_field : field }.
Definition field_value (t : bench) : option buffer :=
  match be_field t with
  | Kept => selected (be_list t)
  | Taken => None
  | Stray b => Some b
  end.
Definition a_new_buffer (b : buffer) : Prop := exists al, buffer_new al = Ok b.

(** Assigning to the field replaces the selected buffer, if there is one. *)
Definition assigned (t : bench) (b : option buffer) (t' : bench) : Prop :=
  match s_selected (be_list t), b with
  | None, None => t' = Bench (be_list t) Kept
  | None, Some b => t' = Bench (be_list t) (Stray b)
  | Some _, Some b => t' = Bench (replace_selected (be_list t) b) Kept
  | Some _, None =>
    exists blank, a_new_buffer blank /\ t' = Bench (replace_selected (be_list t) blank) Taken
  end.

(** Calls that need the selected buffer find none once it is taken; selecting
    ends that. *)
Definition after_taking (c : wcall) (o : wout) : field :=
  match c, o with
  | WAdd _, _ | WClose, _ | WNext, _ | WPrevious, _ => Kept
  | WOpen _, WResult (ROk _) => Kept
  | _, _ => Taken
  end.

(** One call or assignment.  There is no outcome (the call panics) in two cases. *)
Definition bench_step (brk : brk_rule) (al : allocator) (c : fcall) (t : bench) (f : fsys)
    (o : wout) (t' : bench) (f' : fsys) : Prop :=
  match c with
  | FAssign b => o = WUnit /\ f' = f /\ assigned t b t'
  | FCall c =>
    match be_field t with
    | Kept =>
      exists s, spec_wcall brk al c (be_list t) f = Ok (o, s, f') /\ t' = Bench s Kept
    | Taken =>
      match c with
      | WEdit _ => o = WEdited None /\ t' = t /\ f' = f
      | WSyntax => o = WResult (RErr EmptyWorkspace) /\ t' = t /\ f' = f
      | _ =>
        exists s, spec_wcall brk al c (be_list t) f = Ok (o, s, f') /\ t' = Bench s (after_taking c o)
      end
    | Stray b =>
      match c with
      | WAdd _ => False
      | WOpen p =>
        t' = t /\ f' = f /\
        match fs_canon f p with
        | Some cp => if has_path cp b then o = WResult (ROk tt)
                     else exists e, from_file al f p = Ok (RErr e) /\ o = WResult (RErr e)
        | None => exists e, from_file al f p = Ok (RErr e) /\ o = WResult (RErr e)
        end
      | WClose => o = WUnit /\ t' = Bench (be_list t) Kept /\ f' = f
      | WNext | WPrevious => o = WUnit /\ t' = t /\ f' = f
      | WEdit c =>
        exists r b', bexec brk al c b f = Ok (r, b', f') /\ o = WEdited (Some r) /\
          t' = Bench (be_list t) (Stray b')
      | WSyntax =>
        o = WResult (ROk tt) /\ f' = f /\
        t' = Bench (be_list t) (Stray (set_syntax b (Some (syntax_for (s_syntaxes (be_list t)) b))))
      | WSetPath _ | WSetSyntaxes _ | WDisk _ =>
        exists s, spec_wcall brk al c (be_list t) f = Ok (o, s, f') /\ t' = Bench s (Stray b)
      end
    end
  end.
Inductive bench_run (brk : brk_rule) : list (allocator * fcall) -> bench -> fsys -> list wout -> bench -> fsys -> Prop :=
| run_done t f : bench_run brk [] t f [] t f
| run_step al c cs t f o t1 f1 os t2 f2 : bench_step brk al c t f o t1 f1 ->
  bench_run brk cs t1 f1 os t2 f2 -> bench_run brk ((al, c) :: cs) t f (o :: os) t2 f2.

(** What can be seen of the workspace.  Its paths are those of the list (the new
    buffer that stands in for a taken one has none). *)
Definition bench_shows (w : workspace) (t : bench) : Prop :=
  let s := be_list t in
  w_path w = s_path s /\ w_syntaxes w = s_syntaxes s /\
  w_current w = field_value t /\ current_buffer_index w = s_selected s /\
  shown (s_path s) (match field_value t with Some b => b_path b | None => None end) (current_buffer_path w) /\
  Forall2 (shown (s_path s)) (map b_path (s_buffers s)) (buffer_paths w).

(** The two calls that panic, and when. *)
Definition strays (al : allocator) (w : workspace) (f : fsys) (c : fcall) : Prop :=
  current_buffer_index w = None /\
  exists b, w_current w = Some b /\
    ((exists b', c = FCall (WAdd b')) \/
     (exists p b', c = FCall (WOpen p) /\ from_file al f p = Ok (ROk b') /\ b_path b <> b_path b')).

(** A buffer is assigned only while one is selected. *)
Definition assigns_in_place (w : workspace) (c : fcall) : Prop :=
  match c with FAssign (Some _) => current_buffer_index w <> None | _ => True end.
