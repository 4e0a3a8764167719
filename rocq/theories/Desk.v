(** Programs with a workspace whose buffers keep their texts in shared storages:
    src/workspace.rs over the buffers of Shared.v.  Workspace.v models the same
    functions with buffers as plain values; DeskProofs.v relates the two. *)
From Verif Require Import Base Utf8 Grapheme Position GapBuffer Cursor PathModel Buffer
  Spec Calls CursorSpec CursorCalls BufferCalls Token Workspace Shared World.

(** workspace.rs:11-18. *)
Record rworkspace := RWS {
  rw_path : path;
  rw_buffers : list rbuffer;
  rw_next_id : nat;
  rw_current : option rbuffer;
  rw_index : option nat;
  rw_syntaxes : syntax_set }.

(** [Workspace::new], workspace.rs:22-42, as in Workspace.v. *)
Definition rws_new (f : fsys) (p : path) (syntaxes : option syntax_set) : result rworkspace :=
  match syntaxes with
  | None => RErr IoError
  | Some ss =>
    match fs_canon f p with
    | None => RErr IoError
    | Some cp => ROk (RWS cp [] 0 None None ss)
    end
  end.

(** [select_buffer], workspace.rs:447-466. *)
Definition rselect_buffer (al : allocator) (w : rworkspace) (index : nat) : M (bool * rworkspace) :=
  (* check in *)
  let! w1 :=
    match rw_current w with
    | Some current =>
      match rw_index w with
      | None => lift Panic
      | Some i =>
        let! slot := lift (get (rw_buffers w) i) in
        let! bs := lift (upd (rw_buffers w) i current) in
        ret (RWS (rw_path w) bs (rw_next_id w) (Some slot) (rw_index w) (rw_syntaxes w))
      end
    | None => ret w
    end in
  (* check out *)
  match nth_error (rw_buffers w1) index with
  | Some target =>
    let! blank := rbuffer_new al in
    let! bs := lift (upd (rw_buffers w1) index blank) in
    ret (true, RWS (rw_path w1) bs (rw_next_id w1) (Some target) (Some index) (rw_syntaxes w1))
  | None => ret (false, w1)
  end.

(** [Buffer::file_name], mod.rs:211-216, and [Buffer::file_extension], 446-456. *)
Definition rfile_name (b : rbuffer) : option text :=
  match rb_path b with
  | Some p => match path_file_name p with Some n => decode_strict n | None => None end
  | None => None
  end.
Definition rfile_extension (b : rbuffer) : option text :=
  match rb_path b with
  | Some p => match path_extension p with
              | Some (x :: e) => Some (decode_lossy (x :: e))
              | Some [] => None
              | None => None
              end
  | None => None
  end.

(** [update_current_syntax], workspace.rs:431-445. *)
Definition rupdate_syntax (w : rworkspace) : result unit * rworkspace :=
  match rw_current w with
  | None => (RErr EmptyWorkspace, w)
  | Some b =>
    let name := match rfile_extension b with Some e => Some e | None => rfile_name b end in
    let found := match name with Some ex => ss_find (rw_syntaxes w) ex | None => None end in
    let definition := match found with
                      | Some s => Some s
                      | None => Some (ss_plain (rw_syntaxes w))
                      end in
    (ROk tt, RWS (rw_path w) (rw_buffers w) (rw_next_id w) (Some (rset_syntax b definition))
                 (rw_index w) (rw_syntaxes w))
  end.

(** [add_buffer], workspace.rs:66-86. *)
Definition radd_buffer (al : allocator) (w : rworkspace) (buf : rbuffer) : M rworkspace :=
  let buf := rset_id buf (Some (rw_next_id w)) in
  let target_index := match rw_index w with Some i => i + 1 | None => 0 end in
  let! bs := lift (vec_insert (rw_buffers w) target_index buf) in
  let! (_, w2) := rselect_buffer al
      (RWS (rw_path w) bs (rw_next_id w + 1) (rw_current w) (rw_index w) (rw_syntaxes w))
      target_index in
  match rw_current w2 with
  | Some b => match rb_syntax b with
              | None => ret (snd (rupdate_syntax w2))
              | Some _ => ret w2
              end
  | None => ret w2
  end.

(** [select_buffer_by_path], workspace.rs:468-489. *)
Definition rselect_by_path (al : allocator) (f : fsys) (w : rworkspace) (p : path) : M (bool * rworkspace) :=
  match fs_canon f p with
  | Some cp =>
    if path_is (match rw_current w with Some b => rb_path b | None => None end) cp
    then ret (true, w)
    else match find_index (fun b => path_is (rb_path b) cp) (rw_buffers w) with
         | Some index => rselect_buffer al w index
         | None => ret (false, w)
         end
  | None => ret (false, w)
  end.

(** [open_buffer], workspace.rs:111-120. *)
Definition ropen_buffer (al : allocator) (f : fsys) (w : rworkspace) (p : path) : M (result unit * rworkspace) :=
  let! (found, w1) := rselect_by_path al f w p in
  if (found : bool) then ret (ROk tt, w1)
  else
    let! r := rfrom_file al f p in
    match r with
    | RErr e => ret (RErr e, w1)
    | ROk b => let! w2 := radd_buffer al w1 b in ret (ROk tt, w2)
    end.

(** [close_current_buffer], workspace.rs:214-226. *)
Definition rclose_current (al : allocator) (w : rworkspace) : M rworkspace :=
  match rw_index w with
  | Some index =>
    let! bs := lift (vec_remove (rw_buffers w) index) in
    match bs with
    | [] => ret (RWS (rw_path w) bs (rw_next_id w) None None (rw_syntaxes w))
    | _ =>
      let! (_, w2) := rselect_buffer al
          (RWS (rw_path w) bs (rw_next_id w) None (rw_index w) (rw_syntaxes w)) (index - 1) in
      ret w2
    end
  | None => ret (RWS (rw_path w) (rw_buffers w) (rw_next_id w) None (rw_index w) (rw_syntaxes w))
  end.

(** [previous_buffer], workspace.rs:253-261. *)
Definition rprevious_buffer (al : allocator) (w : rworkspace) : M rworkspace :=
  match rw_index w with
  | Some index =>
    if 0 <? index then
      let! (_, w') := rselect_buffer al w (index - 1) in ret w'
    else
      let! last := lift (usub (length (rw_buffers w)) 1) in
      let! (_, w') := rselect_buffer al w last in ret w'
  | None => ret w
  end.

(** [next_buffer], workspace.rs:288-296. *)
Definition rnext_buffer (al : allocator) (w : rworkspace) : M rworkspace :=
  match rw_index w with
  | Some index =>
    let! last := lift (usub (length (rw_buffers w)) 1) in
    if index =? last then
      let! (_, w') := rselect_buffer al w 0 in ret w'
    else
      let! (_, w') := rselect_buffer al w (index + 1) in ret w'
  | None => ret w
  end.

(** [current_buffer_tokens], workspace.rs:330-342. *)
Definition rcurrent_tokens (w : rworkspace) : M (result token_set) :=
  match rw_current w with
  | None => ret (RErr EmptyWorkspace)
  | Some b =>
    let! data := rdata b in
    match rb_syntax b with
    | None => ret (RErr MissingSyntax)
    | Some s => ret (ROk (TS data s))
    end
  end.

(** The program: what World.v has, and a workspace. *)
Record desk := Desk { d_world : world; d_ws : rworkspace }.

Inductive dcall :=
| DWorld (c : ncall)                  (* on the buffers and cursors of its own *)
| DAdd (i : nat)                      (* workspace.add_buffer(buffers.remove(i)) *)
| DOpen (p : path) | DClose | DNext | DPrevious | DSyntax | DTokens
| DSetPath (p : path) | DSetSyntaxes (ss : syntax_set)
(* on workspace.current_buffer, if there is one: *)
| DBuffer (c : bcall)
| DCallback (n : nat)                 (* .change_callback = Some(closure n) *)
| DClone                              (* cursors.push(.cursor.clone()) *)
| DAssign (k : nat)                   (* .cursor = cursors[k].clone() *)
| DDrop (i : nat)                     (* drop(buffers.remove(i)) *)
| DForget (k : nat).                  (* drop(cursors.remove(k)) *)

Inductive dout := VUnit | VWorld (o : nout) | VResult (r : result unit) | VTokens (r : result token_set).

Section Desks.
Variable brk : brk_rule.
Variable code : closures.

(** One call; using what is not there does nothing.  Simplification: the field
    [current_buffer] is neither taken nor assigned (Bench.v has that). *)
Definition dexec (al : allocator) (c : dcall) (s : desk) : res (dout * desk) :=
  let '(Desk w ws) := s in
  let '(World bs ks gs h f) := w in
  let on (b : option rbuffer) :=
    RWS (rw_path ws) (rw_buffers ws) (rw_next_id ws) b (rw_index ws) (rw_syntaxes ws) in
  match c with
  | DWorld c => let* (o, w') := nexec brk code al c w in Ok (VWorld o, Desk w' ws)
  | DAdd i =>
    match nth_error bs i with
    | None => Ok (VUnit, s)
    | Some b =>
      let* (ws', h') := radd_buffer al ws b h in
      Ok (VUnit, Desk (World (without bs i) ks gs h' f) ws')
    end
  | DOpen p =>
    let* (r, ws', h') := ropen_buffer al f ws p h in
    Ok (VResult r, Desk (World bs ks gs h' f) ws')
  | DClose => let* (ws', h') := rclose_current al ws h in Ok (VUnit, Desk (World bs ks gs h' f) ws')
  | DNext => let* (ws', h') := rnext_buffer al ws h in Ok (VUnit, Desk (World bs ks gs h' f) ws')
  | DPrevious => let* (ws', h') := rprevious_buffer al ws h in Ok (VUnit, Desk (World bs ks gs h' f) ws')
  | DSyntax => let '(r, ws') := rupdate_syntax ws in Ok (VResult r, Desk w ws')
  | DTokens => let* (r, h') := rcurrent_tokens ws h in Ok (VTokens r, Desk (World bs ks gs h' f) ws)
  | DSetPath p => Ok (VUnit, Desk w (RWS p (rw_buffers ws) (rw_next_id ws) (rw_current ws) (rw_index ws) (rw_syntaxes ws)))
  | DSetSyntaxes ss => Ok (VUnit, Desk w (RWS (rw_path ws) (rw_buffers ws) (rw_next_id ws) (rw_current ws) (rw_index ws) ss))
  | DBuffer c =>
    match rw_current ws with
    | None => Ok (VUnit, s)
    | Some b =>
      let* (o, b', f', h') := pbuffer brk (told brk code) al c b f h in
      Ok (VWorld (UBuffer o), Desk (World bs ks gs h' f') (on (Some b')))
    end
  | DCallback n =>
    match rw_current ws with
    | None => Ok (VUnit, s)
    | Some b => Ok (VUnit, Desk w (on (Some (rset_callback b (Some n)))))
    end
  | DClone =>
    match rw_current ws with
    | None => Ok (VUnit, s)
    | Some b => Ok (VUnit, Desk (World bs (ks ++ [rb_cursor b]) gs h f) ws)
    end
  | DAssign k =>
    match rw_current ws, nth_error ks k with
    | Some b, Some x => Ok (VUnit, Desk w (on (Some (rset_cursor b x))))
    | _, _ => Ok (VUnit, s)
    end
  | DDrop i => Ok (VUnit, Desk (World (without bs i) ks gs h f) ws)
  | DForget k => Ok (VUnit, Desk (World bs (without ks k) gs h f) ws)
  end.
Fixpoint drun (cs : list (allocator * dcall)) (s : desk) : res (list dout * desk) :=
  match cs with
  | [] => Ok ([], s)
  | (al, c) :: cs' =>
    let* (o, s1) := dexec al c s in
    let* (os, s2) := drun cs' s1 in
    Ok (o :: os, s2)
  end.
End Desks.
