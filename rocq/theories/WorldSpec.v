(** What is said about programs with many buffers. *)
From Verif Require Import Base Utf8 Grapheme Position GapBuffer Cursor PathModel Buffer
  Spec Calls CursorSpec CursorCalls BufferCalls Shared SharedSpec World.

(** ** Closures *)

(** The storages a closure may use, and those it may change. *)
Definition changes (c : gcall) : Prop := match c with GInsert _ _ | GDelete _ _ => True | _ => False end.
Inductive uses : script -> ref -> Prop :=
| uses_now al r c k : uses (Use al r c k) r
| uses_later al r c k o r' : uses (k o) r' -> uses (Use al r c k) r'.
Inductive writes : script -> ref -> Prop :=
| writes_now al r c k : changes c -> writes (Use al r c k) r
| writes_later al r c k o r' : writes (k o) r' -> writes (Use al r c k) r'.
Definition closure_uses (code : closures) (n : nat) (r : ref) : Prop := exists p log, uses (code n p log) r.
Definition closure_writes (code : closures) (n : nat) (r : ref) : Prop := exists p log, writes (code n p log) r.

(** Rust strings are valid text, and allocations give what was asked for. *)
Definition gcall_ok (c : gcall) : Prop := match c with GInsert d _ => valid_text d | _ => True end.
Inductive script_ok : script -> Prop :=
| note_ok t : script_ok (Note t)
| use_ok al r c k : alloc_ok al -> gcall_ok c -> (forall o, script_ok (k o)) -> script_ok (Use al r c k).
Definition closures_ok (code : closures) : Prop := forall n p log, script_ok (code n p log).

(** A closure can only have captured handles on storages that exist when it is
    installed.  (It is installed by [NCallback], not by [BSetCallback true].) *)
Definition ncall_ok (code : closures) (w : world) (c : ncall) : Prop :=
  match c with
  | NBuffer _ (BSetCallback true) => False
  | NBuffer _ c => call_ok c
  | NCallback _ n => forall r, closure_uses code n r -> r < length (wo_heap w)
  | NStorage t _ => valid_text t
  | NGap _ c => gcall_ok c
  | _ => True
  end.

(** Sessions: calls from the start, what they returned, and the world they led to.
    [Q] restricts the calls. *)
Inductive world_session (brk : brk_rule) (code : closures) (Q : ncall -> Prop) (f : fsys)
  : list (allocator * ncall) -> list nout -> world -> Prop :=
| world_start : world_session brk code Q f [] [] (World [] [] [] [] f)
| world_call cs os w al c o w' : world_session brk code Q f cs os w ->
    alloc_ok al -> ncall_ok code w c -> Q c -> nexec brk code al c w = Ok (o, w') ->
    world_session brk code Q f (cs ++ [(al, c)]) (os ++ [o]) w'.
Definition reached (brk : brk_rule) (code : closures) (w : world) : Prop :=
  exists f cs os, world_session brk code (fun _ => True) f cs os w.

(** ** Borrows *)

(** A borrow of the storage is kept by the program. *)
Definition guarded (w : world) (r : ref) : Prop := exists m, In (r, m) (wo_guards w).

(** The storages a call may have to borrow. *)
Definition call_needs (code : closures) (b : rbuffer) (c : bcall) (r : ref) : Prop :=
  match c with
  | BInsert _ | BDelete | BDeleteRange _ _ | BReplace _ | BUndo | BRedo | BReload =>
    r = rb_data b \/ exists n, rb_callback b = Some n /\ closure_uses code n r
  | BSave _ => r = rb_data b
  | BMove _ => r = rc_data (rb_cursor b)
  | _ => False
  end.
Definition needs (code : closures) (w : world) (c : ncall) (r : ref) : Prop :=
  match c with
  | NBuffer i c => exists b, nth_error (wo_buffers w) i = Some b /\ call_needs code b c r
  | NText i | NRead i _ _ => exists b, nth_error (wo_buffers w) i = Some b /\ r = rb_data b
  | NMove k _ | NGap k _ | NHold k _ => exists x, nth_error (wo_cursors w) k = Some x /\ r = rc_data x
  | _ => False
  end.

(** The one storage that certain calls borrow, and whether they change it. *)
Inductive borrows (w : world) : ncall -> ref -> bool -> Prop :=
| borrows_insert i b d : nth_error (wo_buffers w) i = Some b -> rb_callback b = None ->
    borrows w (NBuffer i (BInsert d)) (rb_data b) true
| borrows_delete i b : nth_error (wo_buffers w) i = Some b -> rb_callback b = None ->
    borrows w (NBuffer i BDelete) (rb_data b) true
| borrows_range i b p q : nth_error (wo_buffers w) i = Some b -> rb_callback b = None ->
    borrows w (NBuffer i (BDeleteRange p q)) (rb_data b) true
| borrows_text i b : nth_error (wo_buffers w) i = Some b -> borrows w (NText i) (rb_data b) false
| borrows_read i b p q : nth_error (wo_buffers w) i = Some b -> borrows w (NRead i p q) (rb_data b) false
| borrows_move_to k x p : nth_error (wo_cursors w) k = Some x -> borrows w (NMove k (MTo p)) (rc_data x) false
| borrows_write k x c : nth_error (wo_cursors w) k = Some x -> changes c -> borrows w (NGap k c) (rc_data x) true
| borrows_look k x c : nth_error (wo_cursors w) k = Some x -> ~ changes c -> borrows w (NGap k c) (rc_data x) false
| borrows_hold k x m : nth_error (wo_cursors w) k = Some x -> borrows w (NHold k m) (rc_data x) m.
(** What is kept does not allow it. *)
Definition conflict (w : world) (r : ref) (m : bool) : Prop :=
  In (r, true) (wo_guards w) \/ (m = true /\ guarded w r).

(** ** Buffers *)

(** A buffer as Buffer.v has it. *)
Definition view (w : world) (i : nat) : option buffer :=
  match nth_error (wo_buffers w) i with Some b => seen (wo_heap w) b | None => None end.

(** The calls that are about the buffer [j]: those on it, writes to its storage
    through a handle, and calls whose callback writes there. *)
Definition concerns (code : closures) (w : world) (c : ncall) (j : nat) : Prop :=
  match c with
  | NBuffer i _ => i = j \/ exists b n b', nth_error (wo_buffers w) i = Some b /\ rb_callback b = Some n /\
      nth_error (wo_buffers w) j = Some b' /\ closure_writes code n (rb_data b')
  | NCallback i _ | NAssign i _ => i = j
  | NGap k c => changes c /\ exists x b, nth_error (wo_cursors w) k = Some x /\
      nth_error (wo_buffers w) j = Some b /\ rc_data x = rb_data b
  | _ => False
  end.

(** ** Values *)

(** Closures that only look. *)
Definition only_look (code : closures) : Prop := forall n r, ~ closure_writes code n r.
(** Calls that neither assign the cursor of a buffer, nor write a storage behind
    its back, nor keep a borrow. *)
Definition plain (c : ncall) : Prop :=
  match c with
  | NAssign _ _ | NHold _ _ => False
  | NGap _ c => ~ changes c
  | _ => True
  end.

(** The same calls on a list of buffers as Buffer.v has them. *)
Definition vexec (brk : brk_rule) (al : allocator) (c : ncall) (bs : list buffer) (f : fsys)
  : res (nout * list buffer * fsys) :=
  match c with
  | NNew => let* b := buffer_new al in Ok (UUnit, bs ++ [b], f)
  | NOpen p =>
    let* r := from_file al f p in
    Ok match r with
       | RErr e => (UOpened (RErr e), bs, f)
       | ROk b => (UOpened (ROk tt), bs ++ [b], f)
       end
  | NBuffer i c =>
    match nth_error bs i with
    | None => Ok (UUnit, bs, f)
    | Some b => let* (o, b', f') := bexec brk al c b f in Ok (UBuffer o, put_at bs i b', f')
    end
  | NText i =>
    match nth_error bs i with
    | None => Ok (UUnit, bs, f)
    | Some b => let* t := buf_data b in Ok (UText t, bs, f)
    end
  | NRead i p q =>
    match nth_error bs i with
    | None => Ok (UUnit, bs, f)
    | Some b => let* t := buf_read brk b (range_new p q) in Ok (URead t, bs, f)
    end
  | NCallback i _ =>
    match nth_error bs i with
    | None => Ok (UUnit, bs, f)
    | Some b => Ok (UUnit, put_at bs i (set_callback b true), f)
    end
  | NDisk f' => Ok (UUnit, bs, f')
  | _ => Ok (UUnit, bs, f)
  end.
Fixpoint vrun (brk : brk_rule) (cs : list (allocator * ncall)) (bs : list buffer) (f : fsys)
  : res (list nout * list buffer * fsys) :=
  match cs with
  | [] => Ok ([], bs, f)
  | (al, c) :: cs' =>
    let* (o, bs1, f1) := vexec brk al c bs f in
    let* (os, bs2, f2) := vrun brk cs' bs1 f1 in
    Ok (o :: os, bs2, f2)
  end.
(** What the calls on buffers returned. *)
Definition from_buffers (o : nout) : nout := match o with UStorage _ => UUnit | _ => o end.
