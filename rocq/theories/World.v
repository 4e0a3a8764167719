(** Programs with any number of buffers, cursors and storages on one heap.  Their
    change callbacks do anything that can be done through handles on storages, and
    they may keep a borrow of a storage for as long as they like.  The functions
    are those of Shared.v. *)
From Verif Require Import Base Utf8 Grapheme Position GapBuffer Cursor PathModel Buffer
  Spec Calls CursorSpec CursorCalls BufferCalls Shared.

(** A change callback ([Box<dyn Fn(Position)>], mod.rs:55): calls on storages of
    which it captured handles, each of which may depend on the results of those
    before it, and in the end a note. *)
Inductive script :=
| Note (t : text)
| Use (al : allocator) (r : ref) (c : gcall) (k : gout -> script).

(** The closures of a program, by number: what each does at a position, given what
    it noted at its earlier calls. *)
Definition closures := nat -> position -> list (position * text) -> script.

(** The program: its buffers, its cursors (clones of theirs, or its own), the
    borrows it keeps ([true] if mutable), the heap and the disk.
    Simplification: nothing is dropped. *)
Record world := World {
  wo_buffers : list rbuffer;
  wo_cursors : list rcursor;
  wo_guards : list (ref * bool);
  wo_heap : heap;
  wo_disk : fsys }.

Inductive ncall :=
| NNew                                (* buffers.push(Buffer::new()) *)
| NOpen (p : path)                    (* buffers.push(Buffer::from_file(p)?) *)
| NBuffer (i : nat) (c : bcall)       (* a call on buffers[i] *)
| NText (i : nat)                     (* buffers[i].data() *)
| NRead (i : nat) (p q : position)    (* buffers[i].read(&Range::new(p, q)) *)
| NCallback (i n : nat)               (* buffers[i].change_callback = Some(closure n) *)
| NClone (i : nat)                    (* cursors.push(buffers[i].cursor.clone()) *)
| NAssign (i k : nat)                 (* buffers[i].cursor = cursors[k].clone() *)
| NStorage (t : text) (p : position)  (* cursors.push(Cursor::new(Rc::new(RefCell::new(GapBuffer::new(t))), p)) *)
| NMove (k : nat) (m : cmove)         (* cursors[k].move_...() *)
| NPlace (k : nat) (p : position)     (* cursors[k].position = p *)
| NData (k j : nat)                   (* cursors[k].data = cursors[j].data.clone() *)
| NGap (k : nat) (c : gcall)          (* cursors[k].data.borrow().read(..), ..borrow_mut().insert(..) *)
| NHold (k : nat) (m : bool)          (* guards.push(cursors[k].data.borrow()), or borrow_mut() *)
| NRelease (n : nat)                  (* drop(guards.remove(n)) *)
| NDisk (f : fsys).                   (* the disk changes *)

Inductive nout := UUnit | UOpened (r : result unit) | UBuffer (o : bout) | UText (t : text)
  | URead (t : option text) | UStorage (o : gout).

Definition put_at {A} (l : list A) (i : nat) (x : A) : list A := firstn i l ++ x :: skipn (S i) l.
Definition without {A} (l : list A) (i : nat) : list A := firstn i l ++ skipn (S i) l.

Section Worlds.
Variable brk : brk_rule.
Variable code : closures.

Fixpoint run_script (s : script) : M text :=
  match s with
  | Note t => ret t
  | Use al r c k => let! o := pstorage brk al c r in run_script (k o)
  end.
Definition told (n : nat) (p : position) (log : list (position * text)) : M text := run_script (code n p log).

(** The end of a kept borrow.  Simplification: a kept mutable borrow leaves the
    text as it is; a call through it is written as its end, [NGap], and a new one. *)
Definition release (g : ref * bool) : M unit :=
  if snd g then fun h => match nth_error h (fst g) with
                         | Some c => end_borrow_mut (fst g) (c_gap c) h
                         | None => Panic
                         end
  else end_borrow (fst g).
Definition hold (g : ref * bool) : M unit :=
  let! _ := (if snd g then borrow_mut (fst g) else borrow (fst g)) in ret tt.

(** One call; using what is not there does nothing. *)
Definition nexec (al : allocator) (c : ncall) (w : world) : res (nout * world) :=
  let '(World bs ks gs h f) := w in
  match c with
  | NNew => let* (b, h') := rbuffer_new al h in Ok (UUnit, World (bs ++ [b]) ks gs h' f)
  | NOpen p =>
    let* (r, h') := rfrom_file al f p h in
    Ok match r with
       | RErr e => (UOpened (RErr e), World bs ks gs h' f)
       | ROk b => (UOpened (ROk tt), World (bs ++ [b]) ks gs h' f)
       end
  | NBuffer i c =>
    match nth_error bs i with
    | None => Ok (UUnit, w)
    | Some b =>
      let* (o, b', f', h') := pbuffer brk told al c b f h in
      Ok (UBuffer o, World (put_at bs i b') ks gs h' f')
    end
  | NText i =>
    match nth_error bs i with
    | None => Ok (UUnit, w)
    | Some b => let* (t, h') := rdata b h in Ok (UText t, World bs ks gs h' f)
    end
  | NRead i p q =>
    match nth_error bs i with
    | None => Ok (UUnit, w)
    | Some b => let* (t, h') := rread brk b (range_new p q) h in Ok (URead t, World bs ks gs h' f)
    end
  | NCallback i n =>
    match nth_error bs i with
    | None => Ok (UUnit, w)
    | Some b => Ok (UUnit, World (put_at bs i (rset_callback b (Some n))) ks gs h f)
    end
  | NClone i =>
    match nth_error bs i with
    | None => Ok (UUnit, w)
    | Some b => Ok (UUnit, World bs (ks ++ [rb_cursor b]) gs h f)
    end
  | NAssign i k =>
    match nth_error bs i, nth_error ks k with
    | Some b, Some x => Ok (UUnit, World (put_at bs i (rset_cursor b x)) ks gs h f)
    | _, _ => Ok (UUnit, w)
    end
  | NStorage t p =>
    let* g := gb_new al t in
    let* (r, h') := new_cell g h in
    Ok (UUnit, World bs (ks ++ [rcursor_new r p]) gs h' f)
  | NMove k m =>
    match nth_error ks k with
    | None => Ok (UUnit, w)
    | Some x => let* (x', h') := rmove brk m x h in Ok (UUnit, World bs (put_at ks k x') gs h' f)
    end
  | NPlace k p =>
    match nth_error ks k with
    | None => Ok (UUnit, w)
    | Some x => Ok (UUnit, World bs (put_at ks k (RCur (rc_data x) (Cur p (c_sticky (rc_at x))))) gs h f)
    end
  | NData k j =>
    match nth_error ks k, nth_error ks j with
    | Some x, Some y => Ok (UUnit, World bs (put_at ks k (RCur (rc_data y) (rc_at x))) gs h f)
    | _, _ => Ok (UUnit, w)
    end
  | NGap k c =>
    match nth_error ks k with
    | None => Ok (UUnit, w)
    | Some x => let* (o, h') := pstorage brk al c (rc_data x) h in Ok (UStorage o, World bs ks gs h' f)
    end
  | NHold k m =>
    match nth_error ks k with
    | None => Ok (UUnit, w)
    | Some x => let* (_, h') := hold (rc_data x, m) h in Ok (UUnit, World bs ks (gs ++ [(rc_data x, m)]) h' f)
    end
  | NRelease n =>
    match nth_error gs n with
    | None => Ok (UUnit, w)
    | Some g => let* (_, h') := release g h in Ok (UUnit, World bs ks (without gs n) h' f)
    end
  | NDisk f' => Ok (UUnit, World bs ks gs h f')
  end.
Fixpoint nrun (cs : list (allocator * ncall)) (w : world) : res (list nout * world) :=
  match cs with
  | [] => Ok ([], w)
  | (al, c) :: cs' =>
    let* (o, w1) := nexec al c w in
    let* (os, w2) := nrun cs' w1 in
    Ok (o :: os, w2)
  end.
End Worlds.
