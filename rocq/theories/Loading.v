(** Loading step by step: what the operating system does for one
    [fs::read_to_string], with room between the steps for other programs and for a
    [save]. *)
From Verif Require Import Base Utf8 Grapheme GapBuffer Position Cursor PathModel Buffer Saving.

(** How far a load from a path is ([fs::read_to_string], mod.rs:115 in [from_file]
    and mod.rs:416 in [reload]).  [Asking]: before the file is opened.  [Reading q
    got]: the file [q] is open and [got] has been read from it.  [Loaded bs]: the end
    of the file was met.  [Unread]: the file could not be opened or read. *)
Inductive lphase := Asking | Reading (q : path) (got : list byte) | Loaded (bs : list byte) | Unread.

(** What the operating system answers: to opening, that the file is open or not; to
    a [read], at most [n + 1] bytes (the room to read into is never empty), that it
    was interrupted, or that it failed.  In between, [Elsewhere f]: other programs
    leave the disk [f]. *)
Inductive lhappening := Opened | NotOpened | Took (n : nat) | Paused | ReadError | Elsewhere (f : fsys).

(** One happening in a load from [p].  [read_to_string] goes on when it is
    interrupted, and is done when a [read] returns no bytes.  Simplified: a
    directory cannot be opened (in fact it can, but not read, which ends the same
    way); other programs write files in place (one that is replaced by renaming
    stays as it was for a reader that has it open). *)
Definition load_step (p : path) (e : lhappening) (s : lphase * fsys) : lphase * fsys :=
  let '(ph, f) := s in
  match e, ph with
  | Elsewhere f', _ => (ph, f')
  | Opened, Asking =>
    match fs_target f p with
    | Some q => match fs_node f q with Some (Regular _) => (Reading q [], f) | _ => (Unread, f) end
    | None => (Unread, f)
    end
  | NotOpened, Asking => (Unread, f)
  | Took n, Reading q got =>
    match firstn (n + 1) (skipn (length got) (held f q)) with
    | [] => (Loaded got, f)
    | chunk => (Reading q (got ++ chunk), f)
    end
  | ReadError, Reading _ _ => (Unread, f)
  | _, _ => s
  end.
Definition loading (p : path) (es : list lhappening) (s : lphase * fsys) : lphase * fsys :=
  fold_left (fun s e => load_step p e s) es s.

(** What [read_to_string] returns; [None]: it has not returned.  The bytes are
    checked when all of them are there. *)
Definition read_result (ph : lphase) : option (option text) :=
  match ph with
  | Loaded bs => Some (decode_strict bs)
  | Unread => Some None
  | _ => None
  end.

(** [Buffer::from_file], mod.rs:113-137, given what [read_to_string] returned and
    the disk that [canonicalize] sees. *)
Definition from_file_given (al : allocator) (content : option text) (f : fsys) (p : path) : res (result buffer) :=
  match content with
  | None => Ok (RErr IoError)
  | Some content =>
    let* g := gb_new al content in
    match fs_canon f p with
    | None => Ok (RErr IoError)
    | Some cp =>
      Ok (ROk (Buf None g (Some cp) (cursor_new (Pos 0 0)) (hist_mark hist_new)
                   None None false []))
    end
  end.
(** [Buffer::reload], mod.rs:413-425, likewise. *)
Definition reload_given (brk : brk_rule) (al : allocator) (content : option text) (b : buffer)
  : res (result unit * buffer) :=
  match b_path b with
  | None => Ok (RErr MissingPath, b)
  | Some p =>
    match content with
    | None => Ok (RErr IoError, b)
    | Some content =>
      let* b' := buf_replace brk al b content in
      Ok (ROk tt, set_history b' (hist_mark (b_history b')))
    end
  end.

(** One program loads from [p] while another saves [data] to [p']; [inl]: something
    happens to the load. *)
Definition load_save (p p' : path) (data : list byte) (e : lhappening + happening) (s : lphase * phase * fsys)
  : lphase * phase * fsys :=
  let '(lph, ph, f) := s in
  match e with
  | inl e => let '(lph, f) := load_step p e (lph, f) in (lph, ph, f)
  | inr e => let '(ph, f) := save_step p' data e (ph, f) in (lph, ph, f)
  end.
Definition loading_saving (p p' : path) (data : list byte) (es : list (lhappening + happening)) (s : lphase * phase * fsys)
  : lphase * phase * fsys :=
  fold_left (fun s e => load_save p p' data e s) es s.
