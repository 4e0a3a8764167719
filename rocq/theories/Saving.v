(** Saving step by step: what the operating system does for one [save], with room
    between the steps for a crash, for other programs, and for another [save]. *)
From Verif Require Import Base Utf8 PathModel Buffer.

(** How far a [save] of [data] to [p] is (mod.rs:180-196).  [Opening]: before
    [File::create] (lines 182-186).  [Writing q pos]: in [write_all] (line 189),
    with the file [q] open and [pos] bytes written.  [Saved q]: returned [Ok].
    [Failed None]: [File::create] failed; [Failed (Some q)]: [write_all] failed. *)
Inductive phase := Opening | Writing (q : path) (pos : nat) | Saved (q : path) | Failed (q : option path).

(** What the operating system answers: to [File::create], that the file is open or
    not; to a [write], that it took [n] bytes (which can be fewer than it was
    given), that it was interrupted, or that it failed.  In between, [Other f]:
    other programs leave the disk [f]. *)
Inductive happening := Created | Refused | Wrote (n : nat) | Interrupted | WriteError | Other (f : fsys).

(** The disk with [bs] in the file [q], whatever leads to it. *)
Definition holding (f : fsys) (q : path) (bs : list byte) : fsys :=
  FS (fs_target f) (fun x => if path_eqb x q then Some (Regular bs) else fs_node f x).
Definition held (f : fsys) (q : path) : list byte :=
  match fs_node f q with Some (Regular bs) => bs | _ => [] end.

(** Writing [chunk] at offset [pos] of a file that holds [bs]: a file that is too
    short (another program truncated it) is filled up with zeros. *)
Definition write_at (bs : list byte) (pos : nat) (chunk : list byte) : list byte :=
  firstn pos (bs ++ repeat 0%N pos) ++ chunk ++ skipn (pos + length chunk) bs.

(** [write_all] returns as soon as nothing is left to write. *)
Definition advance (data : list byte) (q : path) (pos : nat) : phase :=
  if pos <? length data then Writing q pos else Saved q.

(** One happening in a [save] of [data] to [p].  [File::create] truncates the file
    the path leads to, and cannot open what is not a file; [write_all] asks for the
    rest to be written, goes on when it is interrupted, and fails when nothing is
    taken.  Answers to questions that are not asked are ignored. *)
Definition save_step (p : path) (data : list byte) (e : happening) (s : phase * fsys) : phase * fsys :=
  let '(ph, f) := s in
  match e, ph with
  | Other f', _ => (ph, f')
  | Created, Opening =>
    match fs_target f p with
    | Some q => if fs_creatable f p then (advance data q 0, holding f q []) else (Failed None, f)
    | None => (Failed None, f)
    end
  | Refused, Opening => (Failed None, f)
  | Wrote n, Writing q pos =>
    let chunk := firstn n (skipn pos data) in
    match chunk with
    | [] => (Failed (Some q), f)
    | _ => (advance data q (pos + length chunk), holding f q (write_at (held f q) pos chunk))
    end
  | WriteError, Writing q _ => (Failed (Some q), f)
  | _, _ => s
  end.
Definition saving (p : path) (data : list byte) (es : list happening) (s : phase * fsys) : phase * fsys :=
  fold_left (fun s e => save_step p data e s) es s.

(** Two programs that save at the same time, one [a] to [p], the other [b] to
    [p']; [true]: something happens to the first. *)
Definition save_both (p p' : path) (a b : list byte) (e : bool * happening) (s : phase * phase * fsys) : phase * phase * fsys :=
  let '(ph, ph', f) := s in
  match e with
  | (true, e) => let '(ph, f) := save_step p a e (ph, f) in (ph, ph', f)
  | (false, e) => let '(ph', f) := save_step p' b e (ph', f) in (ph, ph', f)
  end.
Definition saving_both (p p' : path) (a b : list byte) (es : list (bool * happening)) (s : phase * phase * fsys) : phase * phase * fsys :=
  fold_left (fun s e => save_both p p' a b e s) es s.
