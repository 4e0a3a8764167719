(** Loading and saving step by step on disks where other programs replace files by
    renaming: a file that is open stays the same file when its name becomes that of
    another. *)
From Verif Require Import Base Utf8 PathModel Buffer HardLinks Saving Loading.

(** What is in a file. *)
Definition contents (h : hdisk) (i : N) : list byte := match hd_node h i with Regular bs => bs | Special => [] end.

(** Another program has written [bs] to a new file and now renames it to [q], as
    programs do which save without truncating.  The old file of this name, if any, is
    still there for those who have it open. *)
Definition hd_rename (h : hdisk) (q : path) (new : N) (bs : list byte) : hdisk :=
  HD (hd_target h) (fun x => if path_eqb x q then Some new else hd_file h x)
     (fun j => if N.eqb j new then Regular bs else hd_node h j).

(** ** Loads *)

(** How far a load is, as [lphase] in Loading.v ([fs::read_to_string], mod.rs:115 and
    mod.rs:416); the open file is known by its number. *)
Inductive iphase := IAsking | IReading (i : N) (got : list byte) | ILoaded (bs : list byte) | IUnread.

(** What happens, as [lhappening] in Loading.v; [IRenamed]: another program renames;
    [IChanged]: other programs do anything else. *)
Inductive ihappening := IOpened | INotOpened | ITook (n : nat) | IPaused | IReadError
  | IRenamed (q : path) (new : N) (bs : list byte) | IChanged (h : hdisk).

(** One happening in a load from [p]; as [load_step] in Loading.v. *)
Definition iload_step (p : path) (e : ihappening) (s : iphase * hdisk) : iphase * hdisk :=
  let '(ph, h) := s in
  match e, ph with
  | IRenamed q new bs, _ => (ph, hd_rename h q new bs)
  | IChanged h', _ => (ph, h')
  | IOpened, IAsking =>
    match file_of h p with
    | Some i => match hd_node h i with Regular _ => (IReading i [], h) | Special => (IUnread, h) end
    | None => (IUnread, h)
    end
  | INotOpened, IAsking => (IUnread, h)
  | ITook n, IReading i got =>
    match firstn (n + 1) (skipn (length got) (contents h i)) with
    | [] => (ILoaded got, h)
    | chunk => (IReading i (got ++ chunk), h)
    end
  | IReadError, IReading _ _ => (IUnread, h)
  | _, _ => s
  end.
Definition iloading (p : path) (es : list ihappening) (s : iphase * hdisk) : iphase * hdisk :=
  fold_left (fun s e => iload_step p e s) es s.
(** What [read_to_string] returns; [None]: it has not returned. *)
Definition iread_result (ph : iphase) : option (option text) :=
  match ph with
  | ILoaded bs => Some (decode_strict bs)
  | IUnread => Some None
  | _ => None
  end.

(** ** Saves *)

(** How far a [save] is, as [phase] in Saving.v (mod.rs:180-196). *)
Inductive sphase := SOpening | SWriting (i : N) (pos : nat) | SSaved (i : N) | SFailed (i : option N).

(** What happens, as [happening] in Saving.v; [SCreated new]: [File::create] opens the
    file, and makes it, as [new], if there is none. *)
Inductive shappening := SCreated (new : N) | SRefused | SWrote (n : nat) | SInterrupted | SWriteError
  | SRenamed (q : path) (new : N) (bs : list byte).

(** The disk with [bs] in the file [i]. *)
Definition hd_holding (h : hdisk) (i : N) (bs : list byte) : hdisk :=
  HD (hd_target h) (hd_file h) (fun j => if N.eqb j i then Regular bs else hd_node h j).
Definition sadvance (data : list byte) (i : N) (pos : nat) : sphase :=
  if pos <? length data then SWriting i pos else SSaved i.

(** One happening in a [save] of [data] to [p]; as [save_step] in Saving.v. *)
Definition isave_step (p : path) (data : list byte) (e : shappening) (s : sphase * hdisk) : sphase * hdisk :=
  let '(ph, h) := s in
  match e, ph with
  | SRenamed q new bs, _ => (ph, hd_rename h q new bs)
  | SCreated new, SOpening =>
    if fs_creatable (seen h) p
    then let h' := hd_write h p [] new in
         match file_of h' p with
         | Some i => (sadvance data i 0, h')
         | None => (SFailed None, h')
         end
    else (SFailed None, h)
  | SRefused, SOpening => (SFailed None, h)
  | SWrote n, SWriting i pos =>
    let chunk := firstn n (skipn pos data) in
    match chunk with
    | [] => (SFailed (Some i), h)
    | _ => (sadvance data i (pos + length chunk), hd_holding h i (write_at (contents h i) pos chunk))
    end
  | SWriteError, SWriting i _ => (SFailed (Some i), h)
  | _, _ => s
  end.
Definition isaving (p : path) (data : list byte) (es : list shappening) (s : sphase * hdisk) : sphase * hdisk :=
  fold_left (fun s e => isave_step p data e s) es s.
(** What [save] returns; [None]: it has not returned. *)
Definition ianswer (ph : sphase) : option (result unit) :=
  match ph with
  | SSaved _ => Some (ROk tt)
  | SFailed _ => Some (RErr IoError)
  | _ => None
  end.
