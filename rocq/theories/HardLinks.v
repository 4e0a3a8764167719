(** Hard links: disks on which one file has several names, and sessions there. *)
From Verif Require Import Base Utf8 Grapheme Position GapBuffer PathModel Buffer BufferCalls Token Workspace WorkspaceSpec.

(** A disk: where paths lead (as in [fsys]), which file a name is of, if any, and
    what is in the files.  Several names can be of one file.  [canonicalize]
    resolves symbolic links and relative names, not hard links. *)
Record hdisk := HD {
  hd_target : path -> option path;
  hd_file : path -> option N;
  hd_node : N -> node }.

(** The disk as someone sees it who only looks at names. *)
Definition seen (h : hdisk) : fsys :=
  FS (hd_target h) (fun q => match hd_file h q with Some i => Some (hd_node h i) | None => None end).

(** The file that a path leads to. *)
Definition file_of (h : hdisk) (p : path) : option N :=
  match hd_target h p with Some q => hd_file h q | None => None end.

(** [File::create] and writing: the file of the name is truncated and written in
    place; if the name is of no file, a new file ([new]) gets the name. *)
Definition hd_write (h : hdisk) (p : path) (bs : list byte) (new : N) : hdisk :=
  match hd_target h p with
  | None => h
  | Some q =>
    match hd_file h q with
    | Some i => HD (hd_target h) (hd_file h) (fun j => if N.eqb j i then Regular bs else hd_node h j)
    | None => HD (hd_target h) (fun x => if path_eqb x q then Some new else hd_file h x)
                 (fun j => if N.eqb j new then Regular bs else hd_node h j)
    end
  end.

(** [Buffer::save], mod.rs:180-196, once more, on such a disk. *)
Definition hard_save (h : hdisk) (w : write_outcome) (new : N) (b : buffer) : res (result unit * buffer * hdisk) :=
  match b_path b with
  | None => Ok (RErr IoError, b, h)
  | Some p =>
    match outcome (seen h) p w with
    | CreateFails => Ok (RErr IoError, b, h)
    | WriteFails k =>
      let* data := buf_data b in
      Ok (RErr IoError, b, hd_write h p (firstn k (enc data)) new)
    | WriteSucceeds =>
      let* data := buf_data b in
      Ok (ROk tt, set_history b (hist_mark (b_history b)), hd_write h p (enc data) new)
    end
  end.

(** Sessions on a workspace: calls that do not write to the disk and so see only
    names; saves of the current buffer; and others, who change the disk. *)
Inductive hcall := HCall (c : wcall) | HSave (w : write_outcome) (new : N) | HDisk (h : hdisk).
Definition hexec (brk : brk_rule) (al : allocator) (c : hcall) (w : workspace) (h : hdisk)
  : res (wout * workspace * hdisk) :=
  match c with
  | HCall c => let* (o, w', _) := wexec brk al c w (seen h) in Ok (o, w', h)
  | HSave wr new =>
    match w_current w with
    | None => Ok (WEdited None, w, h)
    | Some b =>
      let* (r, b', h') := hard_save h wr new b in
      Ok (WEdited (Some (BResult r)),
          WS (w_path w) (w_buffers w) (w_next_id w) (Some b') (w_index w) (w_syntaxes w), h')
    end
  | HDisk h' => Ok (WUnit, w, h')
  end.
Fixpoint hrun (brk : brk_rule) (cs : list (allocator * hcall)) (w : workspace) (h : hdisk)
  : res (list wout * workspace * hdisk) :=
  match cs with
  | [] => Ok ([], w, h)
  | (al, c) :: cs' =>
    let* (o, w1, h1) := hexec brk al c w h in
    let* (os, w2, h2) := hrun brk cs' w1 h1 in
    Ok (o :: os, w2, h2)
  end.

(** ** What is said about them *)

Definition writes_nothing (c : wcall) : Prop :=
  match c with WDisk _ | WEdit (BSave _) | WEdit (BDisk _) => False | _ => True end.
Definition hcall_ok (brk : brk_rule) (c : hcall) : Prop :=
  match c with HCall c => writes_nothing c /\ wcall_ok brk c | _ => True end.
Definition hard_opens (T : path -> option path) (c : hcall) : Prop :=
  match c with HCall c => only_opens c | HDisk h => hd_target h = T | HSave _ _ => True end.

(** No file has two names. *)
Definition no_hard_links (h : hdisk) : Prop :=
  forall q q' i, hd_file h q = Some i -> hd_file h q' = Some i -> q = q'.
(** The file is on no disk yet. *)
Definition unused (h : hdisk) (new : N) : Prop := forall q, hd_file h q <> Some new.

(** An ordinary call does what a call on a disk with hard links does; after a save,
    someone else writes to the other names of the file. *)
Definition same_call (h' : hdisk) (c : hcall) : list wcall :=
  match c with
  | HCall c => [c]
  | HSave wr _ => [WEdit (BSave wr); WDisk (seen h')]
  | HDisk _ => [WDisk (seen h')]
  end.
(** The answers to the calls that are not others' doings. *)
Fixpoint answers {A} (own : A -> bool) (cs : list A) (os : list wout) : list wout :=
  match cs, os with
  | c :: cs, o :: os => if own c then o :: answers own cs os else answers own cs os
  | _, _ => []
  end.
Definition own_call (c : wcall) : bool := match c with WDisk _ => false | _ => true end.
Definition own_hcall (c : hcall) : bool := match c with HDisk _ => false | _ => true end.
