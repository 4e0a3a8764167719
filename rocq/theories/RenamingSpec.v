(** What is said about files that other programs replace by renaming. *)
From Verif Require Import Base Utf8 PathModel Buffer HardLinks Saving Loading Disks Renaming.

(** The disk after these happenings. *)
Definition disk_then (p : path) (es : list ihappening) (h : hdisk) : hdisk := snd (iloading p es (IAsking, h)).

(** What a path reads as. *)
Definition reads (h : hdisk) (p : path) : option (list byte) := fs_read (seen h) p.

(** A file that the path has led to is never written again: other programs make the
    path lead to another file instead. *)
Definition never_rewritten (p : path) (es : list ihappening) (h : hdisk) : Prop :=
  forall es1 es2 es3 i, es = es1 ++ es2 ++ es3 -> file_of (disk_then p es1 h) p = Some i ->
    hd_node (disk_then p (es1 ++ es2) h) i = hd_node (disk_then p es1 h) i.

(** Other programs do nothing but rename new files. *)
Definition new_files (es : list ihappening) : list N :=
  flat_map (fun e => match e with IRenamed _ new _ => [new] | _ => [] end) es.
Definition only_renames (es : list ihappening) (h : hdisk) : Prop :=
  (forall h', ~ In (IChanged h') es) /\ NoDup (new_files es) /\ Forall (unused h) (new_files es).

(** Other programs write in place: names stay with their files. *)
Definition in_place (es : list ihappening) (h : hdisk) : Prop :=
  (forall q new bs, ~ In (IRenamed q new bs) es) /\
  forall h', In (IChanged h') es -> hd_target h' = hd_target h /\ hd_file h' = hd_file h.
(** The same happenings in Loading.v. *)
Definition by_name (e : ihappening) : lhappening :=
  match e with
  | IOpened => Opened | INotOpened => NotOpened | ITook n => Took n | IPaused => Paused | IReadError => ReadError
  | IRenamed _ _ _ => Paused
  | IChanged h => Elsewhere (seen h)
  end.

(** Every read gives something while there is something. *)
Definition ireadable (e : ihappening) : Prop :=
  match e with ITook _ | IPaused | IRenamed _ _ _ => True | _ => False end.
Definition is_iread (e : ihappening) : bool := match e with ITook _ => true | _ => false end.

(** The numbers of the files that appear during a save are new. *)
Definition saved_files (es : list shappening) : list N :=
  flat_map (fun e => match e with SRenamed _ new _ | SCreated new => [new] | _ => [] end) es.
Definition new_numbers (es : list shappening) (h : hdisk) : Prop :=
  NoDup (saved_files es) /\ Forall (unused h) (saved_files es).
Definition no_renames (es : list shappening) : Prop := forall q new bs, ~ In (SRenamed q new bs) es.

(** The save has opened the file. *)
Definition has_opened (ph : sphase) : bool :=
  match ph with SWriting _ _ | SSaved _ | SFailed (Some _) => true | _ => false end.

(** Two disks nobody can tell apart. *)
Definition same_hdisk (h h' : hdisk) : Prop :=
  hd_target h = hd_target h' /\ (forall x, hd_file h x = hd_file h' x) /\ forall i, hd_node h i = hd_node h' i.

(** A disk with one file, number 0. *)
Definition one_hfile (t : text) : hdisk :=
  HD to_target (fun q => if path_eqb q the_path then Some 0%N else None) (fun _ => Regular (enc t)).

(** The operating system takes at least one byte at each write. *)
Definition saccepting (e : shappening) : Prop :=
  match e with SWrote n => 0 < n | SInterrupted | SRenamed _ _ _ => True | _ => False end.
Definition is_swrite (e : shappening) : bool := match e with SWrote _ => true | _ => false end.
