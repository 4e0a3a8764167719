(** What is said about saves step by step. *)
From Verif Require Import Base Utf8 PathModel Buffer BufferCalls Saving.

(** Nobody else changes the disk. *)
Definition alone (es : list happening) : Prop := forall f, ~ In (Other f) es.

(** Two disks nobody can tell apart. *)
Definition same_disk (f f' : fsys) : Prop :=
  fs_target f = fs_target f' /\ forall x, fs_node f x = fs_node f' x.

(** The save is over, with this answer. *)
Definition answer (ph : phase) : option (result unit) :=
  match ph with
  | Saved _ => Some (ROk tt)
  | Failed _ => Some (RErr IoError)
  | _ => None
  end.

(** The file that the save has open or had open. *)
Definition opened (ph : phase) : option path :=
  match ph with
  | Writing q _ | Saved q | Failed (Some q) => Some q
  | _ => None
  end.

(** While a save goes on, other programs leave the file alone that it has open;
    they may do anything to other files, to directories and to links. *)
Fixpoint undisturbed (p : path) (data : list byte) (es : list happening) (s : phase * fsys) : Prop :=
  match es with
  | [] => True
  | e :: es =>
    match e, opened (fst s) with
    | Other f', Some q => fs_node f' q = fs_node (snd s) q
    | _, _ => True
    end /\ undisturbed p data es (save_step p data e s)
  end.

(** The disk that other programs left last. *)
Fixpoint left_by_others (es : list happening) (f : fsys) : fsys :=
  match es with
  | [] => f
  | Other f' :: es => left_by_others es f'
  | _ :: es => left_by_others es f
  end.

(** [u] is a beginning of [t]. *)
Definition beginning (u t : text) : Prop := exists v, t = u ++ v.

(** Nothing but the two saves happens to the disk. *)
Definition only_two (es : list (bool * happening)) : Prop := forall k f, ~ In (k, Other f) es.

(** The operating system takes at least one byte at each write; it may interrupt
    writes as often as it likes. *)
Definition accepting (e : happening) : Prop :=
  match e with Wrote n => 0 < n | Interrupted => True | _ => False end.
Definition is_write (e : happening) : bool := match e with Wrote _ => true | _ => false end.
