(** Saves and power failures: what the operating system has told programs is on the
    disk, and what really is. *)
From Verif Require Import Base Utf8 PathModel Buffer Saving SavingSpec.

(** The operating system keeps what programs write in memory ([f]: what programs
    see) and takes it to the device ([g]: what is left when the power fails) file by
    file, at moments of its own choice.  [save] (mod.rs:180-196) never asks it to
    ([File::sync_all] is not called).  Simplified: a file is taken to the device as a
    whole; directories and links do not change meanwhile. *)
Inductive event := Does (e : happening) | Flush (q : path).
Definition flush (f g : fsys) (q : path) : fsys :=
  FS (fs_target g) (fun x => if path_eqb x q then fs_node f q else fs_node g x).
Definition power_step (p : path) (data : list byte) (ev : event) (s : phase * fsys * fsys) : phase * fsys * fsys :=
  let '(ph, f, g) := s in
  match ev with
  | Does e => let '(ph', f') := save_step p data e (ph, f) in (ph', f', g)
  | Flush q => (ph, f, flush f g q)
  end.
Definition powered (p : path) (data : list byte) (evs : list event) (s : phase * fsys * fsys) : phase * fsys * fsys :=
  fold_left (fun s ev => power_step p data ev s) evs s.

(** Nobody else changes the disk. *)
Definition calm (evs : list event) : Prop := forall f, ~ In (Does (Other f)) evs.
(** What happens to the save. *)
Definition deeds (evs : list event) : list happening :=
  flat_map (fun ev => match ev with Does e => [e] | Flush _ => [] end) evs.
