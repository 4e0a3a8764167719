(** Saves and power failures, when the operating system takes a file to the device
    piece by piece. *)
From Verif Require Import Base Utf8 PathModel Buffer Saving SavingSpec.

(** As in Power.v, [f] is what programs see and [g] what is left when the power
    fails, and [save] (mod.rs:180-196) never asks for anything to be taken there.
    [Size q]: the length of the file goes to the device, and places that had no
    byte there get zeros.  [Bytes q lo hi]: the bytes from [lo] to [hi] go there, as
    far as the file is on the device.  Simplified: directories and links do not
    change meanwhile, and a file is on the device from its first [Size] on. *)
Inductive piece := Now (e : happening) | Size (q : path) | Bytes (q : path) (lo hi : nat).

Definition pick (n : nat) (h : nat -> byte) : list byte := map h (seq 0 n).
Definition byte_at (bs : list byte) (i : nat) : byte := nth i bs 0%N.
Definition take_size (f g : fsys) (q : path) : fsys :=
  match fs_node f q with
  | Some (Regular seen) => holding g q (pick (length seen) (byte_at (held g q)))
  | _ => g
  end.
Definition take_bytes (f g : fsys) (q : path) (lo hi : nat) : fsys :=
  match fs_node f q, fs_node g q with
  | Some (Regular seen), Some (Regular dev) =>
    holding g q (pick (length dev) (fun i =>
      if (lo <=? i) && (i <? hi) && (i <? length seen) then byte_at seen i else byte_at dev i))
  | _, _ => g
  end.
Definition torn_step (p : path) (data : list byte) (ev : piece) (s : phase * fsys * fsys) : phase * fsys * fsys :=
  let '(ph, f, g) := s in
  match ev with
  | Now e => let '(ph', f') := save_step p data e (ph, f) in (ph', f', g)
  | Size q => (ph, f, take_size f g q)
  | Bytes q lo hi => (ph, f, take_bytes f g q lo hi)
  end.
Definition torn (p : path) (data : list byte) (evs : list piece) (s : phase * fsys * fsys) : phase * fsys * fsys :=
  fold_left (fun s ev => torn_step p data ev s) evs s.
