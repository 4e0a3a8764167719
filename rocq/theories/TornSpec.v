(** Words for what is left of a file when it is taken to the device in pieces. *)
From Verif Require Import Base Utf8 PathModel Buffer Saving SavingSpec Torn.

(** Nobody else changes the disk. *)
Definition undisturbed_torn (evs : list piece) : Prop := forall f, ~ In (Now (Other f)) evs.
(** What happens to the save. *)
Definition done_to_save (evs : list piece) : list happening :=
  flat_map (fun ev => match ev with Now e => [e] | _ => [] end) evs.
(** These pieces together are all bytes of the file [q] up to [n]. *)
Definition cover (q : path) (n : nat) (evs : list piece) : Prop :=
  forall i, i < n -> exists lo hi, In (Bytes q lo hi) evs /\ lo <= i < hi.

(** What can be left of the file [x] on the device [g'], if programs saw [f] and the
    device was [g] before the save of [data] to the path [p]: it is as it was there
    or a regular file; its length is one it had, or at most that of the text in the
    saved file; and each byte is zero, or one it had at this place, or the one of
    the text at this place in the saved file. *)
Definition left_over (p : path) (data : list byte) (f g g' : fsys) (x : path) : Prop :=
  (fs_node g' x = fs_node g x \/ fs_node g' x = Some (Regular (held g' x))) /\
  (length (held g' x) = length (held g x) \/ length (held g' x) = length (held f x) \/
   fs_target f p = Some x /\ length (held g' x) <= length data) /\
  forall i b, nth_error (held g' x) i = Some b ->
    b = 0%N \/ nth_error (held g x) i = Some b \/ nth_error (held f x) i = Some b \/
    fs_target f p = Some x /\ nth_error data i = Some b.

(** [data] where the mask says so and [old] elsewhere, zeros if [old] ends. *)
Definition mixture (mask : nat -> bool) (data old : list byte) : list byte :=
  map (fun i => if mask i then nth i data 0%N else nth i old 0%N) (seq 0 (length data)).
