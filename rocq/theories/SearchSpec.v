(** Specification of searching and of file names. *)
From Verif Require Import Base Utf8 Grapheme Position Spec PathModel.

(** The needle occurs on line [l], after the chars [a] of that line. *)
Definition occurs (needle t : text) (l : nat) (a : text) : Prop :=
  exists ln r, nth_error (lines_of t) l = Some ln /\ ln = a ++ needle ++ r.

(** Every char is one byte. *)
Definition ascii (t : text) : Prop := Forall (fun c => (c < 128)%N) t.

(** The name of a file is its stem, a dot and its extension. *)
Definition named (name stem ext : list byte) : Prop :=
  name = stem ++ DOT :: ext /\ stem <> [] /\ ext <> [] /\ ~ In DOT ext.
