(** Bytes that edits move: what is said about them. *)
From Verif Require Import Base Utf8 Grapheme Position GapBuffer Spec Calls GrowthSpec.

(** Bytes of a text. *)
Definition size (t : text) : nat := length (enc t).

(** Where the free space of a buffer is: that many bytes of the text are in front
    of it. *)
Definition gap_place (g : gapbuf) : nat := gap_start g.

Definition distance (m n : nat) : nat := (m - n) + (n - m).

(** Typing: each text is put where the one before it ends, between [a] and [b]. *)
Fixpoint typing (brk : brk_rule) (a b : text) (ks : list (allocator * text * position)) : Prop :=
  match ks with
  | [] => True
  | (al, d, p) :: ks' =>
    std_growth al /\ split_at brk (a ++ b) p = Some (a, b) /\
    clean_call brk (GInsert d p) (a ++ b) /\ typing brk (a ++ d) b ks'
  end.
Definition typed (ks : list (allocator * text * position)) : text :=
  concat (map (fun k => snd (fst k)) ks).
Definition insertions (ks : list (allocator * text * position)) : list (allocator * gcall) :=
  map (fun k => (fst (fst k), GInsert (snd (fst k)) (snd k))) ks.
