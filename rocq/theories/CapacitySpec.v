(** When the capacity of a buffer can be told from its answers. *)
From Verif Require Import Base Utf8 Grapheme Position GapBuffer Spec Calls MarkSpec.

(** The position is at the same place in the text [a ++ c] marked between [a] and
    [c], as in a buffer whose last edit ended there, and in the text taken as a
    whole; if it is in neither, the mark is at the end already. *)
Definition found_alike (brk : brk_rule) (a c : text) (p : position) : Prop :=
  match locate brk (Marked a c 0) p, locate brk (Marked (a ++ c) [] 0) p with
  | Some x, Some y => x = y
  | None, None => c = []
  | _, _ => False
  end.
Definition fits (d : text) (m : marked) : Prop := length (enc d) <= room m.

(** Two sessions of the same calls with different amounts of memory: at each
    insert, both have room or both do not, or the position is found alike. *)
Definition insert_alike (brk : brk_rule) (d : text) (p : position) (m m' : marked) : Prop :=
  (fits d m <-> fits d m') \/ found_alike brk (ahead m) (behind m) p.
Fixpoint alike (brk : brk_rule) (cs : list (allocator * gcall)) (als : list allocator) (m m' : marked) : Prop :=
  match cs, als with
  | (al, c) :: cs, al' :: als =>
    match c with GInsert d p => insert_alike brk d p m m' | _ => True end /\
    alike brk cs als (snd (m_call brk al c m)) (snd (m_call brk al' c m'))
  | _, _ => True
  end.
