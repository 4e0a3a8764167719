(** Specifications, written without looking at the code: what the calls mean on
    a plain, immutable text. *)
From Verif Require Import Base Utf8 Grapheme Position.

(** ** Lines and columns *)

(** The lines of a text: the pieces between newline chars. *)
Fixpoint lines_of (t : text) : list text :=
  match t with
  | [] => [[]]
  | c :: t' =>
    match lines_of t' with
    | l :: ls => if N.eq_dec c LF then [] :: l :: ls else (c :: l) :: ls
    | [] => []
    end
  end.

(** The lines of a text with the newlines that end them. *)
Definition full_lines (t : text) : list text :=
  map (fun l => l ++ [LF]) (removelast (lines_of t)) ++ [last (lines_of t) []].

(** The text before a position (line number, number of graphemes into the line),
    if there is such a position. *)
Definition prefix_at (brk : brk_rule) (t : text) (p : position) : option text :=
  match nth_error (lines_of t) (line p) with
  | None => None
  | Some l =>
    if offset p <=? length (graphemes brk l)
    then Some (concat (map (fun l => l ++ [LF]) (firstn (line p) (lines_of t)))
               ++ concat (firstn (offset p) (graphemes brk l)))
    else None
  end.

(** The text before and after a position. *)
Definition split_at (brk : brk_rule) (t : text) (p : position) : option (text * text) :=
  match prefix_at brk t p with
  | Some a => Some (a, skipn (length a) t)
  | None => None
  end.

(** Does the position exist? *)
Definition exists_at (brk : brk_rule) (t : text) (p : position) : bool :=
  match split_at brk t p with Some _ => true | None => false end.

(** Lexicographic order on (line, offset). *)
Definition before (p q : position) : bool :=
  (line p <? line q) || ((line p =? line q) && (offset p <? offset q)).
Definition first_of (p q : position) : position := if before q p then q else p.
Definition second_of (p q : position) : position := if before q p then p else q.

(** ** Edits of a plain text *)

Definition spec_insert (brk : brk_rule) (t data : text) (p : position) : text :=
  match split_at brk t p with
  | Some (a, b) => a ++ data ++ b
  | None => t
  end.

(** The text between two positions, given in either order. *)
Definition spec_read (brk : brk_rule) (t : text) (p q : position) : option text :=
  match split_at brk t (first_of p q), split_at brk t (second_of p q) with
  | Some (a, _), Some (a', _) => Some (skipn (length a) a')
  | _, _ => None
  end.

(** What is kept before and after a deleted range; a missing end is clamped to
    the start of the following line, or to the end of the text. *)
Definition spec_cut (brk : brk_rule) (t : text) (p q : position) : option (text * text) :=
  match split_at brk t (first_of p q) with
  | None => None
  | Some (a, _) =>
    match split_at brk t (second_of p q) with
    | Some (_, b) => Some (a, b)
    | None =>
      match split_at brk t (Pos (line (second_of p q) + 1) 0) with
      | Some (_, b) => Some (a, b)
      | None => Some (a, [])
      end
    end
  end.
Definition spec_delete (brk : brk_rule) (t : text) (p q : position) : text :=
  match spec_cut brk t p q with
  | Some (a, b) => a ++ b
  | None => t
  end.

(** ** Conditions on texts *)

(** Newlines are clusters of their own (no carriage return before them). *)
Definition plain_newlines (brk : brk_rule) (t : text) : Prop :=
  forall g, In g (graphemes brk t) -> In LF g -> g = [LF].

(** Putting texts side by side does not merge clusters. *)
Definition no_merge (brk : brk_rule) (ts : list text) : Prop :=
  graphemes brk (concat ts) = concat (map (graphemes brk) ts).

(** ** Sequences of gap buffer calls *)

Inductive gcall :=
| GInsert (data : text) (p : position)
| GDelete (p q : position)      (* delete(&Range::new(p, q)) *)
| GRead (p q : position)        (* read(&Range::new(p, q)) *)
| GInBounds (p : position)
| GToString.

Inductive gout :=
| OUnit
| ORead (r : option text)
| OBool (b : bool)
| OText (t : text).

(** What one call returns and the text afterwards. *)
Definition spec_call (brk : brk_rule) (c : gcall) (t : text) : gout * text :=
  match c with
  | GInsert data p => (OUnit, spec_insert brk t data p)
  | GDelete p q => (OUnit, spec_delete brk t p q)
  | GRead p q => (ORead (spec_read brk t p q), t)
  | GInBounds p => (OBool (exists_at brk t p), t)
  | GToString => (OText t, t)
  end.

Fixpoint spec_calls (brk : brk_rule) (cs : list gcall) (t : text) : list gout * text :=
  match cs with
  | [] => ([], t)
  | c :: cs' =>
    let '(o, t1) := spec_call brk c t in
    let '(os, t2) := spec_calls brk cs' t1 in
    (o :: os, t2)
  end.

(** The edit keeps clusters whole: an inserted text does not merge with its
    surroundings, and the two sides of a deletion do not merge. *)
Definition clean_call (brk : brk_rule) (c : gcall) (t : text) : Prop :=
  match c with
  | GInsert data p =>
    valid_text data /\ plain_newlines brk data /\
    match split_at brk t p with
    | Some (a, b) => no_merge brk [a; data; b]
    | None => True
    end
  | GDelete p q =>
    match spec_cut brk t p q with
    | Some (a, b) => no_merge brk [a; b]
    | None => True
    end
  | _ => True
  end.
Fixpoint clean_calls (brk : brk_rule) (cs : list gcall) (t : text) : Prop :=
  match cs with
  | [] => True
  | c :: cs' => clean_call brk c t /\ clean_calls brk cs' (snd (spec_call brk c t))
  end.

(** No carriage return is followed by a newline. *)
Definition no_crlf (t : text) : Prop := forall a b, t <> a ++ CR :: LF :: b.

(** Inserted texts satisfy a condition. *)
Definition inserts (P : text -> Prop) (c : gcall) : Prop :=
  match c with GInsert d _ => P d | _ => True end.

(** ASCII text without carriage returns. *)
Definition ascii_no_cr (t : text) : Prop := Forall (fun c => (c < 128)%N /\ c <> CR) t.

(** ** Orders and lines *)

(** Lexicographic order, as a relation. *)
Definition lex_lt (p q : position) : Prop :=
  line p < line q \/ (line p = line q /\ offset p < offset q).
Definition lex_le (p q : position) : Prop := p = q \/ lex_lt p q.

(** Joining lines with newlines. *)
Fixpoint join (ls : list text) : text :=
  match ls with
  | [] => []
  | [l] => l
  | l :: ls' => l ++ LF :: join ls'
  end.

(** The text without lines [a..b): if [b] is past the last line everything from
    line [a] on goes, and the newline before it stays. *)
Definition without_lines (t : text) (a b : nat) : text :=
  if b <? length (lines_of t) then join (firstn a (lines_of t) ++ skipn b (lines_of t))
  else if a <? length (lines_of t) then join (firstn a (lines_of t) ++ [[]])
  else t.

(** Where a text put at [p] ends. *)
Definition text_end (brk : brk_rule) (p : position) (d : text) : position :=
  let ls := lines_of d in
  let columns := length (graphemes brk (last ls [])) in
  match ls with
  | [_] => Pos (line p) (offset p + columns)
  | _ => Pos (line p + (length ls - 1)) columns
  end.
