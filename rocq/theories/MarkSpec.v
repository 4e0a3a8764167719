(** What every gap buffer call means, for every text: the buffer is a text with
    a mark where the last edit was, and some room.  Columns count clusters of
    the part before the mark and of the part after it, each segmented by itself,
    so clusters that merge across the mark count separately. *)
From Verif Require Import Base Utf8 Grapheme Position GapBuffer Spec.

Record marked := Marked { ahead : text; behind : text; room : nat }.

Definition whole (m : marked) : text := ahead m ++ behind m.

(** Walking over clusters: a newline starts the next line, anything else is one
    column.  The texts before and after the position, if it is met. *)
Fixpoint walk (gs : list grapheme) (here p : position) : option (text * text) :=
  if pos_eqb here p then Some ([], concat gs)
  else
    match gs with
    | [] => None
    | g :: gs' =>
      let next := if list_eq_dec N.eq_dec g [LF] then Pos (line here + 1) 0
                  else Pos (line here) (offset here + 1) in
      match walk gs' next p with
      | Some (a, b) => Some (g ++ a, b)
      | None => None
      end
    end.
Definition locate (brk : brk_rule) (m : marked) (p : position) : option (text * text) :=
  walk (graphemes brk (ahead m) ++ graphemes brk (behind m)) (Pos 0 0) p.

(** Data that does not fit moves the mark to the end and makes room: what there
    was and as many bytes as the allocator gives. *)
Definition make_room (al : allocator) (data : text) (m : marked) : marked :=
  if room m <? length (enc data)
  then Marked (whole m) [] (room m + length (al (length (enc (whole m)) + room m) (length (enc data))))
  else m.

Definition m_insert (brk : brk_rule) (al : allocator) (data : text) (p : position) (m : marked) : marked :=
  let m1 := make_room al data m in
  match locate brk m1 p with
  | Some (a, b) => Marked (a ++ data) b (room m1 - length (enc data))
  | None => m1
  end.

(** The start moves the mark there; the end is looked up after that. *)
Definition m_delete (brk : brk_rule) (p q : position) (m : marked) : marked :=
  match locate brk m (first_of p q) with
  | None => m
  | Some (a, b) =>
    let m1 := Marked a b (room m) in
    let rest := match locate brk m1 (second_of p q) with
                | Some (_, b') => b'
                | None => match locate brk m1 (Pos (line (second_of p q) + 1) 0) with
                          | Some (_, b') => b'
                          | None => []
                          end
                end in
    Marked a rest (room m + (length (enc b) - length (enc rest)))
  end.

Definition m_read (brk : brk_rule) (p q : position) (m : marked) : option text :=
  match locate brk m (first_of p q), locate brk m (second_of p q) with
  | Some (a, _), Some (a', _) => Some (skipn (length a) a')
  | _, _ => None
  end.

Definition m_call (brk : brk_rule) (al : allocator) (c : gcall) (m : marked) : gout * marked :=
  match c with
  | GInsert data p => (OUnit, m_insert brk al data p m)
  | GDelete p q => (OUnit, m_delete brk p q m)
  | GRead p q => (ORead (m_read brk p q m), m)
  | GInBounds p => (OBool (match locate brk m p with Some _ => true | None => false end), m)
  | GToString => (OText (whole m), m)
  end.
Fixpoint m_calls (brk : brk_rule) (cs : list (allocator * gcall)) (m : marked) : list gout * marked :=
  match cs with
  | [] => ([], m)
  | (al, c) :: cs' =>
    let '(o, m1) := m_call brk al c m in
    let '(os, m2) := m_calls brk cs' m1 in
    (o :: os, m2)
  end.

(** A new buffer: the mark is at the end, and there is the room that the
    allocation has to spare. *)
Definition m_new (al : allocator) (s : text) : marked := Marked s [] (length (al (length (enc s)) 0)).

(** Carriage returns followed by a newline. *)
Fixpoint crlfs (t : text) : nat :=
  match t with
  | [] => 0
  | c :: t' =>
    (match t' with d :: _ => if N.eqb c CR && N.eqb d LF then 1 else 0 | [] => 0 end) + crlfs t'
  end.

(** The bytes that some calls insert. *)
Definition bytes_inserted (cs : list (allocator * gcall)) : nat :=
  fold_right (fun ac n => match snd ac with GInsert d _ => length (enc d) | _ => 0 end + n) 0 cs.
