(** What decoding bytes that need not be UTF-8 gives (the Unicode standard's
    "substitution of maximal subparts"): encoded characters give themselves, and
    where no encoded character starts, the bytes that could still have become
    one, or else one byte, give a replacement character. *)
From Verif Require Import Base Utf8.

(** An encoded character begins with [x]. *)
Definition begins (x : list byte) : Prop :=
  exists c r, scalar c = true /\ enc1 c = x ++ r.

(** No encoded character stands at the front of [bs]. *)
Definition broken (bs : list byte) : Prop :=
  forall c r, scalar c = true -> bs <> enc1 c ++ r.

(** [x] is the part of [x ++ bs] that one replacement character stands for. *)
Definition subpart (x bs : list byte) : Prop :=
  (begins x /\ x <> [] /\ forall b r, bs = b :: r -> ~ begins (x ++ [b])) \/
  (exists b, x = [b] /\ ~ begins [b]).

Inductive lossy : list byte -> text -> Prop :=
| lossy_nil : lossy [] []
| lossy_char c bs t : scalar c = true -> lossy bs t -> lossy (enc1 c ++ bs) (c :: t)
| lossy_bad x bs t : broken (x ++ bs) -> subpart x bs -> lossy bs t ->
    lossy (x ++ bs) (REPLACEMENT :: t).
