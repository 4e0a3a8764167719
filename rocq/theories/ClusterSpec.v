(** Families of texts whose clusters never merge, used as conditions in the
    properties. *)
From Verif Require Import Base Utf8 Grapheme.

(** Texts made of members of a family. *)
Definition words (U : text -> Prop) (s : text) : Prop :=
  exists us, Forall U us /\ s = concat us.

(** Every char is a cluster. *)
Definition singles (brk : brk_rule) (d : text) : Prop := graphemes brk d = map (fun c => [c]) d.

(** Chars that are clusters by themselves whatever surrounds them, given that
    no carriage returns, marks, prepended or Hangul chars occur. *)
Definition solo (k : gcb) : bool :=
  match k with
  | GC_Any | GC_Control | GC_LF | GC_Extended_Pictographic => true
  | _ => false
  end.
(** Chars marks attach to. *)
Definition base (k : gcb) : bool :=
  match k with GC_Any | GC_Extended_Pictographic => true | _ => false end.
(** Marks that extend the preceding cluster and nothing else. *)
Definition attach (k : gcb) : bool :=
  match k with GC_Extend | GC_SpacingMark => true | _ => false end.

(** Single chars, a letter or symbol with marks on it, and flags. *)
Inductive simple_cluster (cls : char -> gcb) : text -> Prop :=
| sc_solo c : scalar c = true -> solo (cls c) = true -> simple_cluster cls [c]
| sc_marked c ms : scalar c = true -> base (cls c) = true ->
    Forall (fun m => scalar m = true /\ attach (cls m) = true) ms -> simple_cluster cls (c :: ms)
| sc_flag a b : scalar a = true -> scalar b = true ->
    cls a = GC_Regional_Indicator -> cls b = GC_Regional_Indicator -> simple_cluster cls [a; b].
