(** A concrete parser and scope stack, for examples and counterexamples. *)
From Coq Require Import String Sorted.
From Verif Require Import Base Utf8 Utf8Proofs Grapheme UnicodeTable Position Buffer Token
  Spec TokenSpec Witness.

(** An event before each char that [f] selects, and one at the end of the line. *)
Fixpoint marks (f : char -> bool) (l : text) (o : nat) : list (nat * N) :=
  match l with
  | [] => [(o, 0%N)]
  | c :: l' => if f c then (o, c) :: marks f l' (o + len1 c) else marks f l' (o + len1 c)
  end.
(** Parsing fails on lines with a question mark; the state counts lines. *)
Definition mark_line (f : char -> bool) (s : nat) (l : text) : option (list (nat * N)) * nat :=
  (if existsb (N.eqb 63) l then None else Some (marks f l 0), S s).
(** Scopes are the chars seen; an exclamation mark cannot be applied. *)
Definition push (sc : list N) (op : N) : list N * bool := (op :: sc, negb (op =? 33)%N).

Lemma marks_boundaries f l : forall a,
  Forall (fun e => exists x r, a ++ l = x ++ r /\ fst e = blen x) (marks f l (blen a)).
Proof.
  induction l as [|c l IH]; intros a; cbn [marks].
  - constructor; [|constructor]. now exists a, [].
  - assert (E : blen a + len1 c = blen (a ++ [c])) by (rewrite blen_app, blen_cons; change (blen []) with 0; lia).
    specialize (IH (a ++ [c])). rewrite <- E, <- app_assoc in IH. cbn [app] in IH.
    destruct (f c); [constructor; [now exists a, (c :: l)|exact IH]|exact IH].
Qed.
Lemma mark_line_boundaries f : on_boundaries nat N (mark_line f).
Proof.
  intros s l evs s'. unfold mark_line. destruct (existsb _ _); [discriminate|]. intros E; injection E as <- _.
  apply (marks_boundaries f l []).
Qed.
Lemma marks_order f l : forall o, Sorted le (map fst (marks f l o)) /\ HdRel le o (map fst (marks f l o)).
Proof.
  induction l as [|c l IH]; intros o; cbn [marks]; [cbn; auto|].
  destruct (IH (o + len1 c)) as [H1 H2].
  assert (H3 : HdRel le o (map fst (marks f l (o + len1 c)))).
  { destruct (map fst (marks f l (o + len1 c))); constructor. inversion_clear H2. lia. }
  destruct (f c); cbn [map fst]; [|now split]. split; constructor; auto.
Qed.
Lemma mark_line_order f : in_order nat N (mark_line f).
Proof.
  intros s l evs s'. unfold mark_line. destruct (existsb _ _); [discriminate|]. intros E; injection E as <- _.
  apply marks_order.
Qed.

Definition spaces (c : char) : bool := existsb (N.eqb c) (txt " !").
Definition spaces_lf (c : char) : bool := (c =? 32)%N || (c =? LF)%N.

Definition mark_yields (f : char -> bool) := yields nat N (list N) (mark_line f) push uax29_15 0 [].
