(** Property C83: edits compose.  Statements only; [shifted], [pulled], [agree] and
    [returns] are in LawSpec.v. *)
From Coq Require Import String.
From Verif Require Import Base Utf8 Grapheme UnicodeTable Position GapBuffer ClusterSpec Spec Calls GapProps Witness
  LawSpec LawProofs.

(** C83: what was inserted can be read back, taken away again, and inserted in two
    parts. *)
Theorem C83_inserts : forall cls, cls LF = GC_LF -> forall s p d e,
  words (simple_cluster cls) s -> words (simple_cluster cls) d -> words (simple_cluster cls) e ->
  returns (uax29 cls) s [GInBounds p] [OBool true] ->
  agree (uax29 cls) s [GInsert d p; GInsert e (text_end (uax29 cls) p d)] [GInsert (d ++ e) p] /\
  agree (uax29 cls) s [GInsert d p; GDelete p (text_end (uax29 cls) p d)] [] /\
  returns (uax29 cls) s [GInsert d p; GRead p (text_end (uax29 cls) p d)] [OUnit; ORead (Some d)].
Proof. exact law_inserts. Qed.
Print Assumptions C83_inserts.

(** C83: what was cut out can be put back. *)
Theorem C83_cut_and_paste : forall cls, cls LF = GC_LF -> forall s p q u, words (simple_cluster cls) s -> lex_le p q ->
  returns (uax29 cls) s [GRead p q] [ORead (Some u)] -> agree (uax29 cls) s [GDelete p q; GInsert u p] [].
Proof. exact law_cut_paste. Qed.
Print Assumptions C83_cut_and_paste.

(** C83: a range can be deleted in two parts, from the back or from the front. *)
Theorem C83_deletes : forall cls, cls LF = GC_LF -> forall s p q r, words (simple_cluster cls) s ->
  returns (uax29 cls) s [GInBounds p] [OBool true] -> returns (uax29 cls) s [GInBounds q] [OBool true] ->
  returns (uax29 cls) s [GInBounds r] [OBool true] -> lex_le p q -> lex_le q r ->
  agree (uax29 cls) s [GDelete q r; GDelete p q] [GDelete p r] /\
  agree (uax29 cls) s [GDelete p q; GDelete p (pulled p q r)] [GDelete p r].
Proof. exact law_deletes. Qed.
Print Assumptions C83_deletes.

(** C83: edits at different places can be made in either order, if positions after
    the earlier place are moved. *)
Theorem C83_inserts_commute : forall cls, cls LF = GC_LF -> forall s p q d e,
  words (simple_cluster cls) s -> words (simple_cluster cls) d -> words (simple_cluster cls) e ->
  returns (uax29 cls) s [GInBounds p] [OBool true] -> returns (uax29 cls) s [GInBounds q] [OBool true] -> lex_le p q ->
  agree (uax29 cls) s [GInsert e q; GInsert d p] [GInsert d p; GInsert e (shifted (uax29 cls) p d q)].
Proof. exact law_commute. Qed.
Print Assumptions C83_inserts_commute.
Theorem C83_deletes_commute : forall cls, cls LF = GC_LF -> forall s p q r u, words (simple_cluster cls) s ->
  returns (uax29 cls) s [GInBounds p] [OBool true] -> returns (uax29 cls) s [GInBounds q] [OBool true] ->
  returns (uax29 cls) s [GInBounds r] [OBool true] -> returns (uax29 cls) s [GInBounds u] [OBool true] ->
  lex_le p q -> lex_le q r -> lex_le r u ->
  agree (uax29 cls) s [GDelete r u; GDelete p q] [GDelete p q; GDelete (pulled p q r) (pulled p q u)].
Proof. exact law_deletes_commute. Qed.
Print Assumptions C83_deletes_commute.

Theorem C83_mixed_commute : forall cls, cls LF = GC_LF -> forall s p q r d,
  words (simple_cluster cls) s -> words (simple_cluster cls) d ->
  returns (uax29 cls) s [GInBounds p] [OBool true] -> returns (uax29 cls) s [GInBounds q] [OBool true] ->
  returns (uax29 cls) s [GInBounds r] [OBool true] -> lex_le p q -> lex_le q r ->
  agree (uax29 cls) s [GDelete q r; GInsert d p]
    [GInsert d p; GDelete (shifted (uax29 cls) p d q) (shifted (uax29 cls) p d r)] /\
  agree (uax29 cls) s [GInsert d r; GDelete p q] [GDelete p q; GInsert d (pulled p q r)].
Proof. exact law_mixed. Qed.
Print Assumptions C83_mixed_commute.

(** C83: what is elsewhere stays: before an edit in its place, behind it at the
    moved positions. *)
Theorem C83_insert_elsewhere : forall cls, cls LF = GC_LF -> forall s p q r d x,
  words (simple_cluster cls) s -> words (simple_cluster cls) d ->
  returns (uax29 cls) s [GInBounds p] [OBool true] -> lex_le q r -> returns (uax29 cls) s [GRead q r] [ORead (Some x)] ->
  (lex_le r p -> returns (uax29 cls) s [GInsert d p; GRead q r] [OUnit; ORead (Some x)]) /\
  (lex_le p q -> returns (uax29 cls) s [GInsert d p; GRead (shifted (uax29 cls) p d q) (shifted (uax29 cls) p d r)]
                   [OUnit; ORead (Some x)]).
Proof. exact law_insert_elsewhere. Qed.
Print Assumptions C83_insert_elsewhere.
Theorem C83_delete_elsewhere : forall cls, cls LF = GC_LF -> forall s p q r u x, words (simple_cluster cls) s ->
  returns (uax29 cls) s [GInBounds p] [OBool true] -> returns (uax29 cls) s [GInBounds q] [OBool true] ->
  lex_le p q -> lex_le r u -> returns (uax29 cls) s [GRead r u] [ORead (Some x)] ->
  (lex_le u p -> returns (uax29 cls) s [GDelete p q; GRead r u] [OUnit; ORead (Some x)]) /\
  (lex_le q r -> returns (uax29 cls) s [GDelete p q; GRead (pulled p q r) (pulled p q u)] [OUnit; ORead (Some x)]).
Proof. exact law_delete_elsewhere. Qed.
Print Assumptions C83_delete_elsewhere.

(** Such texts and positions; and positions on the line of an edit and below it
    move like this. *)
Example C83_example :
  gcb15 LF = GC_LF /\ words (simple_cluster gcb15) (txt "ab" ++ nl ++ txt "cd") /\
  returns uax29_15 (txt "ab" ++ nl ++ txt "cd") [GInBounds (Pos 0 1)] [OBool true] /\
  shifted uax29_15 (Pos 0 1) (txt "x" ++ nl ++ txt "yz") (Pos 0 2) = Pos 1 3 /\
  shifted uax29_15 (Pos 0 1) (txt "x" ++ nl ++ txt "yz") (Pos 1 1) = Pos 2 1 /\
  pulled (Pos 0 1) (Pos 1 1) (Pos 1 2) = Pos 0 2 /\ pulled (Pos 0 1) (Pos 1 1) (Pos 4 2) = Pos 3 2.
Proof.
  assert (W : words (simple_cluster gcb15) (txt "ab" ++ nl ++ txt "cd")) by now apply ascii_words, ascii_no_crb_ok.
  split; [reflexivity|]. split; [exact W|]. split; [|repeat split; vm_compute; reflexivity].
  apply (returns_text gcb15 eq_refl); [exact W|repeat constructor|vm_compute; reflexivity].
Qed.
