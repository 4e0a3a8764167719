(** Specification: how a text is cut into tokens. *)
From Verif Require Import Base Utf8 Grapheme Position Spec Buffer Token.

(** The values of the lexemes, line by line. *)
Fixpoint token_lines {S} (ks : list (token S)) : list (list text) :=
  match ks with
  | [] => [[]]
  | Newline :: ks' => [] :: token_lines ks'
  | Lexeme l :: ks' =>
    match token_lines ks' with
    | vs :: ls => (lx_value l :: vs) :: ls
    | [] => []
    end
  end.

(** The bytes of a line, cut at every offset that is beyond the last cut; what
    is left at the end is a piece if there is something left. *)
Fixpoint pieces (bs : list byte) (from : nat) (offsets : list nat) : list (list byte) :=
  match offsets with
  | [] => if from <? length bs then [skipn from bs] else []
  | o :: os => if from <? o then firstn (o - from) (skipn from bs) :: pieces bs o os
               else pieces bs from os
  end.
