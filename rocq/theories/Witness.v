(** Concrete inputs used to show that hypotheses can be met and to refute
    statements that are false of the code. *)
From Coq Require Import String Ascii.
From Verif Require Import Base Utf8 Utf8Proofs Grapheme GraphemeProofs UnicodeTable Position
  GapBuffer GapBufferProofs Spec Calls TextProofs UaxProofs HalvesProofs TextFacts GapProps.

(** ASCII string literals as texts. *)
Definition txt (s : string) : text := map N_of_ascii (list_ascii_of_string s).
Arguments txt _%string_scope.
Definition nl : text := [LF].
Definition crlf : text := [CR; LF].
(** U+0301 COMBINING ACUTE ACCENT. *)
Definition acute : text := [769%N].
(** U+00E9. *)
Definition e_acute : text := [233%N].

(** Allocators: exact, and with room to spare. *)
Definition tight : allocator := fun _ a => repeat 0%N a.
Definition roomy (k : nat) (b : N) : allocator := fun _ a => repeat b (a + k).

Lemma tight_ok : alloc_ok tight.
Proof. intros n a. unfold tight. now rewrite repeat_length. Qed.
Lemma roomy_ok k b : alloc_ok (roomy k b).
Proof. intros n a. unfold roomy. rewrite repeat_length. lia. Qed.

Definition ascii_no_crb (t : text) : bool :=
  forallb (fun c => (c <? 128)%N && negb (c =? CR)%N) t.
Lemma ascii_no_crb_ok t : ascii_no_crb t = true -> ascii_no_cr t.
Proof.
  unfold ascii_no_crb, ascii_no_cr. rewrite forallb_forall. intros H. apply Forall_forall.
  intros c Hc. specialize (H c Hc). apply andb_true_iff in H as [H1 H2].
  apply N.ltb_lt in H1. split; [assumption|]. intros ->. discriminate.
Qed.

Definition valid_textb (t : text) : bool := forallb scalar t.
Lemma valid_textb_ok t : valid_textb t = true -> valid_text t.
Proof. unfold valid_textb, valid_text. rewrite forallb_forall. intros H. now apply Forall_forall. Qed.

(** An ASCII session is clean. *)
Definition ascii_sessionb (s : text) (cs : list (allocator * gcall)) : bool :=
  ascii_no_crb s &&
  forallb (fun ac => match snd ac with GInsert d _ => ascii_no_crb d | _ => true end) cs.
Lemma ascii_session s cs :
  ascii_sessionb s cs = true -> Forall (fun ac => alloc_ok (fst ac)) cs ->
  clean_session uax29_15 s cs.
Proof.
  intros H Hal. apply andb_true_iff in H as [Hs Hc].
  apply unicode_session; [exact gcb15_LF| |assumption|].
  - now apply ascii_words, ascii_no_crb_ok.
  - rewrite forallb_forall in Hc. apply Forall_forall. intros [al c] Hin. specialize (Hc _ Hin).
    destruct c; cbn [snd] in *; try exact I. now apply ascii_words, ascii_no_crb_ok.
Qed.

(** Boolean equality of session results. *)
Definition ok_text (r : res text) : option text := match r with Ok t => Some t | Panic => None end.
