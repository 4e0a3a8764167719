(** Example data and the proof of its facts: bytes that edits move. *)
From Coq Require Import String.
From Verif Require Import Base Utf8 Utf8Proofs Grapheme UnicodeTable Position GapBuffer Spec Calls GrowthSpec HalvesProofs
  GrowthProofs Copies CopiesSpec CopiesProofs Witness.

Lemma same_calls brk cs g :
  match c_run brk cs g with
  | Ok (os, g', _) => grun brk cs g = Ok (os, g')
  | Panic => grun brk cs g = Panic
  end.
Proof. rewrite <- run_counted. destruct (c_run brk cs g) as [[[os g'] n]|]; reflexivity. Qed.

Lemma sessions_sum brk cs al c g os g1 n o g2 m : c_run brk cs g = Ok (os, g1, n) -> c_exec brk al c g1 = Ok (o, g2, m) ->
  c_run brk (cs ++ [(al, c)]) g = Ok (os ++ [o], g2, n + m).
Proof. intros E1 E2. apply (run_sum _ _ _ _ _ _ _ _ _ _ E1). now apply run_one. Qed.

(** Twenty keys, from the fourth column on. *)
Definition twenty_keys : list (allocator * text * position) :=
  map (fun k => (grow_as_std, txt "x", Pos 0 (4 + k))) (seq 0 20).

Lemma ascii_clean t d p : ascii_no_crb t = true -> ascii_no_crb d = true -> clean_call uax29_15 (GInsert d p) t.
Proof.
  intros Ht Hd. destruct (ascii_session t [(tight, GInsert d p)]) as (_ & _ & _ & H).
  - unfold ascii_sessionb. cbn. now rewrite Ht, Hd.
  - repeat constructor. apply tight_ok.
  - exact (proj1 H).
Qed.

Lemma keys_typed : typing uax29_15 (txt "one ") (txt "two") twenty_keys.
Proof.
  unfold twenty_keys. cbn [seq map typing].
  repeat (split; [exact grow_as_std_ok|]; split; [vm_compute; reflexivity|];
          split; [apply ascii_clean; vm_compute; reflexivity|]).
  exact I.
Qed.

Lemma example_copies : exists g0 os g',
  gb_new tight (txt "one two") = Ok g0 /\ coherent uax29_15 g0 (txt "one two") /\
  typing uax29_15 (txt "one ") (txt "two") twenty_keys /\
  c_run uax29_15 (insertions twenty_keys) g0 = Ok (os, g', 6) /\
  gb_to_string g' = Ok (txt "one xxxxxxxxxxxxxxxxxxxxtwo") /\ capacity g' = 28 /\
  (exists o g2, c_exec uax29_15 grow_as_std (GDelete (Pos 0 1) (Pos 0 2)) g' = Ok (o, g2, 23)) /\
  (exists o g2, c_exec uax29_15 grow_as_std (GInsert (txt "y") (Pos 0 0)) g' = Ok (o, g2, 24)) /\
  (exists o g2, c_exec uax29_15 grow_as_std (GInsert (txt "yy") (Pos 0 0)) g' = Ok (o, g2, 30)) /\
  (exists o g2, c_exec uax29_15 grow_as_std (GInsert (txt "y") (Pos 9 0)) g' = Ok (o, g2, 0)).
Proof.
  destruct (ascii_session (txt "one two") [] ltac:(vm_compute; reflexivity) ltac:(constructor)) as (V & P & _).
  destruct (new_coherent uax29_15 tight (txt "one two") V P) as (g0 & E & C).
  assert (g0 = GB (Vec (enc (txt "one two")) []) 7 0) as -> by (vm_compute in E; now injection E as <-).
  do 3 eexists. split; [exact E|]. split; [exact C|]. split; [exact keys_typed|].
  split; [vm_compute; reflexivity|]. split; [vm_compute; reflexivity|]. split; [vm_compute; reflexivity|].
  repeat split; do 2 eexists; vm_compute; reflexivity.
Qed.
