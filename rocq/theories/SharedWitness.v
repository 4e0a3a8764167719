(** Concrete programs used to show that hypotheses can be met and to refute
    statements that are false of the code. *)
From Coq Require Import String.
From Verif Require Import Base Utf8 Grapheme UnicodeTable Position GapBuffer Cursor PathModel Buffer
  Spec Calls CursorSpec CursorCalls BufferCalls Witness Disks Shared SharedSpec.

(** A program that starts with [Buffer::new()]. *)
Definition new_program : program :=
  match rbuffer_new tight [] with
  | Ok (b, h) => Prog b [] h no_files
  | Panic => Prog (RBuf None 0 None (RCur 0 (Cur (Pos 0 0) 0)) hist_new None None None []) [] [] no_files
  end.
Definition run_new (cs : list pcall) : res (list pout * program) :=
  prun uax29_15 (map (pair tight) cs) new_program.

Lemma new_program_starts : starts no_files new_program.
Proof. split; [reflexivity|]. split; [reflexivity|]. left. exists tight. reflexivity. Qed.

Lemma runs_new ok cs os p : run_new cs = Ok (os, p) -> Forall (fun c => pcall_ok c /\ ok c) cs ->
  reaches uax29_15 ok p.
Proof.
  intros E F. exists no_files, new_program, (map (pair tight) cs), os. split; [apply new_program_starts|].
  split; [|assumption]. apply Forall_forall. intros [al c] H. apply in_map_iff in H as (c' & [= <- <-] & H).
  rewrite Forall_forall in F. destruct (F _ H). split; [exact tight_ok|]. now split.
Qed.
