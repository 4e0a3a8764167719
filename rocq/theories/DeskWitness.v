(** Concrete programs with a workspace, used to show that hypotheses can be met. *)
From Coq Require Import String.
From Verif Require Import Base Utf8 Grapheme UnicodeTable Position GapBuffer Cursor PathModel Buffer
  Spec Calls CursorSpec CursorCalls BufferCalls Witness Token Workspace WorkspaceSpec WorkspaceWitness Shared SharedSpec World WorldSpec WorldWitness
  Desk DeskSpec.

Definition dokb (hs : nat -> nat) (s : desk) (c : dcall) : bool :=
  match c with
  | DWorld c => okb hs (d_world s) c
  | DBuffer c => okb hs (d_world s) (NBuffer 0 c)
  | DCallback n => okb hs (d_world s) (NCallback 0 n)
  | _ => true
  end.
Definition dplainb (c : dcall) : bool :=
  match c with DWorld c => plainb c | DAssign _ => false | _ => true end.
Fixpoint dokays (code : closures) (hs : nat -> nat) (cs : list dcall) (s : desk) : bool :=
  match cs with
  | [] => true
  | c :: cs' => dokb hs s c &&
    match dexec uax29_15 code tight c s with Ok (_, s') => dokays code hs cs' s' | Panic => false end
  end.

(** The workspace of the examples: the directory of WorkspaceWitness.v. *)
Definition bench : rworkspace := RWS dir [] 0 None None syntaxes.
Definition bare : desk := Desk (World [] [] [] [] disk) bench.
Lemma bench_new : rws_new disk dir (Some syntaxes) = ROk bench.
Proof. reflexivity. Qed.
Definition run_desk (code : closures) (cs : list dcall) : res (list dout * desk) :=
  drun uax29_15 code (map (pair tight) cs) bare.

Lemma dokb_ok code hs s c : (forall n r, closure_uses code n r -> r < hs n) -> dokb hs s c = true -> dcall_ok code s c.
Proof. intros H. destruct c; cbn [dokb dcall_ok]; try exact (fun _ => I); now apply okb_ok. Qed.
Lemma dplainb_ok c : dplainb c = true -> desk_plain c.
Proof. destruct c; cbn; try easy. apply plainb_ok. Qed.

Lemma runs_desk code hs Q cs os s : (forall n r, closure_uses code n r -> r < hs n) ->
  run_desk code cs = Ok (os, s) -> dokays code hs cs bare = true -> Forall Q cs ->
  desk_session uax29_15 code Q disk bench (map (pair tight) cs) os s.
Proof.
  intros H. unfold run_desk. enough (X : forall cs0 os0 s0 os s, desk_session uax29_15 code Q disk bench cs0 os0 s0 ->
    drun uax29_15 code (map (pair tight) cs) s0 = Ok (os, s) -> dokays code hs cs s0 = true -> Forall Q cs ->
    desk_session uax29_15 code Q disk bench (cs0 ++ map (pair tight) cs) (os0 ++ os) s).
  { intros E O F. exact (X [] [] _ os s (desk_start _ _ _ _ _) E O F). }
  clear os s. induction cs as [|c cs IH]; intros cs0 os0 s0 os s S; cbn [map drun dokays].
  - intros [= <- <-] _ _. now rewrite !app_nil_r.
  - intros E O F. apply andb_prop in O as [O1 O2]. inversion_clear F as [|? ? F1 F2].
    destruct (dexec uax29_15 code tight c s0) as [[o s1]|] eqn:E1; [|discriminate]. cbn [bind] in E.
    destruct (drun uax29_15 code (map (pair tight) cs) s1) as [[os1 s2]|] eqn:E2; [|discriminate]. cbn [bind] in E. injection E as <- <-.
    pose proof (IH (cs0 ++ [(tight, c)]) (os0 ++ [o]) s1 os1 s2) as X. rewrite <- !app_assoc in X. apply X; try assumption.
    eapply desk_call; try eassumption; [exact tight_ok|]. now apply (dokb_ok code hs).
Qed.
Lemma reaches_desk code hs cs os s : (forall n r, closure_uses code n r -> r < hs n) ->
  run_desk code cs = Ok (os, s) -> dokays code hs cs bare = true -> desk_reached uax29_15 code s.
Proof.
  intros H E O. exists disk, dir, syntaxes, bench, (map (pair tight) cs), os. split; [exact bench_new|].
  apply (runs_desk code hs); try assumption. apply Forall_forall. exact (fun _ _ => I).
Qed.

(** What an example looks at: the texts of the open buffers, the place of the
    current one, and the length of the heap. *)
Definition texts (s : desk) : list (option text) :=
  map (fun b => match nth_error (d_heap s) (rb_data b) with
                | Some x => match gb_to_string (c_gap x) with Ok t => Some t | Panic => None end
                | None => None
                end) (d_lineup s).
