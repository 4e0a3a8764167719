(** Concrete programs with several buffers, used to show that hypotheses can be met. *)
From Coq Require Import String.
From Verif Require Import Base Utf8 Grapheme UnicodeTable Position GapBuffer Cursor PathModel Buffer
  Spec Calls CursorSpec CursorCalls BufferCalls Witness Disks Shared SharedSpec World WorldSpec.

(** Closures with handles on the storages 0 and 1.  Closure 0 notes the text of
    storage 0; the others also put a "!" at the start of storage 1. *)
Definition demo : closures := fun n p log =>
  let look := Use tight 0 GToString (fun o => Note (match o with OText t => t | _ => [] end)) in
  match n with
  | 0 => look
  | _ => Use tight 1 (GInsert (txt "!") (Pos 0 0)) (fun _ => look)
  end.
(** Closures that only look. *)
Definition lookers : closures := fun n p log => Use tight n GToString (fun o => Note (match o with OText t => t | _ => [] end)).

Lemma demo_ok : closures_ok demo.
Proof.
  intros [|n] p log; repeat (constructor; try (intros; exact tight_ok); try exact I; intros; try now apply valid_textb_ok).
Qed.
Lemma lookers_ok : closures_ok lookers.
Proof. intros n p log. repeat (constructor; try exact tight_ok; try exact I; intros). Qed.
Lemma demo_uses n r : closure_uses demo n r -> r < 2.
Proof.
  intros (p & log & U). assert (L : uses (demo 0 p log) r -> r < 2).
  { intros X. inversion X as [|? ? ? ? ? ? Y]; subst; [lia|]. inversion Y. }
  destruct n; [now apply L|]. inversion U as [|? ? ? ? ? ? Y]; subst; [lia|now apply L].
Qed.
Lemma lookers_uses n r : closure_uses lookers n r -> r = n.
Proof. intros (p & log & U). inversion U as [|? ? ? ? ? ? Y]; subst; [reflexivity|inversion Y]. Qed.
Lemma lookers_look : only_look lookers.
Proof.
  intros n r (p & log & U). inversion U as [? ? ? ? X|? ? ? ? ? ? Y]; subst; [exact X|inversion Y].
Qed.

(** Conditions on calls, computed; [hs] says which storages closures have handles on. *)
Definition okb (hs : nat -> nat) (w : world) (c : ncall) : bool :=
  match c with
  | NBuffer _ (BSetCallback true) => false
  | NBuffer _ (BInsert d) | NBuffer _ (BReplace d) => valid_textb d
  | NCallback _ n => hs n <=? List.length (wo_heap w)
  | NStorage t _ => valid_textb t
  | NGap _ (GInsert d _) => valid_textb d
  | _ => true
  end.
Definition plainb (c : ncall) : bool :=
  match c with
  | NAssign _ _ | NHold _ _ | NGap _ (GInsert _ _) | NGap _ (GDelete _ _) => false
  | _ => true
  end.
Fixpoint okays (code : closures) (hs : nat -> nat) (cs : list ncall) (w : world) : bool :=
  match cs with
  | [] => true
  | c :: cs' => okb hs w c &&
    match nexec uax29_15 code tight c w with Ok (_, w') => okays code hs cs' w' | Panic => false end
  end.
Definition run_world (code : closures) (f : fsys) (cs : list ncall) : res (list nout * world) :=
  nrun uax29_15 code (map (pair tight) cs) (World [] [] [] [] f).

Lemma okb_ok code hs w c : (forall n r, closure_uses code n r -> r < hs n) -> okb hs w c = true -> ncall_ok code w c.
Proof.
  intros H. destruct c; cbn; try exact (fun _ => I).
  - destruct c; cbn; try exact (fun _ => I); try apply valid_textb_ok. now destruct on.
  - intros E r U. apply H in U. apply Nat.leb_le in E. lia.
  - apply valid_textb_ok.
  - destruct c; cbn; try exact (fun _ => I). apply valid_textb_ok.
Qed.
Lemma plainb_ok c : plainb c = true -> plain c.
Proof. destruct c; cbn; try easy. destruct c; cbn; easy. Qed.

Lemma runs_world code hs Q f cs os w : (forall n r, closure_uses code n r -> r < hs n) ->
  run_world code f cs = Ok (os, w) -> okays code hs cs (World [] [] [] [] f) = true -> Forall Q cs ->
  world_session uax29_15 code Q f (map (pair tight) cs) os w.
Proof.
  intros H. unfold run_world. enough (X : forall cs0 os0 w0 os w, world_session uax29_15 code Q f cs0 os0 w0 ->
    nrun uax29_15 code (map (pair tight) cs) w0 = Ok (os, w) -> okays code hs cs w0 = true -> Forall Q cs ->
    world_session uax29_15 code Q f (cs0 ++ map (pair tight) cs) (os0 ++ os) w).
  { intros E O F. exact (X [] [] _ os w (world_start _ _ _ _) E O F). }
  clear os w. induction cs as [|c cs IH]; intros cs0 os0 w0 os w S; cbn.
  - intros [= <- <-] _ _. now rewrite !app_nil_r.
  - intros E O F. apply andb_prop in O as [O1 O2]. inversion_clear F as [|? ? F1 F2].
    destruct (nexec uax29_15 code tight c w0) as [[o w1]|] eqn:E1; [|discriminate]. cbn in E.
    destruct (nrun uax29_15 code (map (pair tight) cs) w1) as [[os1 w2]|] eqn:E2; [|discriminate]. cbn in E. injection E as <- <-.
    pose proof (IH (cs0 ++ [(tight, c)]) (os0 ++ [o]) w1 os1 w2) as X. rewrite <- !app_assoc in X. apply X; try assumption.
    eapply world_call; try eassumption; [exact tight_ok|]. now apply (okb_ok code hs).
Qed.
