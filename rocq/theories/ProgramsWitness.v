(** Two programs for the examples. *)
From Coq Require Import String.
From Verif Require Import Base Utf8 Utf8Proofs Grapheme GraphemeProofs UnicodeTable Position GapBuffer Cursor PathModel Buffer BufferCalls Witness Token
  Workspace WorkspaceSpec WorkspaceProps WorkspaceWitness Programs ProgramsSpec ProgramsProofs.
Open Scope list_scope.

Definition turn_of (k : nat) (c : wcall) : pcall := (k, (tight, c)).
(** Two programs open the file "fn", one by a link; the first types "x". *)
Definition both_open : list pcall :=
  [turn_of 0 (WOpen a_rs); turn_of 1 (WOpen link); turn_of 0 (WEdit (BInsert (txt "x")))].
(** The second types "y", and opens other files. *)
Definition unaware : list pcall :=
  [turn_of 1 (WEdit (BInsert (txt "y"))); turn_of 0 WNext; turn_of 1 (WOpen b_txt); turn_of 1 (WOpen a_rs)].

(** The texts of the current buffers, and whether they are modified. *)
Definition texts (ws : list workspace) : list (option (res text * bool)) :=
  map (fun w => match w_current w with Some b => Some (buf_data b, buf_modified b) | None => None end) ws.

Definition paths_of (ws : list workspace) : list (option path) :=
  map (fun w => match w_current w with Some b => b_path b | None => None end) ws.
Lemma selected_by ws k p t m : nth_error (texts ws) k = Some (Some (Ok t, m)) -> nth_error (paths_of ws) k = Some (Some p) ->
  exists b, has_selected ws k b p t.
Proof.
  unfold texts, paths_of. rewrite !nth_error_map. destruct (nth_error ws k) as [w|] eqn:E; [|discriminate]. cbn.
  destruct (w_current w) as [b|] eqn:C; [|discriminate]. intros [= H1 H2] [= H3]. exists b, w. auto.
Qed.

Definition writes_nothing (c : pcall) : bool :=
  match snd (snd c) with WDisk _ | WEdit (BDisk _) | WEdit (BSave _) => false | _ => true end.
Lemma quiet_calls brk p : forall cs ws f, forallb writes_nothing cs = true -> nobody_writes brk p cs ws f.
Proof.
  induction cs as [|[k [al c]] cs IH]; intros ws f H; [exact I|]. cbn [forallb] in H. apply andb_prop in H as [H1 H2].
  split; [|intros; now apply IH]. intros w _. unfold writes_nothing in H1. cbn [fst snd] in H1. destruct c as [b|q| | | |c| |q|ss|g]; cbn; try tauto; try discriminate.
  destruct c; try tauto; discriminate.
Qed.
Lemma both_ok : Forall (pcall_ok uax29_15) (both_open ++ unaware).
Proof.
  repeat (constructor; [split; [apply tight_ok|try exact I; cbn; now apply valid_textb_ok]|]). constructor.
Qed.
