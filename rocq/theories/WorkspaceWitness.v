(** Concrete workspaces for the examples. *)
From Coq Require Import String.
From Verif Require Import Base Utf8 Utf8Proofs Grapheme GraphemeProofs UnicodeTable Position
  GapBuffer GapBufferProofs Cursor PathModel Buffer Spec CursorSpec Calls CursorCalls TextProofs
  UaxProofs HalvesProofs TextFacts GapProps CursorProofs BufferCalls Timeline OpProofs TimelineProofs
  AnyTextProofs BufferProps BufferIoProps BufferSimple BufferFacts Witness Token Workspace
  WorkspaceSpec WorkspaceProofs WorkspaceProps.

Definition name (s : string) : comp := Normal (txt s).
Arguments name _%string_scope.
Definition dir : path := [RootDir; name "w"].
Definition a_rs : path := [RootDir; name "w"; name "a.rs"].
Definition b_txt : path := [RootDir; name "w"; name "sub"; name "b.txt"].
Definition other : path := [RootDir; name "etc"; name "c"].

Definition link : path := [RootDir; name "etc"; name "link"].

(** Two files in the workspace, one outside, and a link to the first; relative
    paths are taken from [dir]. *)
Definition disk : fsys :=
  FS (fun p => if path_eqb p link then Some a_rs else
               match p with RootDir :: _ => Some p | _ => Some (dir ++ p) end)
     (fun p => if path_eqb p a_rs then Some (Regular (enc (txt "fn"))) else
               if path_eqb p b_txt then Some (Regular (enc (txt "b" ++ nl))) else
               if path_eqb p other then Some (Regular (enc e_acute)) else
               if path_eqb p dir then Some Special else None).
Definition syntaxes : syntax_set :=
  SS (fun e => if list_N_eqb e (txt "rs") then Some 1%N else if list_N_eqb e (txt "c") then Some 2%N else None) 0%N.

Definition wplay (cs : list wcall) : res (list wout * workspace * fsys) :=
  match ws_new disk dir (Some syntaxes) with
  | ROk w0 => wrun uax29_15 (map (pair tight) cs) w0 disk
  | RErr _ => Panic
  end.

(** A buffer made by hand. *)
Definition scratch : res buffer :=
  match from_new [BInsert (txt "new")] no_files with Ok (_, b, _) => Ok b | Panic => Panic end.
Lemma scratch_reachable b : scratch = Ok b -> exists f, reachable_buffer uax29_15 b f.
Proof.
  unfold scratch. destruct (from_new _ no_files) as [[[os b'] f]|] eqn:E; [|discriminate].
  intros X. injection X as <-. exists f. exact (from_new_reachable _ _ _ _ _ E eq_refl).
Qed.

Lemma wplay_reachable P cs os w f : wplay cs = Ok (os, w, f) ->
  Forall (fun c => wcall_ok uax29_15 c /\ P c) cs -> reachable_workspace uax29_15 P w f.
Proof.
  unfold wplay. destruct (ws_new disk dir (Some syntaxes)) as [w0|] eqn:E; [|discriminate]. intros H F.
  exists disk, dir, syntaxes, w0, (map (pair tight) cs), os. split; [assumption|]. split; [|assumption].
  apply Forall_map. eapply Forall_impl; [|exact F]. cbn [fst snd]. intros c [H1 H2]. split; [apply tight_ok|now split].
Qed.

Lemma disk_settles : links_settle disk.
Proof.
  intros p q. cbn [fs_target disk]. unfold path_eqb. destruct (path_eq_dec p link) as [->|Hp].
  - intros [= <-]. vm_compute. reflexivity.
  - destruct p as [|[| | |x] p]; intros [= <-]; try reflexivity.
    now destruct (path_eq_dec (RootDir :: p) link).
Qed.

(** A buffer with another name of a file as its path. *)
Definition linked : res buffer :=
  match from_new [BInsert (txt "new"); BSetPath (Some link)] no_files with Ok (_, b, _) => Ok b | Panic => Panic end.
Lemma linked_reachable b : linked = Ok b -> exists f, reachable_buffer uax29_15 b f.
Proof.
  unfold linked. destruct (from_new _ no_files) as [[[os b'] f]|] eqn:E; [|discriminate].
  intros X. injection X as <-. exists f. exact (from_new_reachable _ _ _ _ _ E eq_refl).
Qed.
