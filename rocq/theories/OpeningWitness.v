(** Sessions for the examples: numbers of new files that only grow are new. *)
From Coq Require Import String.
From Verif Require Import Base Utf8 Grapheme GraphemeProofs UnicodeTable Position GapBuffer Cursor PathModel Buffer BufferCalls
  Witness Token Workspace WorkspaceSpec WorkspaceWitness HardLinks HardWitness Saving Loading Renaming RenamingSpec RenamingProofs Opening OpeningSpec.
Open Scope list_scope.

Fixpoint rising (n : N) (l : list N) : option N :=
  match l with [] => Some n | x :: l => if (n <=? x)%N then rising (x + 1) l else None end.
Lemma rising_ok : forall l n m, rising n l = Some m -> (n <= m)%N /\ Forall (fun x => (n <= x < m)%N) l /\ NoDup l.
Proof.
  induction l as [|x l IH]; intros n m; cbn [rising].
  - intros [= <-]. repeat split; [lia|constructor..].
  - destruct (N.leb_spec n x) as [L|L]; [|discriminate]. intros H. destruct (IH _ _ H) as (H1 & H2 & H3). split; [lia|]. split.
    + constructor; [lia|]. eapply Forall_impl; [|exact H2]. cbn. lia.
    + constructor; [|assumption]. intros I. rewrite Forall_forall in H2. specialize (H2 x I). cbn in H2. lia.
Qed.

Definition below (h : hdisk) (n : N) : Prop := forall q i, hd_file h q = Some i -> (i < n)%N.
Lemma below_unused h n l : below h n -> Forall (fun x => (n <= x)%N) l -> Forall (unused h) l.
Proof. intros B F. eapply Forall_impl; [|exact F]. intros x L q H. apply B in H. cbn in L. lia. Qed.
Lemma load_below p m : forall es s, (forall h', ~ In (IChanged h') es) -> Forall (fun x => (x < m)%N) (new_files es) ->
  below (snd s) m -> below (snd (iloading p es s)) m.
Proof.
  induction es as [|e es IH]; intros [ph h] N F B; [exact B|].
  cbn [iloading fold_left]. change (fold_left _ es ?s) with (iloading p es s). change (e :: es) with ([e] ++ es) in F.
  rewrite new_files_app in F. apply Forall_app in F as [F1 F2].
  apply IH; [intros h' H; apply (N h'); now right|assumption|].
  destruct e as [| |n| | |q new bs|g]; try (rewrite istep_disk by exact I; exact B).
  - intros x i. cbn. inversion_clear F1. destruct (path_eqb x q); [intros [= <-]; assumption|]. apply B.
  - destruct (N g). now left.
Qed.
Lemma write_below h p bs new m : (new < m)%N -> below h m -> below (hd_write h p bs new) m.
Proof.
  intros L B. unfold hd_write. destruct (hd_target h p) as [q|]; [|exact B]. destruct (hd_file h q); [exact B|].
  intros x i. cbn. destruct (path_eqb x q); [intros [= <-]; assumption|]. apply B.
Qed.
Lemma save_below p data m : forall es s, Forall (fun x => (x < m)%N) (saved_files es) -> below (snd s) m -> below (snd (isaving p data es s)) m.
Proof.
  induction es as [|e es IH]; intros [ph h] F B; [exact B|].
  cbn [isaving fold_left]. change (fold_left _ es ?s) with (isaving p data es s). change (e :: es) with ([e] ++ es) in F.
  rewrite saved_files_app in F. apply Forall_app in F as [F1 F2]. apply IH; [assumption|]. cbn [snd] in B.
  destruct e as [new| |n| | |q new bs]; destruct ph as [|i pos|i|i]; cbn [isave_step]; try exact B;
    try (inversion_clear F1; intros x j; cbn; destruct (path_eqb x q); [intros [= <-]; assumption|apply B]).
  - inversion_clear F1. destruct (fs_creatable (seen h) p); [|exact B]. destruct (file_of _ p); now apply write_below.
  - destruct (firstn n (skipn pos data)); exact B.
Qed.

(** A session and what it needs. *)
Fixpoint iplay (cs : list icall) (w : workspace) (h : hdisk) : res (workspace * hdisk) :=
  match cs with
  | [] => Ok (w, h)
  | c :: cs => match iexec uax29_15 tight c w h with Ok (Some (_, w'), h') => iplay cs w' h' | _ => Panic end
  end.
Definition numbers (c : icall) : list N :=
  match c with IOpen _ es | IReload es => new_files es | ISave es => saved_files es | _ => [] end.
Definition proper (c : icall) : Prop :=
  match c with
  | ICall c => wcall_ok uax29_15 c /\ no_files_asked c
  | IOpen _ es | IReload es => forall h', ~ In (IChanged h') es
  | ISave _ => True
  | IDisk _ => False
  end.
Lemma rising_split : forall l1 l2 n m, rising n (l1 ++ l2) = Some m -> exists k, rising n l1 = Some k /\ rising k l2 = Some m.
Proof. induction l1 as [|x l1 IH]; intros l2 n m; cbn [app rising]; [eauto|]. destruct (N.leb n x); [apply IH|discriminate]. Qed.
Lemma iexec_below c w h o h1 k : proper c -> Forall (fun x => (x < k)%N) (numbers c) -> below h k ->
  iexec uax29_15 tight c w h = Ok (Some o, h1) -> below h1 k.
Proof.
  intros Hc K4 B' X. destruct c as [c|p es|es|es|g]; cbn [iexec numbers proper] in *.
  - destruct (wexec uax29_15 tight c w (seen h)) as [[[? ?] ?]|]; [|discriminate]. cbn [bind] in X. now injection X as _ <-.
  - unfold open_buffer_steps in X. destruct (select_buffer_by_path tight (seen h) w p) as [[[|] w2]|]; try discriminate; cbn [bind] in X.
    + now injection X as _ <-.
    + pose proof (load_below p k es (IAsking, h) Hc K4 B') as L. destruct (iloading p es (IAsking, h)) as [ph g]. cbn [snd] in L.
      destruct (iread_result ph) as [r|]; [|discriminate]. destruct (from_file_given tight r (seen g) p) as [[b|e]|]; try discriminate; cbn [bind] in X.
      * destruct (add_buffer tight w2 b); [|discriminate]. cbn [bind] in X. now injection X as _ <-.
      * now injection X as _ <-.
  - unfold on_current in X. destruct (w_current w) as [b|]; [|now injection X as _ <-]. unfold reload_steps in X.
    destruct (b_path b) as [p|]; [|now injection X as _ <-].
    pose proof (load_below p k es (IAsking, h) Hc K4 B') as L. destruct (iloading p es (IAsking, h)) as [ph g]. cbn [snd] in L.
    destruct (iread_result ph) as [r|]; [|discriminate]. destruct (reload_given uax29_15 tight r b) as [[r' b']|]; [|discriminate].
    cbn [bind] in X. now injection X as _ <-.
  - unfold on_current in X. destruct (w_current w) as [b|]; [|now injection X as _ <-]. unfold save_steps in X.
    destruct (b_path b) as [p|]; [|now injection X as _ <-]. destruct (buf_data b) as [t|]; [|discriminate]. cbn [bind] in X.
    pose proof (save_below p (enc t) k es (SOpening, h) K4 B') as L. destruct (isaving p (enc t) es (SOpening, h)) as [ph g]. cbn [snd] in L.
    destruct (ianswer ph) as [[u|e]|]; cbn [bind] in X; try discriminate; now injection X as _ <-.
  - easy.
Qed.
Lemma iplay_both h0 : forall cs w h n m w' h', renaming_session uax29_15 h0 w h -> below h n ->
  rising n (flat_map numbers cs) = Some m -> Forall proper cs -> iplay cs w h = Ok (w', h') ->
  renaming_session uax29_15 h0 w' h' /\ below h' m.
Proof.
  induction cs as [|c cs IH]; intros w h n m w' h' R B Hn Hp E; cbn [iplay] in E.
  { injection E as <- <-. injection Hn as <-. now split. }
  cbn [flat_map] in Hn. apply rising_split in Hn as (k & Hk & Hm). inversion_clear Hp as [|? ? Hc Hp'].
  destruct (rising_ok _ _ _ Hk) as (K1 & K2 & K3).
  assert (K4 : Forall (fun x => (x < k)%N) (numbers c)) by (eapply Forall_impl; [|exact K2]; cbn; lia).
  assert (K5 : Forall (unused h) (numbers c)) by (apply (below_unused h n); [assumption|eapply Forall_impl; [|exact K2]; cbn; lia]).
  assert (B' : below h k) by (intros q i H; apply B in H; lia).
  destruct (iexec uax29_15 tight c w h) as [[[[o w1]|] h1]|] eqn:X; try discriminate.
  apply (IH w1 h1 k m w' h'); try assumption.
  - apply (session_step uax29_15 h0 w h tight c o w1 h1 R tight_ok); [destruct c; cbn in *; tauto| |exact X].
    destruct c as [c|p es|es|es|g]; cbn in *; try tauto; repeat split; assumption.
  - eapply iexec_below; eassumption.
Qed.
Lemma iplay_session h0 cs w h n m w' h' : renaming_session uax29_15 h0 w h -> below h n ->
  rising n (flat_map numbers cs) = Some m -> Forall proper cs -> iplay cs w h = Ok (w', h') -> renaming_session uax29_15 h0 w' h'.
Proof. intros H1 H2 H3 H4 H5. now destruct (iplay_both h0 cs w h n m w' h' H1 H2 H3 H4 H5). Qed.
Lemma iplay_below h0 cs w h n m w' h' : renaming_session uax29_15 h0 w h -> below h n ->
  rising n (flat_map numbers cs) = Some m -> Forall proper cs -> iplay cs w h = Ok (w', h') -> below h' m.
Proof. intros H1 H2 H3 H4 H5. now destruct (iplay_both h0 cs w h n m w' h' H1 H2 H3 H4 H5). Qed.

(** The session of the examples.  A link is opened while its file is replaced, twice;
    another file is opened; the first is opened again under its own name while it is
    replaced; it is reloaded while it is replaced, edited and saved. *)
Definition replaced_often : list icall :=
  [IOpen link [IOpened; ITook 0; IRenamed a_rs 10%N (enc (txt "let")); ITook 9; IRenamed a_rs 11%N (enc (txt "mod")); ITook 9];
   IOpen b_txt [IOpened; ITook 9; ITook 9];
   IOpen a_rs [IOpened; IRenamed a_rs 12%N (enc (txt "use")); ITook 9; ITook 9];
   IReload [IRenamed a_rs 13%N (enc (txt "pub")); IOpened; ITook 0; IRenamed a_rs 14%N (enc (txt "mut")); ITook 9; ITook 9];
   ICall (WEdit (BInsert (txt "x"))); ISave [SRenamed a_rs 15%N (enc (txt "as")); SCreated 16%N; SWrote 1; SInterrupted; SWrote 9]].
