(** Properties C91 and C92: loads and saves while other programs replace files by
    renaming.  Statements only; the steps are in Renaming.v and what is said about
    them in RenamingSpec.v. *)
From Coq Require Import String.
From Verif Require Import Base Utf8 Grapheme Position GapBuffer PathModel Buffer BufferCalls HardLinks Saving Loading Witness Disks Renaming RenamingSpec
  RenamingProofs.

(** C91: while no file that the path has led to is written, though the path may lead
    to other files again and again, what is loaded is what the path read as at one
    moment of the call, unless the operating system reports an error. *)
Theorem C91_one_version : forall p es h ph h' r, iloading p es (IAsking, h) = (ph, h') -> never_rewritten p es h ->
  iread_result ph = Some r ->
  (exists es1 es2, es = (es1 ++ es2)%list /\ r = read_to_string (seen (disk_then p es1 h)) p) \/
  (r = None /\ (In INotOpened es \/ In IReadError es)).
Proof. exact one_version. Qed.
Print Assumptions C91_one_version.

(** So it is when other programs save by renaming. *)
Theorem C91_renames : forall p es h ph h' r, iloading p es (IAsking, h) = (ph, h') -> only_renames es h ->
  iread_result ph = Some r ->
  (exists es1 es2, es = (es1 ++ es2)%list /\ r = read_to_string (seen (disk_then p es1 h)) p) \/
  (r = None /\ (In INotOpened es \/ In IReadError es)).
Proof. exact one_version_of_renamed. Qed.
Print Assumptions C91_renames.

(** However often the file is replaced, the load ends, with the file that was there
    when it was opened. *)
Theorem C91_finishes : forall p h bs es, reads h p = Some bs -> only_renames es h -> Forall ireadable es ->
  List.length bs < List.length (filter is_iread es) -> fst (iloading p (IOpened :: es) (IAsking, h)) = ILoaded bs.
Proof. exact iload_finishes. Qed.
Print Assumptions C91_finishes.

(** Where names stay with their files, loads are those of C89. *)
Theorem C91_in_place : forall p es h ph h', in_place es h -> iloading p es (IAsking, h) = (ph, h') ->
  exists lph, loading p (map by_name es) (Asking, seen h) = (lph, seen h') /\ read_result lph = iread_result ph.
Proof. exact in_place_loads. Qed.
Print Assumptions C91_in_place.

(** "hello" is replaced by "HELLO" after two bytes, and by "bye" before the last read
    is answered; "hello" is loaded. *)
Example C91_example :
  let es := [IOpened; ITook 1; IRenamed the_path 1%N (enc (txt "HELLO")); ITook 0; IPaused; ITook 9;
             IRenamed the_path 2%N (enc (txt "bye")); ITook 9] in
  only_renames es (one_hfile (txt "hello")) /\
  iread_result (fst (iloading the_path es (IAsking, one_hfile (txt "hello")))) = Some (Some (txt "hello")) /\
  read_to_string (seen (disk_then the_path es (one_hfile (txt "hello")))) the_path = Some (txt "bye").
Proof.
  cbn zeta. split; [|split; vm_compute; reflexivity]. split; [|split].
  - intros h' H. cbn [In] in H. repeat destruct H as [H|H]; try discriminate; contradiction.
  - vm_compute. repeat constructor; cbn; intuition discriminate.
  - change (new_files _) with [1%N; 2%N]. repeat constructor; intros q; unfold one_hfile; cbn; now destruct (path_eqb q the_path).
Qed.
(** "xyz" is written over "hello" in place after two bytes. *)
Example C91_in_place_example :
  let es := [IOpened; ITook 1; IChanged (one_hfile (txt "xyz")); ITook 9; ITook 9] in
  in_place es (one_hfile (txt "hello")) /\
  iread_result (fst (iloading the_path es (IAsking, one_hfile (txt "hello")))) = Some (Some (txt "hez")).
Proof.
  cbn zeta. split; [|vm_compute; reflexivity]. split.
  - intros q n bs H. cbn [In] in H. repeat destruct H as [H|H]; try discriminate; contradiction.
  - intros h' H. cbn [In] in H. repeat destruct H as [H|H]; try discriminate; try contradiction. injection H as <-. now split.
Qed.

(** C92, partial: while other programs do nothing but rename new files, a save that
    succeeded is what the path reads as, or the file was replaced after it was opened
    and the path reads as what replaced it.  Missing: that it is never lost so, which
    is false. *)
Theorem C92_succeeded_partial : forall p data es h i h', new_numbers es h -> isaving p data es (SOpening, h) = (SSaved i, h') ->
  reads h' p = Some data \/
  exists es1 q new bs es2, es = (es1 ++ SRenamed q new bs :: es2)%list /\ hd_target h p = Some q /\
    has_opened (fst (isaving p data es1 (SOpening, h))) = true /\ reads h' p = Some bs.
Proof. exact save_succeeded. Qed.
Print Assumptions C92_succeeded_partial.

(** C92: at every moment of the save the path reads as it did before, as a beginning
    of what is saved, or as something another program put there: never a mixture. *)
Theorem C92_never_mixed : forall p data es h ph h', new_numbers es h -> isaving p data es (SOpening, h) = (ph, h') ->
  reads h' p = reads h p \/ (exists k, reads h' p = Some (firstn k data)) \/
  exists q new bs, In (SRenamed q new bs) es /\ hd_target h p = Some q /\ reads h' p = Some bs.
Proof. exact save_never_mixes. Qed.
Print Assumptions C92_never_mixed.

(** C92: if every write takes something, however little, however often it is
    interrupted and the file replaced, the save ends with Ok. *)
Theorem C92_finishes : forall p data es h new, fs_creatable (seen h) p = true -> Forall saccepting es ->
  List.length data <= List.length (filter is_swrite es) ->
  exists i, fst (isaving p data (SCreated new :: es) (SOpening, h)) = SSaved i.
Proof. exact isave_finishes. Qed.
Print Assumptions C92_finishes.

(** C92: if nobody renames, it is the save of C86. *)
Theorem C92_alone : forall p es h ph h' r b t, b_path b = Some p -> buf_data b = Ok t -> no_renames es ->
  isaving p (enc t) es (SOpening, h) = (ph, h') -> ianswer ph = Some r ->
  exists w new b' h'', hard_save h w new b = Ok (r, b', h'') /\ same_hdisk h' h''.
Proof. exact alone_save. Qed.
Print Assumptions C92_alone.

(** "new" is saved over "old", with one interruption, after another program has
    replaced "old" by "other". *)
Example C92_example :
  let es := [SRenamed the_path 1%N (enc (txt "other")); SCreated 2%N; SWrote 1; SInterrupted; SWrote 9] in
  new_numbers es (one_hfile (txt "old")) /\
  fst (isaving the_path (enc (txt "new")) es (SOpening, one_hfile (txt "old"))) = SSaved 1%N /\
  reads (snd (isaving the_path (enc (txt "new")) es (SOpening, one_hfile (txt "old")))) the_path = Some (enc (txt "new")).
Proof.
  cbn zeta. split; [|split; vm_compute; reflexivity]. split.
  - vm_compute. repeat constructor; cbn; intuition discriminate.
  - change (saved_files _) with [1%N; 2%N]. repeat constructor; intros q; unfold one_hfile; cbn; now destruct (path_eqb q the_path).
Qed.

(** C92, full statement: false.  Another program replaces the file by "other" while
    "new" is written: the save succeeds, the path reads as "other", and at no moment
    of the call did it read as "new". *)
Theorem C92_lost_refuted : exists es h i, new_numbers es h /\ fst (isaving the_path (enc (txt "new")) es (SOpening, h)) = SSaved i /\
  reads (snd (isaving the_path (enc (txt "new")) es (SOpening, h))) the_path = Some (enc (txt "other")) /\
  forall es1 es2, es = (es1 ++ es2)%list -> reads (snd (isaving the_path (enc (txt "new")) es1 (SOpening, h))) the_path <> Some (enc (txt "new")).
Proof.
  exists [SCreated 1%N; SWrote 2; SRenamed the_path 2%N (enc (txt "other")); SWrote 9], (one_hfile (txt "old")), 0%N.
  split; [|split; [vm_compute; reflexivity|split; [vm_compute; reflexivity|]]].
  - split; [vm_compute; repeat constructor; cbn; intuition discriminate|].
    change (saved_files _) with [1%N; 2%N]. repeat constructor; intros q; unfold one_hfile; cbn; now destruct (path_eqb q the_path).
  - intros es1 es2 H.
    destruct es1 as [|? es1]; [vm_compute; discriminate|injection H as <- H].
    destruct es1 as [|? es1]; [vm_compute; discriminate|injection H as <- H].
    destruct es1 as [|? es1]; [vm_compute; discriminate|injection H as <- H].
    destruct es1 as [|? es1]; [vm_compute; discriminate|injection H as <- H].
    destruct es1; [vm_compute; discriminate|discriminate].
Qed.
Print Assumptions C92_lost_refuted.
