(** Property C97: power failures in the middle of a file.  Statements only; what
    reaches the device when is in Torn.v, the words are in TornSpec.v. *)
From Coq Require Import String.
From Verif Require Import Base Utf8 Grapheme UnicodeTable Position GapBuffer Cursor PathModel Buffer
  Spec BufferCalls BufferSimple Witness Disks Saving SavingSpec Power Torn TornSpec TornProofs.

(** C97, full statement: after a power failure the file holds the old bytes or a
    beginning of the new ones.  False, see below.

    Partial: whenever the power fails, each byte of each file is zero, or one that
    it had there, or in the saved file the new one at this place. *)
Theorem C97_each_byte_partial : forall p data evs f g ph f' g', undisturbed_torn evs ->
  torn p data evs (Opening, f, g) = (ph, f', g') -> forall x, left_over p data f g g' x.
Proof. exact torn_left. Qed.
Print Assumptions C97_each_byte_partial.

(** Partial: the file holds exactly the new bytes once the operating system has
    taken its length and then, in any order and any pieces, all its bytes to the
    device after the save returned [Ok]. *)
Theorem C97_in_time_partial : forall p data evs1 evs2 evs3 f g q f1 g1 ph f' g',
  undisturbed_torn (evs1 ++ evs2 ++ Size q :: evs3) ->
  torn p data evs1 (Opening, f, g) = (Saved q, f1, g1) -> cover q (List.length data) evs3 ->
  torn p data (evs1 ++ evs2 ++ Size q :: evs3) (Opening, f, g) = (ph, f', g') ->
  fs_node g' q = Some (Regular data).
Proof. exact torn_in_time. Qed.
Print Assumptions C97_in_time_partial.
Example C97_example : exists f1 g1 f' g',
  undisturbed_torn ([Now Created; Now (Wrote 2); Size the_path; Now (Wrote 9)] ++ [Bytes the_path 0 1] ++
    Size the_path :: [Bytes the_path 3 8; Bytes the_path 0 2; Bytes the_path 1 4]) /\
  torn the_link (enc (txt "hello")) [Now Created; Now (Wrote 2); Size the_path; Now (Wrote 9)]
    (Opening, one_file (txt "old"), one_file (txt "older")) = (Saved the_path, f1, g1) /\
  fs_read g1 the_path = Some (enc (txt "ol")) /\
  cover the_path (List.length (enc (txt "hello"))) [Bytes the_path 3 8; Bytes the_path 0 2; Bytes the_path 1 4] /\
  torn the_link (enc (txt "hello")) ([Now Created; Now (Wrote 2); Size the_path; Now (Wrote 9)] ++ [Bytes the_path 0 1] ++
      Size the_path :: [Bytes the_path 3 8; Bytes the_path 0 2; Bytes the_path 1 4])
    (Opening, one_file (txt "old"), one_file (txt "older")) = (Saved the_path, f', g') /\
  fs_read g' the_path = Some (enc (txt "hello")).
Proof.
  do 4 eexists. split; [intros f H; cbn in H; intuition discriminate|]. split; [vm_compute; reflexivity|].
  split; [vm_compute; reflexivity|]. split.
  { intros i L. change (List.length (enc (txt "hello"))) with 5 in L.
    assert (i < 2 \/ 1 <= i < 4 \/ 3 <= i < 8) as [H|[H|H]] by lia.
    - exists 0, 2. cbn. split; [auto|lia].
    - exists 1, 4. cbn. split; [auto|lia].
    - exists 3, 8. cbn. split; [auto|lia]. }
  split; [vm_compute; reflexivity|]. vm_compute; reflexivity.
Qed.

(** C97: taking the length and then all bytes is what C85 calls a flush. *)
Theorem C97_whole : forall f g q seen, fs_node f q = Some (Regular seen) -> forall x,
  fs_node (take_bytes f (take_size f g q) q 0 (List.length seen)) x = fs_node (flush f g q) x.
Proof. exact whole_flush. Qed.
Print Assumptions C97_whole.
Example C97_whole_example : fs_node (one_file (txt "new")) the_path = Some (Regular (enc (txt "new"))).
Proof. reflexivity. Qed.

(** C97: how wrong the full statement is.  For every text, every file it can be
    saved to and every choice of places, the save returns [Ok], programs see the new
    text, and a power failure can leave the new bytes at the chosen places with the
    old ones, or zeros, at all others. *)
Theorem C97_any_mixture : forall p data f q (mask : nat -> bool) (keep : bool), fs_creatable f p = true -> fs_target f p = Some q ->
  exists evs f' g', undisturbed_torn evs /\ torn p data evs (Opening, f, f) = (Saved q, f', g') /\
    fs_node f' q = Some (Regular data) /\
    fs_node g' q = Some (Regular (mixture mask data (if keep then held f q else []))).
Proof. exact any_mixture. Qed.
Print Assumptions C97_any_mixture.
(** C97: in particular the file can be left with the right length and nothing but
    zeros, and the next program opens it without an error as an unmodified buffer. *)
Theorem C97_reads_zeros : forall al p data f q, fs_creatable f p = true -> fs_target f p = Some q ->
  exists evs f' g' b, undisturbed_torn evs /\ torn p data evs (Opening, f, f) = (Saved q, f', g') /\
    fs_node f' q = Some (Regular data) /\
    from_file al g' p = Ok (ROk b) /\ buf_data b = Ok (repeat 0%N (List.length data)) /\ buf_modified b = false.
Proof. exact reads_zeros. Qed.
Print Assumptions C97_reads_zeros.
Example C97_mixture_example : fs_creatable (one_file (txt "older")) the_link = true /\
  fs_target (one_file (txt "older")) the_link = Some the_path /\
  mixture Nat.even (enc (txt "hello")) (held (one_file (txt "older")) the_path) = enc (txt "hlleo").
Proof. vm_compute. auto. Qed.

(** C97, full statement: false.  The file holds neither the old bytes nor a
    beginning of the new ones; or it cannot be opened any more. *)
Theorem C97_old_or_new_refuted : exists evs f f' g',
  undisturbed_torn evs /\ torn the_path (enc (txt "hello")) evs (Opening, f, f) = (Saved the_path, f', g') /\
  fs_read f the_path = Some (enc (txt "older")) /\ fs_read f' the_path = Some (enc (txt "hello")) /\
  fs_read g' the_path = Some (enc (txt "olllo")).
Proof.
  exists [Now Created; Now (Wrote 5); Size the_path; Bytes the_path 2 5], (one_file (txt "older")). do 2 eexists.
  split; [intros f H; cbn in H; intuition discriminate|]. split; [vm_compute; reflexivity|].
  split; [vm_compute; reflexivity|]. split; vm_compute; reflexivity.
Qed.
Print Assumptions C97_old_or_new_refuted.
Theorem C97_opens_refuted : exists evs f f' g',
  undisturbed_torn evs /\ torn the_path (enc [233%N]) evs (Opening, f, f) = (Saved the_path, f', g') /\
  fs_read f the_path = Some (enc (txt "older")) /\ fs_read f' the_path = Some (enc [233%N]) /\
  from_file tight g' the_path = Ok (RErr IoError).
Proof.
  exists [Now Created; Now (Wrote 5); Size the_path; Bytes the_path 0 1], (one_file (txt "older")). do 2 eexists.
  split; [intros f H; cbn in H; intuition discriminate|]. split; [vm_compute; reflexivity|].
  split; [vm_compute; reflexivity|]. split; vm_compute; reflexivity.
Qed.
Print Assumptions C97_opens_refuted.
