(** Property C85: saves and power failures.  Statements only; what reaches the
    device when is in Power.v. *)
From Coq Require Import String.
From Verif Require Import Base Utf8 Grapheme UnicodeTable Position GapBuffer Cursor PathModel Buffer
  Spec BufferCalls BufferSimple Witness Disks Saving SavingSpec Power PowerProofs.

(** C85, full statement: once a save has returned [Ok], the file holds the text
    after a power failure too.  False, see below.

    Partial: whenever the power fails, each file is left as the device had it or as
    programs saw it before the save, but for the file at the path, which can also
    hold a beginning of the bytes to write. *)
Theorem C85_after_power_failure_partial : forall p data evs f g ph f' g', calm evs ->
  powered p data evs (Opening, f, g) = (ph, f', g') -> forall x,
  fs_node g' x = fs_node g x \/ fs_node g' x = fs_node f x \/
  (fs_target f p = Some x /\ exists k, k <= List.length data /\ fs_node g' x = Some (Regular (firstn k data))).
Proof. exact after_power_failure. Qed.
Print Assumptions C85_after_power_failure_partial.

(** Partial: the file holds all of the text once the operating system has taken it
    to the device after the save returned [Ok]. *)
Theorem C85_on_the_device_partial : forall p data evs1 evs2 f g q f1 g1 ph f' g', calm (evs1 ++ evs2) ->
  powered p data evs1 (Opening, f, g) = (Saved q, f1, g1) ->
  powered p data (evs1 ++ Flush q :: evs2) (Opening, f, g) = (ph, f', g') ->
  fs_node g' q = Some (Regular data).
Proof. exact flushed_in_time. Qed.
Print Assumptions C85_on_the_device_partial.
Example C85_example : exists f1 g1 f' g',
  calm ([Does Created; Flush the_path; Does (Wrote 9)] ++ [Does Interrupted; Flush the_path]) /\
  powered the_link (enc (txt "hello")) [Does Created; Flush the_path; Does (Wrote 9)] (Opening, one_file (txt "old"), one_file (txt "older"))
  = (Saved the_path, f1, g1) /\ fs_read g1 the_path = Some [] /\
  powered the_link (enc (txt "hello")) ([Does Created; Flush the_path; Does (Wrote 9)] ++ Flush the_path :: [Does Interrupted; Flush the_path])
    (Opening, one_file (txt "old"), one_file (txt "older")) = (Saved the_path, f', g') /\
  fs_read g' the_path = Some (enc (txt "hello")).
Proof.
  do 4 eexists. split; [intros f H; cbn in H; intuition discriminate|]. split; [vm_compute; reflexivity|].
  split; [vm_compute; reflexivity|]. split; [vm_compute; reflexivity|]. vm_compute; reflexivity.
Qed.

(** C85, full statement: false.  The save has returned [Ok], programs see the new
    text, and after a power failure the file holds the old text; or it is empty, and
    both texts are lost. *)
Theorem C85_survives_refuted : exists evs f f' g',
  calm evs /\ powered the_path (enc (txt "hello")) evs (Opening, f, f) = (Saved the_path, f', g') /\
  fs_read f' the_path = Some (enc (txt "hello")) /\ fs_read g' the_path = Some (enc (txt "old")).
Proof.
  exists [Does Created; Does (Wrote 5)], (one_file (txt "old")). do 2 eexists.
  split; [intros f H; cbn in H; intuition discriminate|]. split; [vm_compute; reflexivity|]. split; vm_compute; reflexivity.
Qed.
Print Assumptions C85_survives_refuted.
Theorem C85_both_lost_refuted : exists evs f f' g',
  calm evs /\ powered the_path (enc (txt "hello")) evs (Opening, f, f) = (Saved the_path, f', g') /\
  fs_read f the_path = Some (enc (txt "old")) /\
  fs_read f' the_path = Some (enc (txt "hello")) /\ fs_read g' the_path = Some [].
Proof.
  exists [Does Created; Flush the_path; Does (Wrote 5)], (one_file (txt "old")). do 2 eexists.
  split; [intros f H; cbn in H; intuition discriminate|]. split; [vm_compute; reflexivity|].
  split; [vm_compute; reflexivity|]. split; vm_compute; reflexivity.
Qed.
Print Assumptions C85_both_lost_refuted.
