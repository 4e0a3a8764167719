(** Properties C81 and C82: saves step by step.  Statements only; the steps are in
    Saving.v and what is said about them in SavingSpec.v. *)
From Coq Require Import String.
From Verif Require Import Base Utf8 Grapheme UnicodeTable Position GapBuffer Cursor PathModel Buffer
  Spec BufferCalls BufferSimple Witness Disks BufferFacts Saving SavingSpec SavingProofs TwoSavesProofs.

(** C81: at every moment of a save, whatever the operating system answers and
    whatever other programs do to other files, the disk is what others left, but for
    the one file that the save has open; that is the file its path led to when it
    was opened, and holds a beginning of the bytes to write, or, once the save has
    succeeded, all of them. *)
Theorem C81_any_moment : forall p data es f ph f', saving p data es (Opening, f) = (ph, f') ->
  undisturbed p data es (Opening, f) ->
  match opened ph with
  | None => f' = left_by_others es f
  | Some q =>
    (exists es1 es2, es = es1 ++ Created :: es2 /\ fs_target (left_by_others es1 f) p = Some q) /\
    (exists k, k <= List.length data /\ fs_node f' q = Some (Regular (firstn k data)) /\
       (ph = Saved q -> k = List.length data)) /\
    (forall x, x <> q -> fs_node f' x = fs_node (left_by_others es f) x) /\
    fs_target f' = fs_target (left_by_others es f)
  end.
Proof. exact any_moment. Qed.
Print Assumptions C81_any_moment.

(** After a crash at any moment of a save of [t] the disk is the old one; or
    reading the file, under any of its names, gives the beginning of [t] that is
    as long as what was written, and nothing if that ends inside a character.
    Other files are as they were.  A save that succeeded is complete. *)
Theorem C81_after_crash : forall brk b f p t es ph f', reachable_buffer brk b f -> b_path b = Some p -> buf_data b = Ok t ->
  saving p (enc t) es (Opening, f) = (ph, f') -> alone es ->
  f' = f \/
  exists k, (forall p' u, same_file f p' p -> (read_to_string f' p' = Some u <-> beginning u t /\ List.length (enc u) = k)) /\
    (forall p', ~ same_file f p' p -> fs_read f' p' = fs_read f p') /\
    (forall r, answer ph = Some (ROk r) -> k = List.length (enc t)).
Proof. exact after_crash. Qed.
Print Assumptions C81_after_crash.

(** Step by step, in pieces of any size, a save gives the answers and the disks
    that it gives in one step, and no others: what C26, C27 and C64 say of saves
    in one step holds of saves in many. *)
Theorem C81_steps_are_saves : forall b p t es f ph f' r, b_path b = Some p -> buf_data b = Ok t ->
  saving p (enc t) es (Opening, f) = (ph, f') -> alone es -> answer ph = Some r ->
  exists w b' f'', buf_save f w b = Ok (r, b', f'') /\ same_disk f' f''.
Proof. exact steps_are_saves. Qed.
Print Assumptions C81_steps_are_saves.
Theorem C81_saves_are_steps : forall b p t w f r b' f'', b_path b = Some p -> buf_data b = Ok t ->
  (forall k, w = WriteFails k -> k < List.length (enc t)) -> buf_save f w b = Ok (r, b', f'') ->
  exists es ph f', alone es /\ saving p (enc t) es (Opening, f) = (ph, f') /\ answer ph = Some r /\ same_disk f' f''.
Proof. exact saves_are_steps. Qed.
Print Assumptions C81_saves_are_steps.

(** If the file can be opened and every write takes something, however little and
    however often it is interrupted, the save succeeds. *)
Theorem C81_finishes : forall p data es f, fs_creatable f p = true -> Forall accepting es ->
  List.length data <= List.length (filter is_write es) ->
  exists ph f', saving p data (Created :: es) (Opening, f) = (ph, f') /\ answer ph = Some (ROk tt).
Proof. exact finishes. Qed.
Print Assumptions C81_finishes.

(** "éx" is saved over "ab", one byte at a time, with an interruption: the file is
    empty, then cannot be read, then has "é", then "éx". *)
Example C81_example : exists b f, reachable_buffer uax29_15 b f /\ b_path b = Some the_path /\
  buf_data b = Ok (e_acute ++ txt "x") /\
  map (fun n => let '(ph, f') := saving the_path (enc (e_acute ++ txt "x"))
                  (firstn n [Created; Wrote 1; Interrupted; Wrote 1; Wrote 9]) (Opening, f) in
                (answer ph, read_to_string f' the_path)) [0; 1; 2; 3; 4; 5]
  = [(None, Some (txt "ab")); (None, Some []); (None, None); (None, None); (None, Some e_acute);
     (Some (ROk tt), Some (e_acute ++ txt "x"))].
Proof.
  destruct (from_disk [BReplace (e_acute ++ txt "x")] (one_file (txt "ab"))) as [[[os b] f]|] eqn:E; [|vm_compute in E; discriminate].
  pose proof (from_disk_reachable _ _ _ _ _ E eq_refl) as R. exists b, f. split; [exact R|].
  vm_compute in E. injection E as _ <- <-. split; [reflexivity|]. split; [vm_compute; reflexivity|vm_compute; reflexivity].
Qed.

(** And another program rewrites another file in between. *)
Definition the_other : path := [RootDir; Normal [99%N]].
Example C81_disturbed_example :
  let others := holding (holding (one_file (txt "ab")) the_path (enc (txt "x"))) the_other (enc (txt "o")) in
  let es := [Created; Wrote 1; Other others; Wrote 1] in
  undisturbed the_path (enc (txt "xyz")) es (Opening, one_file (txt "ab")) /\
  let '(ph, f') := saving the_path (enc (txt "xyz")) es (Opening, one_file (txt "ab")) in
  ph = Writing the_path 2 /\ fs_read f' the_path = Some (enc (txt "xy")) /\ fs_read f' the_other = Some (enc (txt "o")).
Proof. cbn zeta. split; [repeat split; vm_compute; exact I || reflexivity|]. vm_compute. repeat split. Qed.

(** C82, partial: when two programs save to one file and both saves succeed, in
    whatever way their steps alternate, the file is as long as one of the two, or
    between; each byte is the one that one of them has there, or, past the end of
    the shorter one, zero; and if both save the same text, that is what the file
    holds.  If one starts after the other is over, the file holds its text.
    Missing: that the file always holds one of the two texts. *)
Theorem C82_two_saves_partial : forall p p' a b es f q f' q1 q2, only_two es ->
  fs_target f p = Some q -> fs_target f p' = Some q ->
  saving_both p p' a b es (Opening, Opening, f) = (Saved q1, Saved q2, f') ->
  exists c, fs_node f' q = Some (Regular c) /\
    Nat.min (List.length a) (List.length b) <= List.length c <= Nat.max (List.length a) (List.length b) /\
    (forall i x, nth_error c i = Some x ->
       nth_error a i = Some x \/ nth_error b i = Some x \/ (x = 0%N /\ Nat.min (List.length a) (List.length b) <= i)) /\
    (a = b -> c = a).
Proof. exact both_saved. Qed.
Print Assumptions C82_two_saves_partial.
(** The file holds one of the two texts, or is as long as the longer one. *)
Theorem C82_length_partial : forall p p' a b es f q f' q1 q2, only_two es ->
  fs_target f p = Some q -> fs_target f p' = Some q ->
  saving_both p p' a b es (Opening, Opening, f) = (Saved q1, Saved q2, f') ->
  exists c, fs_node f' q = Some (Regular c) /\
    (c = a \/ c = b \/ List.length c = Nat.max (List.length a) (List.length b)).
Proof. exact saved_length. Qed.
Print Assumptions C82_length_partial.

(** If both had opened the file before either wrote, it is as long as the longer
    text, and each byte is the one that one of them has there: no zeros. *)
Theorem C82_together_partial : forall p p' a b es f q f' q1 q2, only_two es ->
  fs_target f p = Some q -> fs_target f p' = Some q ->
  saving_both p p' a b ((true, Created) :: (false, Created) :: es) (Opening, Opening, f) = (Saved q1, Saved q2, f') ->
  exists c, fs_node f' q = Some (Regular c) /\
    List.length c = Nat.max (List.length a) (List.length b) /\
    (forall i x, nth_error c i = Some x -> nth_error a i = Some x \/ nth_error b i = Some x).
Proof. exact opened_together. Qed.
Print Assumptions C82_together_partial.
Example C82_together_example : exists f',
  saving_both the_path the_link (enc (txt "hello")) (enc (txt "ab"))
    ((true, Created) :: (false, Created) :: [(true, Wrote 1); (false, Wrote 9); (true, Wrote 9)]) (Opening, Opening, one_file (txt "x"))
  = (Saved the_path, Saved the_path, f') /\ fs_read f' the_path = Some (enc (txt "aello")).
Proof. eexists. split; vm_compute; reflexivity. Qed.

Theorem C82_one_after_the_other_partial : forall p p' a b es1 es2 f q ph1 q2 f', alone es1 -> alone es2 ->
  fs_target f p' = Some q ->
  saving_both p p' a b (map (pair true) es1 ++ map (pair false) es2) (Opening, Opening, f) = (ph1, Saved q2, f') ->
  fs_node f' q = Some (Regular b).
Proof. exact one_after_the_other. Qed.
Print Assumptions C82_one_after_the_other_partial.
Example C82_example : exists f',
  saving_both the_path the_link (enc (txt "xyz")) (enc (txt "uv"))
    (map (pair true) [Created; Wrote 2; Wrote 1] ++ map (pair false) [Created; Wrote 2]) (Opening, Opening, one_file (txt "ab"))
  = (Saved the_path, Saved the_path, f') /\ fs_read f' the_path = Some (enc (txt "uv")).
Proof. eexists. split; vm_compute; reflexivity. Qed.

(** C82, full statement: false.  Both saves succeed and the file holds a mixture;
    it can even hold zeros that neither text has. *)
Theorem C82_two_saves_refuted : exists es f f',
  only_two es /\ fs_target f the_path = Some the_path /\ fs_target f the_link = Some the_path /\
  saving_both the_path the_link (enc (txt "hello")) (enc (txt "ab")) es (Opening, Opening, f)
  = (Saved the_path, Saved the_path, f') /\ fs_read f' the_path = Some (enc (txt "abllo")).
Proof.
  exists [(true, Created); (false, Created); (true, Wrote 5); (false, Wrote 2)], (one_file (txt "x")). eexists.
  split; [intros k f H; cbn in H; intuition discriminate|]. split; [vm_compute; reflexivity|]. split; [vm_compute; reflexivity|].
  split; vm_compute; reflexivity.
Qed.
Print Assumptions C82_two_saves_refuted.
Theorem C82_zeros_refuted : exists es f f',
  only_two es /\ fs_target f the_path = Some the_path /\ fs_target f the_link = Some the_path /\
  saving_both the_path the_link (enc (txt "hello")) (enc (txt "a")) es (Opening, Opening, f)
  = (Saved the_path, Saved the_path, f') /\ fs_read f' the_path = Some [97; 0; 0; 108; 111]%N.
Proof.
  exists [(true, Created); (true, Wrote 3); (false, Created); (false, Wrote 1); (true, Wrote 2)], (one_file (txt "x")). eexists.
  split; [intros k f H; cbn in H; intuition discriminate|]. split; [vm_compute; reflexivity|]. split; [vm_compute; reflexivity|].
  split; vm_compute; reflexivity.
Qed.
Print Assumptions C82_zeros_refuted.
