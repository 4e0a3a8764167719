(** Property C89: loads step by step, also while the file is being saved.
    Statements only; the steps are in Loading.v and what is said about them in
    LoadingSpec.v. *)
From Coq Require Import String.
From Verif Require Import Base Utf8 Grapheme UnicodeTable Position GapBuffer Cursor PathModel Buffer
  Spec BufferCalls BufferSimple Witness Disks BufferFacts Saving SavingSpec Loading LoadingSpec LoadingProofs.

(** C89: if the path leads to the same file with the same contents throughout, then
    loading step by step, in pieces of any size, with any interruptions, gives what
    loading in one step gives, unless the operating system reports an error. *)
Theorem C89_steps_are_loads : forall p es f ph f' r al, loading p es (Asking, f) = (ph, f') ->
  leave_alone p es f -> read_result ph = Some r ->
  (from_file_given al r f' p = from_file al f p /\
   forall brk b, b_path b = Some p -> reload_given brk al r b = buf_reload brk al f b) \/
  (r = None /\ (In NotOpened es \/ In ReadError es)).
Proof. exact alone_load. Qed.
Print Assumptions C89_steps_are_loads.

(** If every read gives something while there is something, however little and
    however often it is interrupted, the load ends with the whole file. *)
Theorem C89_finishes : forall p f bs es, fs_read f p = Some bs -> Forall readable es ->
  List.length bs < List.length (filter is_read es) -> loading p (Opened :: es) (Asking, f) = (Loaded bs, f).
Proof. exact load_finishes. Qed.
Print Assumptions C89_finishes.

(** "éx" is loaded one byte at a time, while another program writes another file. *)
Example C89_example :
  let others := holding (one_file (e_acute ++ txt "x")) [RootDir; Normal [99%N]] (enc (txt "o")) in
  let es := [Opened; Took 0; Paused; Took 0; Elsewhere others; Took 0; Took 0] in
  leave_alone the_link es (one_file (e_acute ++ txt "x")) /\
  read_result (fst (loading the_link es (Asking, one_file (e_acute ++ txt "x")))) = Some (Some (e_acute ++ txt "x")) /\
  Forall readable [Took 0; Paused; Took 0; Took 0; Took 0].
Proof.
  cbn zeta. split; [|split; [vm_compute; reflexivity|repeat constructor]].
  intros g [H|[H|[H|[H|[H|[H|[H|[]]]]]]]]; try discriminate. injection H as <-. split; vm_compute; reflexivity.
Qed.

(** C89, partial: while other programs do nothing to the file but add to its end,
    what is loaded is what the file held at one moment of the call. *)
Theorem C89_growing_partial : forall p es f ph f' r, loading p es (Asking, f) = (ph, f') ->
  only_append p es f -> read_result ph = Some r ->
  (exists es1 es2, es = es1 ++ es2 /\ r = read_to_string (disk_after p es1 f) p) \/
  (r = None /\ (In NotOpened es \/ In ReadError es)).
Proof. exact one_moment. Qed.
Print Assumptions C89_growing_partial.
(** "ab" becomes "abcd" after "a" was read: "abcd" is loaded. *)
Example C89_growing_example :
  let es := [Opened; Took 0; Elsewhere (one_file (txt "abcd")); Took 9; Took 9] in
  only_append the_path es (one_file (txt "ab")) /\
  read_result (fst (loading the_path es (Asking, one_file (txt "ab")))) = Some (Some (txt "abcd")).
Proof.
  cbn zeta. split; [|vm_compute; reflexivity]. intros es1 es2 es3 H.
  repeat (destruct es1 as [|? es1]; cbn [app] in H; [|try discriminate H; injection H as <- H]).
  all: repeat (destruct es2 as [|? es2]; cbn [app] in H; [|try discriminate H; injection H as <- H]).
  all: split; [vm_compute; reflexivity|].
  all: intros bs; vm_compute; intros [= <-]; first [exists []; reflexivity|exists [99%N; 100%N]; reflexivity].
Qed.

(** Whatever other programs do to the disk, each byte that is loaded is one that
    the file which was opened held, at the same place, at some moment of the call;
    and at some moment of the reading that file was no longer than what was loaded. *)
Theorem C89_each_byte : forall p es f bs f', loading p es (Asking, f) = (Loaded bs, f') -> exists q,
  (forall i x, nth_error bs i = Some x ->
     exists es1 es2, es = es1 ++ es2 /\ nth_error (held (disk_after p es1 f) q) i = Some x) /\
  exists es1 es2 got, es = es1 ++ es2 /\ fst (loading p es1 (Asking, f)) = Reading q got /\
    List.length (held (disk_after p es1 f) q) <= List.length bs.
Proof. exact each_byte. Qed.
Print Assumptions C89_each_byte.

(** C89, partial: while a save of [u] to the file runs, and whatever becomes of it,
    a buffer that [from_file] gives holds a beginning of the old text's bytes and
    goes on where that ends with what was written of [u]; it is not modified.
    Missing: that one of the two is empty. *)
Theorem C89_with_save_partial : forall p p' es f q a u bs ph f' al b, only_they es ->
  fs_target f p = Some q -> fs_target f p' = Some q -> fs_node f q = Some (Regular a) ->
  loading_saving p p' (enc u) es (Asking, Opening, f) = (Loaded bs, ph, f') ->
  from_file_given al (decode_strict bs) f' p = Ok (ROk b) ->
  exists t k m, buf_data b = Ok t /\ k <= List.length a /\ m <= List.length (enc u) /\ enc t = mixture a (enc u) k m /\
    buf_modified b = false /\ b_path b = Some q.
Proof. exact mixture_buffer. Qed.
Print Assumptions C89_with_save_partial.
Theorem C89_reload_with_save_partial : forall brk b0 f p' es q p a u bs ph f' al b, reachable_buffer brk b0 f -> alloc_ok al ->
  b_path b0 = Some p -> only_they es ->
  fs_target f p = Some q -> fs_target f p' = Some q -> fs_node f q = Some (Regular a) ->
  loading_saving p p' (enc u) es (Asking, Opening, f) = (Loaded bs, ph, f') ->
  reload_given brk al (decode_strict bs) b0 = Ok (ROk tt, b) ->
  exists t k m, buf_data b = Ok t /\ k <= List.length a /\ m <= List.length (enc u) /\ enc t = mixture a (enc u) k m /\
    buf_modified b = false /\ b_path b = b_path b0.
Proof. exact mixture_reload. Qed.
Print Assumptions C89_reload_with_save_partial.

(** And each such mixture can be what is loaded, while the save succeeds. *)
Theorem C89_any_mixture : forall p p' f q a b k m, fs_target f p = Some q -> fs_target f p' = Some q ->
  fs_node f q = Some (Regular a) -> k <= List.length a -> m <= List.length b -> exists es x f', only_they es /\
    loading_saving p p' b es (Asking, Opening, f) = (Loaded (mixture a b k m), Saved x, f').
Proof. exact any_mixture. Qed.
Print Assumptions C89_any_mixture.

(** C89: a load that is over before the save opens the file gives the old bytes.  If
    the save succeeds before the load is over, nothing is missing at the end: from
    where the beginning of the old bytes ends, the new ones are complete; and a load
    that starts then gives the new bytes. *)
Theorem C89_load_first : forall p p' es f q a b bs ph f', only_they es -> fs_target f p = Some q -> fs_target f p' = Some q ->
  fs_node f q = Some (Regular a) -> loading_saving p p' b es (Asking, Opening, f) = (Loaded bs, ph, f') ->
  opened ph = None -> bs = a.
Proof. exact load_first. Qed.
Print Assumptions C89_load_first.
Theorem C89_save_first : forall p p' es1 es2 f q a b lph x f1 bs ph f', only_they es1 -> only_they es2 ->
  fs_target f p = Some q -> fs_target f p' = Some q -> fs_node f q = Some (Regular a) ->
  loading_saving p p' b es1 (Asking, Opening, f) = (lph, Saved x, f1) ->
  (forall c, lph <> Loaded c) -> loading_saving p p' b es2 (lph, Saved x, f1) = (Loaded bs, ph, f') ->
  (exists k, k <= List.length a /\ bs = firstn k a ++ skipn k b) /\ (lph = Asking -> bs = b).
Proof. exact save_first. Qed.
Print Assumptions C89_save_first.
Example C89_order_example : exists f1 f2 f3,
  loading_saving the_path the_link (enc (txt "HELLO")) [inl Opened; inl (Took 9); inl (Took 9)] (Asking, Opening, one_file (txt "hello"))
  = (Loaded (enc (txt "hello")), Opening, f1) /\
  loading_saving the_path the_link (enc (txt "HELLO")) [inr Created; inr (Wrote 9)] (Asking, Opening, one_file (txt "hello"))
  = (Asking, Saved the_path, f2) /\
  loading_saving the_path the_link (enc (txt "HELLO")) [inl Opened; inl (Took 9); inl (Took 9)] (Asking, Saved the_path, f2)
  = (Loaded (enc (txt "HELLO")), Saved the_path, f3).
Proof. do 3 eexists. repeat split; vm_compute; reflexivity. Qed.

(** C89, full statement: false.  "HELLO" is saved over "hello world" during a load;
    both calls succeed and the buffer, which is not modified, holds "helLO", which
    the file held at no moment: not at first and not after any of the steps. *)
Theorem C89_one_moment_refuted : exists es f, only_they es /\ read_to_string f the_path = Some (txt "hello world") /\
  fs_target f the_link = Some the_path /\
  (exists ph f' b, loading_saving the_path the_link (enc (txt "HELLO")) es (Asking, Opening, f) = (ph, Saved the_path, f') /\
    read_result ph = Some (Some (txt "helLO")) /\
    from_file_given tight (Some (txt "helLO")) f' the_path = Ok (ROk b) /\
    buf_data b = Ok (txt "helLO") /\ buf_modified b = false) /\
  forall es1 es2, es = es1 ++ es2 ->
    read_to_string (snd (loading_saving the_path the_link (enc (txt "HELLO")) es1 (Asking, Opening, f))) the_path
    <> Some (txt "helLO").
Proof.
  exists [inl Opened; inl (Took 2); inr Created; inr (Wrote 9); inl (Took 9); inl (Took 9)], (one_file (txt "hello world")).
  split; [intros g; split; intros H; cbn in H; intuition discriminate|].
  split; [vm_compute; reflexivity|]. split; [vm_compute; reflexivity|]. split.
  - do 3 eexists. split; [vm_compute; reflexivity|]. split; [vm_compute; reflexivity|]. split; [vm_compute; reflexivity|].
    split; vm_compute; reflexivity.
  - intros es1 es2 H. do 6 (destruct es1 as [|? es1]; [vm_compute; discriminate|injection H as <- H]).
    destruct es1; [vm_compute; discriminate|discriminate].
Qed.
Print Assumptions C89_one_moment_refuted.
