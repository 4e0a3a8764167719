(** Property C72: reallocations are few and memory is bounded.
    Specification: GrowthSpec.v. *)
From Coq Require Import String.
From Verif Require Import Base Utf8 Utf8Proofs Grapheme UnicodeTable Position GapBuffer Spec Calls GrowthSpec
  GrowthProofs Witness.

(** C72: however often a buffer is edited, the number of reallocations is
    logarithmic in the length of the longest text it is asked to hold. *)
Theorem C72_few_reallocations : forall brk cs g os g',
  Forall (fun ac => std_growth (fst ac)) cs ->
  Forall (fun ac => match snd ac with GInsert d _ => valid_text d | _ => True end) cs ->
  reachable brk g -> grun brk cs g = Ok (os, g') ->
  reallocations brk cs g <= 1 \/ 2 ^ (reallocations brk cs g + 1) <= longest brk cs g.
Proof. exact few_reallocations. Qed.
Print Assumptions C72_few_reallocations.

(** C72: and the memory allocated is at most twice that length. *)
Theorem C72_memory : forall brk cs g os g',
  Forall (fun ac => std_growth (fst ac)) cs ->
  Forall (fun ac => match snd ac with GInsert d _ => valid_text d | _ => True end) cs ->
  reachable brk g -> grun brk cs g = Ok (os, g') ->
  capacity g <= capacity g' <= Nat.max (capacity g) (Nat.max 8 (2 * longest brk cs g)).
Proof. exact memory_bound. Qed.
Print Assumptions C72_memory.

(** C72: a call reallocates exactly if it inserts more bytes than are free. *)
Theorem C72_reallocates_exactly_when : forall brk al c g o g' t,
  alloc_ok al -> match c with GInsert d _ => valid_text d | _ => True end ->
  reachable brk g -> gb_to_string g = Ok t -> gexec brk al c g = Ok (o, g') ->
  (capacity g' <> capacity g <->
   exists d p, c = GInsert d p /\ capacity g < List.length (enc t) + List.length (enc d)).
Proof. exact reallocates_exactly_when. Qed.
Print Assumptions C72_reallocates_exactly_when.

(** A hundred insertions of one character. *)
Example C72_example : std_growth grow_as_std /\
  (exists g0 os g', gb_new tight [] = Ok g0 /\ reachable uax29_15 g0 /\
     let cs := repeat (grow_as_std, GInsert (txt "x") (Pos 0 0)) 100 in
     grun uax29_15 cs g0 = Ok (os, g') /\
     reallocations uax29_15 cs g0 = 5 /\ longest uax29_15 cs g0 = 100 /\ capacity g' = 128).
Proof.
  split; [exact grow_as_std_ok|].
  destruct (HalvesProofs.reachable_new uax29_15 tight [] ltac:(constructor)) as (g0 & E & R & _).
  assert (g0 = GB (Vec [] []) 0 0) as -> by (vm_compute in E; now injection E as <-).
  do 3 eexists. split; [exact E|]. split; [exact R|].
  split; [vm_compute; reflexivity|]. split; [vm_compute; reflexivity|]. split; vm_compute; reflexivity.
Qed.
