(** Proofs: memory that a gap buffer asks for. *)
From Verif Require Import Base Utf8 Utf8Proofs Grapheme Position GapBuffer GapBufferProofs Spec Calls
  TextProofs HalvesProofs GrowthSpec.

Lemma std_alloc_ok al : std_growth al -> alloc_ok al.
Proof. intros H len n. specialize (H len n). lia. Qed.

Lemma rep_capacity g a b : rep g a b -> capacity g = vlen (gb_data g).
Proof. intros (_ & _ & G & E & _). unfold capacity, vcap, vlen. rewrite E. cbn. lia. Qed.

(** What one call does to the capacity. *)
Lemma exec_capacity brk al c g o g' a b : alloc_ok al ->
  match c with GInsert d _ => valid_text d | _ => True end -> rep g a b ->
  gexec brk al c g = Ok (o, g') ->
  (exists a' b', rep g' a' b') /\
  capacity g' = capacity g + match c with
    | GInsert d _ => if gap_length g <? blen d then length (al (capacity g) (blen d)) else 0
    | _ => 0
    end.
Proof.
  intros Ha V R E.
  assert (R' : exists a' b', rep g' a' b').
  { apply (reach_run brk [(al, c)] g a b [o] g'); [repeat constructor; assumption..|exact R|].
    cbn [grun]. rewrite E. reflexivity. }
  split; [exact R'|]. destruct R' as (a' & b' & R'). rewrite (rep_capacity _ _ _ R), (rep_capacity _ _ _ R').
  destruct c as [d p|p q|p q|p|]; cbn [gexec] in E.
  - destruct (gb_insert brk al g d p) as [g1|] eqn:Ei; [|discriminate]. injection E as _ <-.
    rewrite (insert_vlen _ _ _ _ _ _ _ _ Ha R Ei). destruct (_ <? _); lia.
  - destruct (gb_delete brk g (range_new p q)) as [g1|] eqn:Ei; [|discriminate]. injection E as _ <-.
    rewrite (delete_vlen _ _ _ _ Ei). lia.
  - destruct (gb_read brk g (range_new p q)); [|discriminate]. injection E as _ <-. lia.
  - destruct (in_bounds brk g p); [|discriminate]. injection E as _ <-. lia.
  - destruct (gb_to_string g); [|discriminate]. injection E as _ <-. lia.
Qed.

Definition fine (cs : list (allocator * gcall)) : Prop :=
  Forall (fun ac => std_growth (fst ac)) cs /\
  Forall (fun ac => match snd ac with GInsert d _ => valid_text d | _ => True end) cs.

Lemma run_capacity brk cs : fine cs -> forall g a b os g', rep g a b -> grun brk cs g = Ok (os, g') ->
  capacity g <= capacity g' /\
  (reallocations brk cs g = 0 -> capacity g' = capacity g) /\
  (0 < reallocations brk cs g -> 2 ^ (reallocations brk cs g - 1) * Nat.max 8 (2 * capacity g) <= capacity g') /\
  capacity g' <= Nat.max (capacity g) (Nat.max 8 (2 * longest brk cs g)).
Proof.
  intros [F1 F2]. revert F1 F2.
  induction cs as [|[al c] cs IH]; intros F1 F2 g a b os g' R E; cbn [grun reallocations longest] in *.
  - injection E as _ <-. cbn. repeat split; lia.
  - inversion_clear F1 as [|? ? Hg F1']. inversion_clear F2 as [|? ? Hv F2']. cbn [fst snd] in *.
    destruct (gexec brk al c g) as [[o g1]|] eqn:E1; [|discriminate]. cbn [bind] in E.
    destruct (grun brk cs g1) as [[os1 g2]|] eqn:E2; [|discriminate]. injection E as _ <-.
    destruct (exec_capacity brk al c g o g1 a b (std_alloc_ok _ Hg) Hv R E1) as ((a1 & b1 & R1) & C1).
    destruct (IH F1' F2' g1 a1 b1 os1 g2 R1 E2) as (I1 & I2 & I3 & I4).
    set (k := reallocations brk cs g1) in *. set (M := longest brk cs g1) in *.
    assert (S : (capacity g1 = capacity g) \/
      (capacity g1 <> capacity g /\ Nat.max 8 (2 * capacity g) <= capacity g1 /\
       exists d p t, c = GInsert d p /\ gb_to_string g = Ok t /\
         capacity g1 <= Nat.max 8 (2 * (length (enc t) + length (enc d))))).
    { destruct c as [d p|p q|p q|p|]; try (left; lia).
      destruct (Nat.ltb_spec (gap_length g) (blen d)) as [L|L]; [|left; lia]. right.
      specialize (Hg (capacity g) (blen d)). split; [lia|]. split; [lia|].
      exists d, p, (a ++ b). split; [reflexivity|]. split; [apply (to_string_ok _ _ _ R)|].
      fold (blen (a ++ b)) (blen d). rewrite blen_app.
      pose proof (rep_vlen _ _ _ R) as Hl. rewrite <- (rep_capacity _ _ _ R) in Hl. lia. }
    destruct (Nat.eqb_spec (capacity g1) (capacity g)) as [Eq|Ne].
    + rewrite Eq in *. cbn [Nat.add]. split; [lia|]. split; [exact I2|]. split; [exact I3|].
      clear - I4. destruct c as [d ?|? ?|? ?|?|]; try destruct (gb_to_string g); lia.
    + destruct S as [S|(_ & S1 & d & p & t & -> & Et & S2)]; [congruence|]. rewrite Et.
      split; [lia|]. split; [discriminate|]. split.
      * intros _. replace (1 + k - 1) with k by lia. destruct k as [|k']; [rewrite Nat.pow_0_r; lia|].
        specialize (I3 ltac:(lia)). replace (S k' - 1) with k' in I3 by lia. rewrite Nat.pow_succ_r'.
        eapply Nat.le_trans; [|exact I3]. rewrite (Nat.mul_comm 2), <- Nat.mul_assoc. apply Nat.mul_le_mono_l. lia.
      * lia.
Qed.

(** The number of reallocations is logarithmic. *)
Lemma run_reallocations brk cs g os g' : fine cs -> reachable brk g -> grun brk cs g = Ok (os, g') ->
  reallocations brk cs g <= 1 \/ 2 ^ (reallocations brk cs g + 1) <= longest brk cs g.
Proof.
  intros F R E. apply reachable_rep in R as (a & b & R).
  destruct (run_capacity brk cs F g a b os g' R E) as (_ & _ & H1 & H2).
  set (n := reallocations brk cs g) in *. destruct (le_lt_dec n 1) as [L|L]; [now left|right].
  specialize (H1 ltac:(lia)). assert (P : 2 ^ (n + 1) = 4 * 2 ^ (n - 1)).
  { replace (n + 1) with (S (S (n - 1))) by lia. rewrite !Nat.pow_succ_r'. lia. }
  assert (Q : 2 <= 2 ^ (n - 1)) by (replace (n - 1) with (S (n - 2)) by lia; rewrite Nat.pow_succ_r'; pose proof (Nat.pow_nonzero 2 (n - 2)); lia).
  set (x := 2 ^ (n - 1)) in *. rewrite P.
  assert (x * 8 <= x * Nat.max 8 (2 * capacity g)) by (apply Nat.mul_le_mono_l; lia).
  assert (2 * (2 * capacity g) <= x * Nat.max 8 (2 * capacity g)) by (apply Nat.mul_le_mono; lia).
  destruct (capacity g) as [|cap] eqn:Ec; lia.
Qed.

Lemma few_reallocations brk cs g os g' :
  Forall (fun ac => std_growth (fst ac)) cs ->
  Forall (fun ac => match snd ac with GInsert d _ => valid_text d | _ => True end) cs ->
  reachable brk g -> grun brk cs g = Ok (os, g') ->
  reallocations brk cs g <= 1 \/ 2 ^ (reallocations brk cs g + 1) <= longest brk cs g.
Proof. intros F1 F2. now apply run_reallocations. Qed.

Lemma memory_bound brk cs g os g' :
  Forall (fun ac => std_growth (fst ac)) cs ->
  Forall (fun ac => match snd ac with GInsert d _ => valid_text d | _ => True end) cs ->
  reachable brk g -> grun brk cs g = Ok (os, g') ->
  capacity g <= capacity g' <= Nat.max (capacity g) (Nat.max 8 (2 * longest brk cs g)).
Proof.
  intros F1 F2 R E. apply reachable_rep in R as (a & b & R).
  destruct (run_capacity brk cs (conj F1 F2) g a b os g' R E) as (H1 & _ & _ & H2). now split.
Qed.

Lemma reallocates_exactly_when brk al c g o g' t :
  alloc_ok al -> match c with GInsert d _ => valid_text d | _ => True end ->
  reachable brk g -> gb_to_string g = Ok t -> gexec brk al c g = Ok (o, g') ->
  (capacity g' <> capacity g <->
   exists d p, c = GInsert d p /\ capacity g < length (enc t) + length (enc d)).
Proof.
  intros Ha V R Et E. apply reachable_rep in R as (a & b & R).
  destruct (exec_capacity brk al c g o g' a b Ha V R E) as [_ C].
  pose proof (rep_vlen _ _ _ R) as Hl. rewrite <- (rep_capacity _ _ _ R) in Hl.
  assert (t = a ++ b) as -> by (rewrite (to_string_ok _ _ _ R) in Et; congruence).
  fold (blen (a ++ b)). rewrite blen_app. rewrite C. split.
  - destruct c as [d p|? ?|? ?|?|]; intros H; try (exfalso; lia).
    destruct (Nat.ltb_spec (gap_length g) (blen d)); [|lia]. exists d, p. split; [reflexivity|]. fold (blen d). lia.
  - intros (d & p & -> & H). fold (blen d) in H. destruct (Nat.ltb_spec (gap_length g) (blen d)); [|lia].
    specialize (Ha (capacity g) (blen d)). lia.
Qed.

(** An allocator for the examples. *)
Definition grow_as_std (len additional : nat) : list byte :=
  repeat 0%N (Nat.max 8 (Nat.max (2 * len) (len + additional)) - len).
Lemma grow_as_std_ok : std_growth grow_as_std.
Proof. intros len n. unfold grow_as_std. rewrite repeat_length. lia. Qed.
