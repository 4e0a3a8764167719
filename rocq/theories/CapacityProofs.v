(** Proofs: when the capacity of a buffer can be told from its answers. *)
From Verif Require Import Base Utf8 Utf8Proofs Grapheme GraphemeProofs Position GapBuffer GapBufferProofs Spec Calls
  TextProofs UaxProofs HalvesProofs GrowthSpec CopiesSpec CopiesProofs PlaceProofs MarkSpec MarkProofs ExactProofs CapacitySpec.

Definition as_marked (m m' : marked) : Prop := ahead m = ahead m' /\ behind m = behind m'.
Lemma locate_as brk m m' p : as_marked m m' -> locate brk m p = locate brk m' p.
Proof. intros [A B]. unfold locate. now rewrite A, B. Qed.
Lemma whole_as m m' : as_marked m m' -> whole m = whole m'.
Proof. intros [A B]. unfold whole. now rewrite A, B. Qed.

Lemma fits_room d m al : fits d m -> make_room al d m = m.
Proof. intros F. unfold make_room. unfold fits in F. rewrite (proj2 (Nat.ltb_ge _ _)) by lia. reflexivity. Qed.
Lemma grows_room d m al : ~ fits d m -> as_marked (make_room al d m) (Marked (whole m) [] 0).
Proof. intros F. unfold make_room. unfold fits in F. rewrite (proj2 (Nat.ltb_lt _ _)) by lia. now split. Qed.
Lemma fits_dec d m : fits d m \/ ~ fits d m.
Proof. unfold fits. lia. Qed.

Definition after (brk : brk_rule) (d : text) (p : position) (m : marked) : marked :=
  match locate brk m p with Some (a, b) => Marked (a ++ d) b 0 | None => m end.
Lemma insert_after brk al d p m : as_marked (m_insert brk al d p m) (after brk d p (make_room al d m)).
Proof. unfold m_insert, after. destruct (locate brk (make_room al d m) p) as [[a b]|]; now split. Qed.
Lemma after_as brk d p m m' : as_marked m m' -> as_marked (after brk d p m) (after brk d p m').
Proof. intros A. unfold after. rewrite (locate_as brk m m' p A). destruct (locate brk m' p) as [[a b]|]; [now split|exact A]. Qed.
Lemma as_sym m m' : as_marked m m' -> as_marked m' m.
Proof. intros [A B]. now split. Qed.
Lemma as_trans m m' m'' : as_marked m m' -> as_marked m' m'' -> as_marked m m''.
Proof. unfold as_marked. intros [A B] [C D]. now rewrite A, B. Qed.

Lemma located brk m p a b : locate brk m p = Some (a, b) -> a ++ b = whole m.
Proof. apply locate_text. Qed.
Lemma cut_same (d a b a' b' : text) : d <> [] -> a ++ b = a' ++ b' -> a ++ d = a' ++ d -> b = b' -> (a, b) = (a', b').
Proof. intros _ _ A ->. apply app_inv_tail in A. now subst. Qed.

Lemma mixed brk d p m : d <> [] ->
  (as_marked (after brk d p m) (after brk d p (Marked (whole m) [] 0)) <-> found_alike brk (ahead m) (behind m) p).
Proof.
  intros D. unfold found_alike, after, as_marked.
  assert (L : locate brk (Marked (ahead m) (behind m) 0) p = locate brk m p) by reflexivity. rewrite L. fold (whole m).
  destruct (locate brk m p) as [[a b]|] eqn:E1; destruct (locate brk (Marked (whole m) [] 0) p) as [[a' b']|] eqn:E2;
    cbn [ahead behind].
  - split; [intros [A ->]|now intros [= -> ->]]. apply app_inv_tail in A. now subst.
  - split; [|easy]. intros [A B]. apply located in E1. apply (f_equal (@length char)) in A. rewrite <- E1, !app_length in A.
    subst b. destruct d; [now destruct D|cbn in A; lia].
  - split; [|easy]. intros [A B]. apply located in E2. unfold whole in E2 at 1. cbn [ahead behind] in E2. rewrite app_nil_r in E2.
    unfold whole in E2. rewrite A, B in E2. apply (f_equal (@length char)) in E2. rewrite !app_length in E2.
    destruct d; [now destruct D|cbn in E2; lia].
  - split; [now intros [_ H]|]. intros H. unfold whole. rewrite H. now rewrite app_nil_r.
Qed.

Lemma insert_exactly brk al al' d p m m' : d <> [] -> as_marked m m' ->
  (as_marked (m_insert brk al d p m) (m_insert brk al' d p m') <-> insert_alike brk d p m m').
Proof.
  intros D A.
  assert (X : as_marked (m_insert brk al d p m) (m_insert brk al' d p m') <->
              as_marked (after brk d p (make_room al d m)) (after brk d p (make_room al' d m'))).
  { pose proof (insert_after brk al d p m) as I. pose proof (insert_after brk al' d p m') as I'. split; intros H.
    - eapply as_trans; [|exact I']. eapply as_trans; [|exact H]. now apply as_sym.
    - eapply as_trans; [exact I|]. eapply as_trans; [exact H|]. now apply as_sym. }
  rewrite X. clear X. unfold insert_alike. assert (F : found_alike brk (ahead m') (behind m') p <-> found_alike brk (ahead m) (behind m) p).
  { destruct A as [-> ->]. reflexivity. }
  destruct (fits_dec d m) as [H|H], (fits_dec d m') as [H'|H'].
  - rewrite !fits_room by assumption. split; [intros _; left; tauto|intros _; now apply after_as].
  - rewrite (fits_room _ _ _ H). rewrite <- (mixed brk d p m D). pose proof (grows_room d m' al' H') as G.
    rewrite <- (whole_as _ _ A) in G. split.
    + intros K. right. eapply as_trans; [exact K|]. now apply after_as.
    + intros [K|K]; [tauto|]. eapply as_trans; [exact K|]. apply after_as. now apply as_sym.
  - rewrite (fits_room _ _ _ H'). rewrite <- F, <- (mixed brk d p m' D). pose proof (grows_room d m al H) as G.
    rewrite (whole_as _ _ A) in G. split.
    + intros K. right. apply as_sym. eapply as_trans; [|exact K]. apply after_as. now apply as_sym.
    + intros [K|K]; [tauto|]. apply as_sym. eapply as_trans; [exact K|]. apply after_as. now apply as_sym.
  - split; [intros _; left; tauto|]. intros _. apply after_as. eapply as_trans; [now apply grows_room|].
    rewrite (whole_as _ _ A). apply as_sym. now apply grows_room.
Qed.
(** An empty insert changes at most the room. *)
Lemma empty_fits m : fits [] m.
Proof. unfold fits. cbn. lia. Qed.
Lemma insert_as brk al al' d p m m' : as_marked m m' -> insert_alike brk d p m m' ->
  as_marked (m_insert brk al d p m) (m_insert brk al' d p m').
Proof.
  intros A I. destruct d as [|x d]; [|now apply insert_exactly].
  eapply as_trans; [apply insert_after|]. eapply as_trans; [|apply as_sym, insert_after].
  rewrite !fits_room by apply empty_fits. now apply after_as.
Qed.
Lemma delete_as brk p q m m' : as_marked m m' -> as_marked (m_delete brk p q m) (m_delete brk p q m').
Proof.
  intros A. unfold m_delete. rewrite (locate_as brk m m' _ A). destruct (locate brk m' (first_of p q)) as [[a b]|]; [|exact A].
  rewrite !(locate_as brk (Marked a b (room m)) (Marked a b (room m'))) by now split. now split.
Qed.

Lemma calls_alike brk cs : forall als m m', length als = length cs -> as_marked m m' -> alike brk cs als m m' ->
  fst (m_calls brk cs m) = fst (m_calls brk (combine als (map snd cs)) m') /\
  as_marked (snd (m_calls brk cs m)) (snd (m_calls brk (combine als (map snd cs)) m')).
Proof.
  induction cs as [|[al c] cs IH]; intros [|al' als] m m' L A K; try discriminate; [now split|].
  injection L as L. destruct K as [K1 K2]. cbn [map snd combine m_calls].
  assert (S : fst (m_call brk al c m) = fst (m_call brk al' c m') /\ as_marked (snd (m_call brk al c m)) (snd (m_call brk al' c m'))).
  { destruct c as [d p|p q|p q|p|]; cbn [m_call fst snd].
    - split; [reflexivity|now apply insert_as].
    - split; [reflexivity|now apply delete_as].
    - split; [|exact A]. unfold m_read. now rewrite !(locate_as brk m m' _ A).
    - split; [|exact A]. now rewrite (locate_as brk m m' _ A).
    - split; [|exact A]. now rewrite (whole_as _ _ A). }
  destruct (m_call brk al c m) as [o m1], (m_call brk al' c m') as [o' m1']. cbn [fst snd] in *. destruct S as [-> S].
  destruct (IH als m1 m1' L S K2) as [E F].
  destruct (m_calls brk cs m1) as [os m2], (m_calls brk (combine als (map snd cs)) m1') as [os' m2']. cbn [fst snd] in *. now rewrite E.
Qed.

Lemma sessions_alike cls al al' s cs als : cls LF = GC_LF -> valid_text s ->
  Forall (fun ac => alloc_ok (fst ac)) cs -> Forall alloc_ok als -> length als = length cs ->
  Forall (fun ac => match snd ac with GInsert d _ => valid_text d | _ => True end) cs ->
  alike (uax29 cls) cs als (m_new al s) (m_new al' s) ->
  outputs (gsession (uax29 cls) al s cs) = outputs (gsession (uax29 cls) al' s (combine als (map snd cs))).
Proof.
  intros HL V Ha Ha' Hl Hv K.
  destruct (session_marked cls al s cs HL V Ha Hv) as (g & ->).
  destruct (session_marked cls al' s (combine als (map snd cs)) HL V) as (g' & ->).
  - clear -Ha' Hl. revert als Ha' Hl. induction cs as [|k cs IH]; intros [|x als] H L; try discriminate; constructor.
    + now inversion H.
    + apply IH; [now inversion H|now injection L].
  - clear -Hv Hl. revert als Hl. induction cs as [|k cs IH]; intros [|x als] L; try discriminate; constructor.
    + now inversion Hv.
    + apply IH; [now inversion Hv|now injection L].
  - cbn [outputs]. f_equal. apply calls_alike; [exact Hl|now split|exact K].
Qed.

Lemma msim_place g m : msim g m -> gap_place g = size (ahead m) /\ gb_to_string g = Ok (whole m) /\ capacity g = size (whole m) + room m.
Proof.
  intros S. pose proof (sim_room g m S) as L. destruct S as [R F]. split; [apply (rep_place _ _ _ R)|]. split; [apply (to_string_ok _ _ _ R)|].
  pose proof (rep_free _ _ _ R) as X. pose proof R as R'. unfold capacity, size. fold (blen (whole m)).
  unfold capacity in X. fold (whole m) in X. rewrite X. lia.
Qed.
Lemma insert_exactly_when brk al al' g g' t d p g1 g1' : reachable brk g -> reachable brk g' -> alloc_ok al -> alloc_ok al' ->
  valid_text d -> d <> [] -> gb_to_string g = Ok t -> gb_to_string g' = Ok t -> gap_place g = gap_place g' ->
  gb_insert brk al g d p = Ok g1 -> gb_insert brk al' g' d p = Ok g1' ->
  exists a c, t = a ++ c /\ size a = gap_place g /\
    (gb_to_string g1 = gb_to_string g1' /\ gap_place g1 = gap_place g1' <->
     (size t + size d <= capacity g <-> size t + size d <= capacity g') \/ found_alike brk a c p).
Proof.
  intros R R' Ha Ha' V D E E' P E1 E1'. apply reachable_rep in R as (a & c & R). apply reachable_rep in R' as (a' & c' & R').
  rewrite (to_string_ok _ _ _ R) in E. injection E as <-. rewrite (to_string_ok _ _ _ R') in E'. injection E' as E'.
  rewrite (rep_place _ _ _ R), (rep_place _ _ _ R') in P. destruct (same_halves _ _ _ _ E' (eq_sym P)) as [-> ->]. clear E' P.
  assert (S : msim g (Marked a c (gap_length g))) by (split; [exact R|reflexivity]).
  assert (S' : msim g' (Marked a c (gap_length g'))) by (split; [exact R'|reflexivity]).
  set (m := Marked a c (gap_length g)) in *. set (m' := Marked a c (gap_length g')) in *.
  destruct (insert_msim brk al g m d p Ha V S) as (x & Ex & S1). rewrite E1 in Ex. injection Ex as <-.
  destruct (insert_msim brk al' g' m' d p Ha' V S') as (x & Ex & S1'). rewrite E1' in Ex. injection Ex as <-.
  exists a, c. split; [reflexivity|]. split; [symmetry; apply (rep_place _ _ _ R)|].
  destruct (msim_place _ _ S) as (_ & _ & Cg). destruct (msim_place _ _ S') as (_ & _ & Cg').
  rewrite Cg, Cg'. assert (A : as_marked m m') by now split.
  assert (F : (size (a ++ c) + size d <= size (whole m) + room m <-> size (a ++ c) + size d <= size (whole m') + room m') <-> (fits d m <-> fits d m')).
  { unfold fits, whole, size. cbn [m m' ahead behind room]. split; intros [H1 H2]; split; lia. }
  rewrite F. change ((fits d m <-> fits d m') \/ found_alike brk a c p) with (insert_alike brk d p m m').
  rewrite <- (insert_exactly brk al al' d p m m' D A).
  destruct (msim_place _ _ S1) as (P1 & T1 & _). destruct (msim_place _ _ S1') as (P1' & T1' & _). rewrite P1, P1', T1, T1'. split.
  - intros [T Q]. assert (T' : whole (m_insert brk al d p m) = whole (m_insert brk al' d p m')) by congruence.
    unfold whole in T'. destruct (same_halves _ _ _ _ T' Q). now split.
  - intros [Q1 Q2]. unfold whole. now rewrite Q1, Q2.
Qed.
