(** Proofs: bytes that edits move. *)
From Verif Require Import Base Utf8 Utf8Proofs Grapheme Position GapBuffer GapBufferProofs Spec Calls
  TextProofs HalvesProofs GrowthSpec GrowthProofs Copies CopiesSpec.

(** ** Counting changes nothing *)

Lemma for_each_tick body xs : forall d n,
  for_each xs (d, n) (tick body) = (let* d' := for_each xs d body in Ok (d', n + length xs)).
Proof.
  induction xs as [|x xs IH]; intros d n; cbn [for_each].
  - cbn [bind length]. now rewrite Nat.add_0_r.
  - unfold tick at 1. cbn [fst snd]. destruct (body x d) as [d1|]; cbn [bind]; [|reflexivity].
    rewrite IH. destruct (for_each xs d1 body); cbn [bind length]; [|reflexivity]. do 2 f_equal. lia.
Qed.

(** How often the body of a loop is run. *)
Definition rounds (g : gapbuf) (off : nat) : nat :=
  if gap_length g =? 0 then 0
  else match Nat.compare off (gap_start g) with
       | Lt => gap_start g - off
       | Gt => off - (gap_start g + gap_length g)
       | Eq => 0
       end.

Lemma c_move_gap_eq g off : c_move_gap g off = (let* g' := move_gap g off in Ok (g', rounds g off)).
Proof.
  unfold c_move_gap, move_gap, rounds. destruct (gap_length g =? 0); [reflexivity|].
  destruct (Nat.compare off (gap_start g)); [reflexivity|..].
  - rewrite for_each_tick. destruct (for_each _ (bytes g) _); cbn [bind]; [|reflexivity].
    unfold range. now rewrite rev_length, seq_length.
  - rewrite for_each_tick. destruct (for_each _ (bytes g) _); cbn [bind]; [|reflexivity].
    destruct (usub off (gap_length g)); cbn [bind]; [|reflexivity].
    unfold range. now rewrite seq_length.
Qed.

Definition forget {A} (r : res (A * nat)) : res A := let* (a, _) := r in Ok a.

Lemma forget_insert brk al g d p : forget (c_insert brk al g d p) = gb_insert brk al g d p.
Proof.
  unfold forget, c_insert, gb_insert, c_ensure_capacity, ensure_capacity.
  destruct (gap_length g <? blen d).
  - rewrite c_move_gap_eq. destruct (move_gap g (vcap (gb_data g))) as [g1|]; cbn [bind]; [|reflexivity].
    destruct (usub _ _); cbn [bind]; [|reflexivity]. destruct (vset_len _ _); cbn [bind]; [|reflexivity].
    destruct (find_offset _ _ _) as [[off|]|]; cbn [bind]; [|reflexivity..].
    rewrite c_move_gap_eq. destruct (move_gap _ off); cbn [bind]; [|reflexivity].
    destruct (write_to_gap _ d); reflexivity.
  - cbn [bind]. destruct (find_offset _ _ _) as [[off|]|]; cbn [bind]; [|reflexivity..].
    rewrite c_move_gap_eq. destruct (move_gap _ off); cbn [bind]; [|reflexivity].
    destruct (write_to_gap _ d); reflexivity.
Qed.

Lemma forget_delete brk g r : forget (c_delete brk g r) = gb_delete brk g r.
Proof.
  unfold forget, c_delete, gb_delete.
  destruct (find_offset brk g (r_start r)) as [[off|]|]; cbn [bind]; [|reflexivity..].
  rewrite c_move_gap_eq. destruct (move_gap g off) as [g1|]; cbn [bind]; [|reflexivity].
  destruct (find_offset brk g1 (r_end r)) as [[e|]|]; cbn [bind]; [destruct (usub _ _); reflexivity| |reflexivity].
  destruct (find_offset brk g1 _) as [[e|]|]; cbn [bind]; [destruct (usub _ _); reflexivity| |reflexivity].
  destruct (usub _ _); reflexivity.
Qed.

Lemma exec_counted brk al c g : forget (c_exec brk al c g) = gexec brk al c g.
Proof.
  destruct c; cbn [c_exec gexec].
  - rewrite <- forget_insert. destruct (c_insert _ _ _ _ _) as [[g1 n]|]; reflexivity.
  - rewrite <- forget_delete. destruct (c_delete _ _ _) as [[g1 n]|]; reflexivity.
  - destruct (gb_read _ _ _); reflexivity.
  - destruct (in_bounds _ _ _); reflexivity.
  - destruct (gb_to_string _); reflexivity.
Qed.

Lemma run_counted brk cs : forall g, forget (c_run brk cs g) = grun brk cs g.
Proof.
  induction cs as [|[al c] cs IH]; intros g; cbn [c_run grun]; [reflexivity|].
  rewrite <- exec_counted. destruct (c_exec brk al c g) as [[[o g1] n]|]; cbn; [|reflexivity].
  rewrite <- IH. destruct (c_run brk cs g1) as [[[os g2] m]|]; reflexivity.
Qed.

Lemma c_exec_gexec brk al c g o g' n : c_exec brk al c g = Ok (o, g', n) -> gexec brk al c g = Ok (o, g').
Proof. intros E. rewrite <- exec_counted, E. reflexivity. Qed.
Lemma c_run_grun brk cs g os g' n : c_run brk cs g = Ok (os, g', n) -> grun brk cs g = Ok (os, g').
Proof. intros E. rewrite <- run_counted, E. reflexivity. Qed.

Lemma run_sum brk cs ds : forall g os1 g1 n os2 g2 m, c_run brk cs g = Ok (os1, g1, n) ->
  c_run brk ds g1 = Ok (os2, g2, m) -> c_run brk (cs ++ ds) g = Ok (os1 ++ os2, g2, n + m).
Proof.
  induction cs as [|[al c] cs IH]; intros g os1 g1 n os2 g2 m E1 E2; cbn [c_run app] in *.
  - injection E1 as <- <- <-. exact E2.
  - destruct (c_exec brk al c g) as [[[o g3] k]|]; [|discriminate].
    destruct (c_run brk cs g3) as [[[os3 g4] j]|] eqn:E3; [|discriminate]. injection E1 as <- <- <-.
    rewrite (IH _ _ _ _ _ _ _ E3 E2). cbn [app]. do 2 f_equal. lia.
Qed.

Lemma run_one brk al c g o g' n : c_exec brk al c g = Ok (o, g', n) -> c_run brk [(al, c)] g = Ok ([o], g', n).
Proof. intros E. cbn [c_run]. rewrite E. now rewrite Nat.add_0_r. Qed.

(** ** One move of the gap *)

Lemma rounds_ok g s1 s2 t1 t2 : rep g s1 s2 -> s1 ++ s2 = t1 ++ t2 ->
  rounds g (phys g s1 t1) = if gap_length g =? 0 then 0 else distance (blen t1) (blen s1).
Proof.
  intros (_ & _ & G & _ & Hs & _) _. unfold rounds, phys, distance. rewrite Hs.
  destruct (gap_length g =? 0) eqn:Eg; [reflexivity|]. apply Nat.eqb_neq in Eg.
  destruct (Nat.ltb_spec (blen t1) (blen s1)) as [L|L].
  - rewrite (proj2 (Nat.compare_lt_iff _ _) L). lia.
  - rewrite (proj2 (Nat.compare_gt_iff _ _)) by lia. lia.
Qed.

Lemma c_move_ok g s1 s2 t1 t2 : rep g s1 s2 -> s1 ++ s2 = t1 ++ t2 ->
  exists g', c_move_gap g (phys g s1 t1) =
      Ok (g', if gap_length g =? 0 then 0 else distance (blen t1) (blen s1)) /\
    rep g' t1 t2 /\ gap_length g' = gap_length g.
Proof.
  intros R S. destruct (move_gap_ok g s1 s2 t1 t2 _ R S eq_refl) as (g' & E & R' & L).
  exists g'. rewrite c_move_gap_eq, E. cbn [bind]. now rewrite (rounds_ok _ _ _ _ _ R S).
Qed.

Lemma rep_place g a b : rep g a b -> gap_place g = blen a.
Proof. intros (_ & _ & G & _ & H & _). exact H. Qed.
Lemma rep_free g a b : rep g a b -> capacity g = blen (a ++ b) + gap_length g.
Proof. intros R. rewrite (rep_capacity _ _ _ R), (rep_vlen _ _ _ R), blen_app. lia. Qed.

(** ** One call *)

Lemma c_ensure_ok al g s1 s2 d : alloc_ok al -> rep g s1 s2 ->
  exists g' h1 h2 n, c_ensure_capacity al g d = Ok (g', n) /\ rep g' h1 h2 /\ blen d <= gap_length g' /\
    (if gap_length g <? blen d
     then h1 = s1 ++ s2 /\ h2 = [] /\ n = if gap_length g =? 0 then 0 else blen s2
     else g' = g /\ h1 = s1 /\ h2 = s2 /\ n = 0).
Proof.
  intros Ha R. destruct (ensure_capacity_ok al g s1 s2 d Ha R) as (g' & h1 & h2 & E & R' & L & H).
  unfold ensure_capacity, c_ensure_capacity in *. destruct (gap_length g <? blen d).
  - assert (Hcap : vcap (gb_data g) = phys g s1 (s1 ++ s2)).
    { unfold phys. rewrite blen_app, (proj2 (Nat.ltb_ge _ _)) by lia.
      change (capacity g = blen s1 + blen s2 + gap_length g). rewrite (rep_free _ _ _ R), blen_app. reflexivity. }
    rewrite Hcap in *.
    destruct (c_move_ok g s1 s2 (s1 ++ s2) [] R (eq_sym (app_nil_r _))) as (g1 & E1 & R1 & L1).
    pose proof E1 as F1. rewrite c_move_gap_eq in F1.
    destruct (move_gap g (phys g s1 (s1 ++ s2))) as [g1'|] eqn:Em; [|discriminate].
    cbn [bind] in F1, E. injection F1 as -> _.
    rewrite E1. cbn [bind].
    destruct (usub _ _); cbn [bind] in *; [|discriminate].
    destruct (vset_len _ _); cbn [bind] in *; [|discriminate].
    injection E as <-. do 4 eexists. split; [reflexivity|]. split; [exact R'|]. split; [exact L|].
    destruct H as [-> ->]. repeat split. rewrite blen_app. unfold distance. destruct (_ =? 0); lia.
  - injection E as <-. destruct H as [-> ->]. exists g, s1, s2, 0.
    split; [reflexivity|]. split; [exact R|]. split; [exact L|]. now repeat split.
Qed.

Lemma c_insert_ok brk al g s1 s2 d p : alloc_ok al -> rep g s1 s2 -> valid_text d ->
  let '(h1, h2) := lookup_halves g d s1 s2 in
  exists g' n, c_insert brk al g d p = Ok (g', n) /\
    match hsplit brk h1 h2 p with
    | Some (pre, post) => rep g' (concat pre ++ d) (concat post) /\
        n = if gap_length g <? blen d
            then (if gap_length g =? 0 then 0 else blen s2) + blen (concat post)
            else if gap_length g =? 0 then 0 else distance (blen (concat pre)) (blen s1)
    | None => rep g' h1 h2 /\
        n = if gap_length g <? blen d then (if gap_length g =? 0 then 0 else blen s2) else 0
    end.
Proof.
  intros Ha R V. unfold lookup_halves, c_insert.
  destruct (c_ensure_ok al g s1 s2 d Ha R) as (g1 & h1 & h2 & n1 & E1 & R1 & L1 & H).
  rewrite E1. cbn [bind]. destruct (Nat.ltb_spec (gap_length g) (blen d)) as [Lt|Ge].
  - destruct H as (-> & -> & ->). rewrite (find_offset_ok _ _ _ _ _ R1). cbn [bind].
    destruct (hsplit brk (s1 ++ s2) [] p) as [[pre post]|] eqn:Es.
    2:{ do 2 eexists. split; [reflexivity|]. now split. }
    pose proof (hsplit_concat _ _ _ _ _ _ Es) as Hc.
    destruct (c_move_ok g1 _ _ _ _ R1 Hc) as (g2 & E2 & R2 & L2). rewrite E2. cbn [bind].
    destruct (write_to_gap_ok g2 _ _ d R2 V ltac:(lia)) as (g3 & E3 & R3). rewrite E3. cbn [bind].
    do 2 eexists. split; [reflexivity|]. split; [exact R3|].
    rewrite (proj2 (Nat.eqb_neq (gap_length g1) 0)) by lia.
    rewrite app_nil_r in Hc. rewrite Hc, blen_app. unfold distance. lia.
  - destruct H as (-> & -> & -> & ->). rewrite (find_offset_ok _ _ _ _ _ R1). cbn [bind].
    destruct (hsplit brk s1 s2 p) as [[pre post]|] eqn:Es.
    2:{ do 2 eexists. split; [reflexivity|]. now split. }
    pose proof (hsplit_concat _ _ _ _ _ _ Es) as Hc.
    destruct (c_move_ok g _ _ _ _ R1 Hc) as (g2 & E2 & R2 & L2). rewrite E2. cbn [bind].
    destruct (write_to_gap_ok g2 _ _ d R2 V ltac:(lia)) as (g3 & E3 & R3). rewrite E3. cbn [bind].
    do 2 eexists. split; [reflexivity|]. split; [exact R3|]. reflexivity.
Qed.

Lemma c_delete_ok brk g s1 s2 p q g' n : rep g s1 s2 -> c_delete brk g (range_new p q) = Ok (g', n) ->
  match hsplit brk s1 s2 (first_of p q) with
  | Some (pre, post) => gap_place g' = blen (concat pre) /\
      n = if gap_length g =? 0 then 0 else distance (blen (concat pre)) (blen s1)
  | None => g' = g /\ n = 0
  end.
Proof.
  intros R. rewrite range_new_ordered. unfold c_delete. cbn [r_start r_end].
  rewrite (find_offset_ok _ _ _ _ _ R). cbn [bind].
  destruct (hsplit brk s1 s2 (first_of p q)) as [[pre post]|] eqn:Es.
  2:{ intros E. now injection E as <- <-. }
  pose proof (hsplit_concat _ _ _ _ _ _ Es) as Hc.
  destruct (c_move_ok g _ _ _ _ R Hc) as (g1 & E1 & R1 & _). rewrite E1. cbn [bind].
  pose proof (rep_place _ _ _ R1) as P.
  destruct (find_offset brk g1 _) as [[e|]|]; cbn [bind]; [| |discriminate].
  - destruct (usub _ _); cbn [bind]; [|discriminate]. intros E. injection E as <- <-. now split.
  - destruct (find_offset brk g1 _) as [[e|]|]; cbn [bind]; [| |discriminate].
    + destruct (usub _ _); cbn [bind]; [|discriminate]. intros E. injection E as <- <-. now split.
    + destruct (usub _ _); cbn [bind]; [|discriminate]. intros E. injection E as <- <-. now split.
Qed.

Lemma insert_moves brk al g t d p o g' n a b : coherent brk g t -> alloc_ok al -> valid_text d -> d <> [] ->
  split_at brk t p = Some (a, b) -> c_exec brk al (GInsert d p) g = Ok (o, g', n) ->
  gap_place g' = size a + size d /\
  n = if size t + size d <=? capacity g then distance (size a) (gap_place g)
      else (if capacity g =? size t then 0 else size t - gap_place g) + size b.
Proof.
  intros C Ha V Nd Sp E. destruct (coherent_holds _ _ _ C) as [(s1 & s2 & R & -> & S) Hp].
  cbn [c_exec] in E. pose proof (c_insert_ok brk al g s1 s2 d p Ha R V) as X.
  pose proof (rep_free _ _ _ R) as F. pose proof (rep_place _ _ _ R) as P. pose proof (blen_pos d Nd) as Dp.
  rewrite gsplit_split_at in Sp by assumption. unfold size. fold (blen (s1 ++ s2)) (blen a) (blen b) (blen d).
  unfold lookup_halves in X. destruct (Nat.ltb_spec (gap_length g) (blen d)) as [Lt|Ge].
  - unfold hsplit, hgs in X. change (graphemes brk []) with (@nil grapheme) in X. rewrite app_nil_r in X.
    destruct (gsplit (graphemes brk (s1 ++ s2)) (Pos 0 0) p) as [[pre post]|]; [|discriminate].
    injection Sp as <- <-. destruct X as (g1 & n1 & E1 & R1 & ->). rewrite E1 in E. cbn [bind] in E.
    injection E as _ <- <-. rewrite (rep_place _ _ _ R1), blen_app. split; [reflexivity|].
    rewrite (proj2 (Nat.leb_gt _ _)) by lia. f_equal. rewrite P, F, !blen_app.
    destruct (Nat.eqb_spec (gap_length g) 0), (Nat.eqb_spec (blen s1 + blen s2 + gap_length g) (blen s1 + blen s2)); lia.
  - unfold hsplit, hgs in X. rewrite <- S in X.
    destruct (gsplit (graphemes brk (s1 ++ s2)) (Pos 0 0) p) as [[pre post]|]; [|discriminate].
    injection Sp as <- <-. destruct X as (g1 & n1 & E1 & R1 & ->). rewrite E1 in E. cbn [bind] in E.
    injection E as _ <- <-. rewrite (rep_place _ _ _ R1), blen_app. split; [reflexivity|].
    rewrite (proj2 (Nat.leb_le _ _)) by lia. rewrite (proj2 (Nat.eqb_neq (gap_length g) 0)) by lia. now rewrite P.
Qed.

Lemma delete_moves brk al g t p q o g' n a b : coherent brk g t -> split_at brk t (first_of p q) = Some (a, b) ->
  c_exec brk al (GDelete p q) g = Ok (o, g', n) ->
  gap_place g' = size a /\ n = if capacity g =? size t then 0 else distance (size a) (gap_place g).
Proof.
  intros C Sp E. destruct (coherent_holds _ _ _ C) as [(s1 & s2 & R & -> & S) Hp].
  cbn [c_exec] in E. destruct (c_delete brk g (range_new p q)) as [[g1 n1]|] eqn:Ed; [|discriminate].
  cbn [bind] in E. injection E as _ <- <-. pose proof (c_delete_ok _ _ _ _ _ _ _ _ R Ed) as X.
  rewrite gsplit_split_at in Sp by assumption. unfold hsplit, hgs in X. rewrite <- S in X.
  destruct (gsplit _ _ _) as [[pre post]|]; [|discriminate]. injection Sp as <- <-. destruct X as [X1 ->].
  split; [exact X1|]. rewrite (rep_place _ _ _ R), (rep_free _ _ _ R).
  unfold size. fold (blen (s1 ++ s2)) (blen (concat pre)).
  destruct (Nat.eqb_spec (gap_length g) 0), (Nat.eqb_spec (blen (s1 ++ s2) + gap_length g) (blen (s1 ++ s2))); lia.
Qed.

(** A position that is not there: only an insert that does not fit moves bytes. *)
Lemma nowhere_moves brk al c g t o g' n : coherent brk g t -> alloc_ok al ->
  match c with
  | GInsert d p => valid_text d /\ split_at brk t p = None
  | GDelete p q => split_at brk t (first_of p q) = None
  | _ => True
  end -> c_exec brk al c g = Ok (o, g', n) ->
  (capacity g' = capacity g -> n = 0 /\ g' = g) /\
  (capacity g' <> capacity g ->
   n = (if capacity g =? size t then 0 else size t - gap_place g) /\ gap_place g' = size t).
Proof.
  intros C Ha H E. destruct (coherent_holds _ _ _ C) as [(s1 & s2 & R & -> & S) Hp].
  pose proof (c_exec_gexec _ _ _ _ _ _ _ E) as Eg.
  pose proof (rep_free _ _ _ R) as F. pose proof (rep_place _ _ _ R) as P.
  destruct c as [d p|p q|p q|p|].
  - destruct H as [V Sp]. destruct (exec_capacity brk al (GInsert d p) g o g' s1 s2 Ha V R Eg) as [_ Cg].
    cbn [c_exec] in E. pose proof (c_insert_ok brk al g s1 s2 d p Ha R V) as X.
    rewrite gsplit_split_at in Sp by assumption. unfold lookup_halves in X.
    destruct (Nat.ltb_spec (gap_length g) (blen d)) as [Lt|Ge].
    + unfold hsplit, hgs in X. change (graphemes brk []) with (@nil grapheme) in X. rewrite app_nil_r in X.
      destruct (gsplit (graphemes brk (s1 ++ s2)) (Pos 0 0) p) as [[pre post]|]; [discriminate|].
      destruct X as (g1 & n1 & E1 & R1 & ->). rewrite E1 in E. cbn [bind] in E. injection E as _ <- <-.
      pose proof (Ha (capacity g) (blen d)). split; [intros; lia|]. intros _.
      rewrite (rep_place _ _ _ R1). split; [|reflexivity]. rewrite P, F. unfold size. fold (blen (s1 ++ s2)).
      rewrite !blen_app.
      destruct (Nat.eqb_spec (gap_length g) 0), (Nat.eqb_spec (blen s1 + blen s2 + gap_length g) (blen s1 + blen s2)); lia.
    + unfold hsplit, hgs in X. rewrite <- S in X.
      destruct (gsplit (graphemes brk (s1 ++ s2)) (Pos 0 0) p) as [[pre post]|] eqn:Es; [discriminate|].
      destruct X as (g1 & n1 & E1 & R1 & ->). split; [|intros; lia]. intros _.
      unfold c_insert, c_ensure_capacity in E. rewrite (proj2 (Nat.ltb_ge _ _) Ge) in E. cbn [bind] in E.
      rewrite (find_offset_ok _ _ _ _ _ R) in E. unfold hsplit, hgs in E. rewrite <- S, Es in E. cbn [bind] in E.
      injection E as _ <- <-. now split.
  - cbn [c_exec] in E. destruct (c_delete brk g (range_new p q)) as [[g1 n1]|] eqn:Ed; [|discriminate].
    cbn [bind] in E. injection E as _ <- <-. pose proof (c_delete_ok _ _ _ _ _ _ _ _ R Ed) as X.
    rewrite gsplit_split_at in H by assumption. unfold hsplit, hgs in X. rewrite <- S in X.
    destruct (gsplit _ _ _) as [[pre post]|]; [discriminate|]. destruct X as [-> ->].
    split; [now split|intros []; reflexivity].
  - cbn [c_exec gexec] in E. destruct (gb_read _ _ _); [|discriminate]. cbn [bind] in E. injection E as _ <- <-.
    split; [now split|intros []; reflexivity].
  - cbn [c_exec gexec] in E. destruct (in_bounds _ _ _); [|discriminate]. cbn [bind] in E. injection E as _ <- <-.
    split; [now split|intros []; reflexivity].
  - cbn [c_exec gexec] in E. destruct (gb_to_string _); [|discriminate]. cbn [bind] in E. injection E as _ <- <-.
    split; [now split|intros []; reflexivity].
Qed.

(** Any call, on any buffer. *)
Lemma moves_bound brk al c g t o g' n : reachable brk g -> alloc_ok al ->
  match c with GInsert d _ => valid_text d | _ => True end ->
  gb_to_string g = Ok t -> c_exec brk al c g = Ok (o, g', n) ->
  n <= if capacity g' =? capacity g then size t else 2 * size t.
Proof.
  intros Rc Ha V Et E. apply reachable_rep in Rc as (s1 & s2 & R).
  assert (t = s1 ++ s2) as -> by (rewrite (to_string_ok _ _ _ R) in Et; congruence). clear Et.
  destruct (exec_capacity brk al c g o g' s1 s2 Ha V R (c_exec_gexec _ _ _ _ _ _ _ E)) as [_ Cg].
  pose proof (rep_free _ _ _ R) as F. unfold size. fold (blen (s1 ++ s2)).
  assert (D : forall x y, hsplit brk s1 s2 x = y -> match y with Some (pre, _) =>
    distance (blen (concat pre)) (blen s1) <= blen (s1 ++ s2) | None => True end).
  { intros x [[pre post]|] Hx; [|exact I]. apply hsplit_concat in Hx.
    assert (blen (concat pre) <= blen (s1 ++ s2)) by (rewrite Hx, blen_app; lia).
    rewrite blen_app in *. unfold distance. lia. }
  destruct c as [d p|p q|p q|p|].
  - cbn [c_exec] in E. pose proof (c_insert_ok brk al g s1 s2 d p Ha R V) as X. unfold lookup_halves in X.
    destruct (Nat.ltb_spec (gap_length g) (blen d)) as [Lt|Ge].
    + pose proof (Ha (capacity g) (blen d)).
      rewrite (proj2 (Nat.eqb_neq (capacity g') (capacity g))) by lia.
      destruct X as (g1 & n1 & E1 & X). rewrite E1 in E. cbn [bind] in E. injection E as _ <- <-.
      destruct (hsplit brk (s1 ++ s2) [] p) as [[pre post]|] eqn:Es; destruct X as [_ ->].
      * apply hsplit_concat in Es. rewrite app_nil_r in Es.
        assert (blen (concat post) <= blen (s1 ++ s2)) by (rewrite Es, blen_app; lia).
        rewrite blen_app in *. destruct (_ =? 0); lia.
      * rewrite blen_app. destruct (_ =? 0); lia.
    + rewrite (proj2 (Nat.eqb_eq (capacity g') (capacity g))) by lia.
      destruct X as (g1 & n1 & E1 & X). rewrite E1 in E. cbn [bind] in E. injection E as _ <- <-.
      pose proof (D p _ eq_refl) as Dp.
      destruct (hsplit brk s1 s2 p) as [[pre post]|]; destruct X as [_ ->]; [|lia]. destruct (_ =? 0); lia.
  - rewrite (proj2 (Nat.eqb_eq (capacity g') (capacity g))) by lia. cbn [c_exec] in E.
    destruct (c_delete brk g (range_new p q)) as [[g1 n1]|] eqn:Ed; [|discriminate].
    cbn [bind] in E. injection E as _ <- <-. pose proof (c_delete_ok _ _ _ _ _ _ _ _ R Ed) as X.
    pose proof (D (first_of p q) _ eq_refl) as Dp.
    destruct (hsplit brk s1 s2 (first_of p q)) as [[pre post]|]; destruct X as [_ ->]; [|lia]. destruct (_ =? 0); lia.
  - cbn [c_exec gexec] in E. destruct (gb_read _ _ _); [|discriminate]. cbn [bind] in E. injection E as _ _ <-. lia.
  - cbn [c_exec gexec] in E. destruct (in_bounds _ _ _); [|discriminate]. cbn [bind] in E. injection E as _ _ <-. lia.
  - cbn [c_exec gexec] in E. destruct (gb_to_string _); [|discriminate]. cbn [bind] in E. injection E as _ _ <-. lia.
Qed.

(** ** Typing *)

Lemma insertions_cons al d p ks : insertions ((al, d, p) :: ks) = (al, GInsert d p) :: insertions ks.
Proof. reflexivity. Qed.

Lemma coherent_insert brk al g t d p o g' : coherent brk g t -> alloc_ok al -> clean_call brk (GInsert d p) t ->
  gexec brk al (GInsert d p) g = Ok (o, g') -> coherent brk g' (spec_insert brk t d p).
Proof.
  intros C Ha Cl E. destruct (coherent_holds _ _ _ C) as [H Hp].
  destruct (holds_insert brk al g t d p Ha H Hp Cl) as (g1 & E1 & H1 & P1).
  assert (R : reachable brk g').
  { apply (reachable_exec brk g al (GInsert d p) o g'); [apply C|exact Ha|apply Cl|exact E]. }
  cbn [gexec] in E. rewrite E1 in E. cbn [bind] in E. injection E as _ <-. now apply holds_coherent.
Qed.

Lemma typing_fine brk b ks : forall a, typing brk a b ks ->
  Forall (fun ac => std_growth (fst ac)) (insertions ks) /\
  Forall (fun ac => match snd ac with GInsert d _ => valid_text d | _ => True end) (insertions ks).
Proof.
  induction ks as [|[[al d] p] ks IH]; intros a T; [split; constructor|]. rewrite insertions_cons.
  destruct T as (G & _ & Cl & T). destruct (IH _ T) as [I1 I2]. split; constructor; cbn [fst snd]; try assumption. apply Cl.
Qed.

Lemma typing_steps brk b ks : forall a g os g' n, coherent brk g (a ++ b) -> typing brk a b ks ->
  c_run brk (insertions ks) g = Ok (os, g', n) ->
  n <= distance (size a) (gap_place g) + 2 * size b * reallocations brk (insertions ks) g /\
  gb_to_string g' = Ok (a ++ typed ks ++ b) /\ longest brk (insertions ks) g <= size (a ++ typed ks ++ b).
Proof.
  induction ks as [|[[al d] p] ks IH]; intros a g os g' n C T E.
  - injection E as _ <- <-. split; [lia|]. split; [apply C|]. cbn. lia.
  - destruct T as (G & Sp & Cl & T). rewrite insertions_cons in *. cbn [c_run reallocations longest] in *.
    destruct (c_exec brk al (GInsert d p) g) as [[[o g1] n1]|] eqn:E1; [|discriminate].
    destruct (c_run brk (insertions ks) g1) as [[[os1 g2] n2]|] eqn:E2; [|discriminate]. injection E as _ <- <-.
    pose proof (c_exec_gexec _ _ _ _ _ _ _ E1) as Eg. rewrite Eg.
    assert (Sn : spec_insert brk (a ++ b) d p = (a ++ d) ++ b) by (unfold spec_insert; rewrite Sp; now rewrite <- app_assoc).
    pose proof (coherent_insert _ _ _ _ _ _ _ _ C (std_alloc_ok _ G) Cl Eg) as C1. rewrite Sn in C1.
    destruct (IH _ _ _ _ _ C1 T E2) as (I1 & I2 & I3). destruct C as (Cr & Cp & Ct & Cx).
    assert (C : coherent brk g (a ++ b)) by (repeat split; assumption).
    unfold typed in *. cbn [map concat fst snd] in *. rewrite <- !app_assoc in *. split; [|split; [exact I2|]].
    2:{ rewrite Ct. unfold size in *. rewrite !enc_app, !app_length in *. lia. }
    assert (Vd : valid_text d) by apply Cl.
    destruct (reachable_rep _ _ Cr) as (s1 & s2 & R). pose proof (rep_place _ _ _ R) as P.
    assert (St : s1 ++ s2 = a ++ b) by (rewrite (to_string_ok _ _ _ R) in Ct; congruence).
    assert (Sz : size (a ++ b) = size a + size b) by (unfold size; now rewrite enc_app, app_length).
    assert (Ps : gap_place g <= size (a ++ b)).
    { rewrite P, <- St. change (size (s1 ++ s2)) with (blen (s1 ++ s2)). rewrite blen_app. lia. }
    pose proof (rep_free _ _ _ R) as F. rewrite St in F. change (blen (a ++ b)) with (size (a ++ b)) in F.
    pose proof (reallocates_exactly_when brk al (GInsert d p) g o g1 (a ++ b) (std_alloc_ok _ G) Vd Cr Ct Eg) as Rx.
    destruct d as [|c0 d].
    + (* nothing typed *)
      destruct (Nat.eqb_spec (capacity g1) (capacity g)) as [_|Hx].
      2:{ exfalso. apply Rx in Hx as (d' & p' & Hd & Hx). injection Hd as <- _. cbn in Hx. unfold size in F. lia. }
      clear Rx. rewrite app_nil_r in *. cbn [c_exec] in E1.
      destruct (coherent_holds _ _ _ C) as [(u1 & u2 & Ru & Eu & Su) Hp].
      pose proof (c_insert_ok brk al g u1 u2 [] p (std_alloc_ok _ G) Ru ltac:(constructor)) as X.
      unfold lookup_halves in X. change (blen []) with 0 in X. cbn [Nat.ltb Nat.leb] in X.
      rewrite Eu in Sp, Hp. rewrite gsplit_split_at in Sp by exact Hp. unfold hsplit, hgs in X. rewrite <- Su in X.
      destruct (gsplit _ _ _) as [[pre post]|]; [|discriminate]. injection Sp as Sa Sb.
      destruct X as (g3 & n3 & E3 & R3 & ->). rewrite E3 in E1. cbn [bind] in E1. injection E1 as _ <- <-.
      pose proof (rep_place _ _ _ R3) as P3. pose proof (rep_place _ _ _ Ru) as Pu.
      rewrite app_nil_r, Sa in P3. change (blen a) with (size a) in P3. rewrite P3 in I1. rewrite Pu.
      rewrite Sa. change (blen a) with (size a).
      assert (distance (size a) (size a) = 0) by (unfold distance; lia).
      destruct (gap_length g =? 0); lia.
    + set (dd := c0 :: d) in *.
      destruct (insert_moves brk al g (a ++ b) dd p o g1 n1 a b C (std_alloc_ok _ G) Vd
                  ltac:(discriminate) Sp E1) as (P1 & N1).
      rewrite P1 in I1. replace (size (a ++ dd)) with (size a + size dd) in I1
        by (unfold size; now rewrite enc_app, app_length).
      assert (D0 : distance (size a + size dd) (size a + size dd) = 0) by (unfold distance; lia). rewrite D0 in I1.
      destruct (Nat.eqb_spec (capacity g1) (capacity g)) as [Hx|Hx].
      * rewrite (proj2 (Nat.leb_le _ _)) in N1.
        2:{ destruct (Nat.le_gt_cases (size (a ++ b) + size dd) (capacity g)) as [L|L]; [exact L|]. exfalso.
            apply (proj2 Rx); [|exact Hx]. exists dd, p. split; [reflexivity|exact L]. }
        lia.
      * apply Rx in Hx as (d' & p' & Hd & Hx). injection Hd as <- <-.
        fold (size (a ++ b)) (size dd) in Hx. rewrite (proj2 (Nat.leb_gt _ _)) in N1 by exact Hx.
        assert (n1 <= distance (size a) (gap_place g) + 2 * size b)
          by (rewrite N1, Sz in *; unfold distance; destruct (_ =? _); lia).
        lia.
Qed.

Lemma typing_cheap brk a b ks g os g' n : coherent brk g (a ++ b) -> typing brk a b ks ->
  c_run brk (insertions ks) g = Ok (os, g', n) ->
  gb_to_string g' = Ok (a ++ typed ks ++ b) /\
  exists k, n <= distance (size a) (gap_place g) + 2 * size b * k /\
    (k <= 1 \/ 2 ^ (k + 1) <= size (a ++ typed ks ++ b)).
Proof.
  intros C T E. destruct (typing_steps _ _ _ _ _ _ _ _ C T E) as (I1 & I2 & I3). split; [exact I2|].
  exists (reallocations brk (insertions ks) g). split; [exact I1|]. destruct (typing_fine _ _ _ _ T) as [F1 F2].
  destruct (few_reallocations brk (insertions ks) g os g' F1 F2 ltac:(apply C) (c_run_grun _ _ _ _ _ _ E)) as [H|H];
    [now left|right]. lia.
Qed.

Lemma new_place al s g : gb_new al s = Ok g -> gap_place g = size s.
Proof.
  unfold gb_new. destruct (usub _ _); cbn [bind]; [|discriminate]. destruct (vset_len _ _); cbn [bind]; [|discriminate].
  intros E. injection E as <-. reflexivity.
Qed.
