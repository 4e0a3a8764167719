(** Proofs: everything a token iterator ever returns. *)
From Verif Require Import Base Utf8 Utf8Proofs Grapheme GraphemeProofs Position LineIterator Buffer Token
  Spec TextProofs TextFacts SearchProofs TokenSpec TokenProofs TokenStream.

(** ** Slices of a line and of its content *)
Lemma bskip_more c z : forall a, a <= blen c ->
  bskip (c ++ z) a = match bskip c a with Ok r => Ok (r ++ z) | Panic => Panic end /\
  forall r, bskip c a = Ok r -> blen c = a + blen r.
Proof.
  induction c as [|x c IH]; intros a H.
  - change (blen []) with 0 in H. assert (a = 0) as -> by lia. split; [now destruct z|]. intros r E. injection E as <-. reflexivity.
  - rewrite blen_cons in H. destruct a as [|a]; [split; [reflexivity|]; intros r E; now injection E as <-|].
    cbn [app bskip]. destruct (Nat.leb_spec (len1 x) (S a)) as [L|L]; [|now split].
    destruct (IH (S a - len1 x) ltac:(lia)) as [E1 E2]. split; [exact E1|]. intros r E. rewrite blen_cons, (E2 _ E). lia.
Qed.
Lemma btake_more c z : forall a, a <= blen c -> btake (c ++ z) a = btake c a.
Proof.
  induction c as [|x c IH]; intros a H.
  - change (blen []) with 0 in H. assert (a = 0) as -> by lia. now destruct z.
  - rewrite blen_cons in H. destruct a as [|a]; [reflexivity|]. cbn [app btake].
    destruct (Nat.leb_spec (len1 x) (S a)) as [L|L]; [|reflexivity]. now rewrite IH by lia.
Qed.
Lemma slice_content c z a b : b <= blen c -> str_slice (c ++ z) a b = str_slice c a b.
Proof.
  intros H. unfold str_slice, usub. destruct (Nat.leb_spec a b) as [L|L]; [|reflexivity]. cbn [bind].
  destruct (bskip_more c z a ltac:(lia)) as [-> E]. destruct (bskip c a) as [r|]; [|reflexivity]. cbn [bind].
  apply btake_more. specialize (E r eq_refl). lia.
Qed.

(** ** Lines *)
Fixpoint wholes (cs : list text) : list text :=
  match cs with [] => [] | c :: cs' => whole c cs' :: wholes cs' end.
Lemma wholes_full t : wholes (lines_of t) = full_lines t.
Proof.
  induction t as [l Hl|l t Hl IH] using text_line_ind.
  - now rewrite lines_of_one, full_lines_one.
  - rewrite lines_of_app, full_lines_app by assumption. cbn [wholes]. rewrite IH. f_equal. unfold whole.
    pose proof (lines_of_ne t). now destruct (lines_of t).
Qed.
Lemma whole_eol c cs : ~ In LF c -> end_of_line (whole c cs) = blen c /\ exists z, whole c cs = c ++ z.
Proof.
  intros H. unfold whole. destruct cs.
  - split; [|exists []; now rewrite app_nil_r].
    unfold end_of_line, ends_with_lf. destruct c as [|x c _] using rev_ind; [reflexivity|]. rewrite rev_app_distr. cbn [rev app].
    destruct (N.eqb_spec x LF) as [->|]; [|reflexivity]. exfalso. apply H, in_or_app. right. now left.
  - split; [|now exists [LF]]. unfold end_of_line, ends_with_lf. rewrite rev_app_distr. cbn [rev app].
    change (N.eqb LF LF) with true. cbv iota. rewrite blen_app. change (blen [LF]) with 1. lia.
Qed.

Section Stream.
Variables pstate scopeop stack : Type.
Variable parse_line : pstate -> text -> option (list (nat * scopeop)) * pstate.
Variable apply : stack -> scopeop -> stack * bool.
Variable brk : brk_rule.
Notation iter := (token_iter pstate scopeop stack).
Notation next := (ti_next pstate scopeop stack parse_line apply brk).
Notation build := (build_next_token pstate scopeop stack apply brk).
Notation loop := (build_loop scopeop stack apply brk).
Notation line_items := (line_items scopeop stack apply brk).
Notation rest_items := (rest_items pstate scopeop stack parse_line apply brk).

(** The loop: the first item of the line, or none. *)
Lemma loop_items c z l evs : l = c ++ z -> forall sc boff pos,
  let '(ks, sc') := line_items (line pos) c evs sc boff (offset pos) in
  match ks with
  | [] => exists b p, loop l (blen c) evs sc boff pos = Ok (BNone stack, sc', b, p, [], false)
  | Boom :: _ => loop l (blen c) evs sc boff pos = Panic
  | k :: ks' => exists r sc1 b p evs' keep, loop l (blen c) evs sc boff pos = Ok (r, sc1, b, p, evs', keep) /\
      match k with Tok t => r = BToken stack t | Stop e => r = BErr stack e | Boom => False end /\
      if (keep : bool) then line_items (line p) c evs' sc1 b (offset p) = (ks', sc') else ks' = [] /\ sc1 = sc'
  end.
Proof.
  intros ->. induction evs as [|[o op] evs IH]; intros sc boff pos; cbn [TokenStream.line_items build_loop].
  - destruct (Nat.ltb_spec boff (blen c)) as [L|L]; [|eauto]. rewrite slice_content by lia.
    destruct (str_slice c boff (blen c)) as [v|]; cbn [bind]; [|reflexivity].
    destruct pos as [ln of]. do 6 eexists. split; [reflexivity|]. now split.
  - destruct (apply sc op) as [sc1 ok] eqn:Ea. destruct (Nat.ltb_spec boff o) as [L|L].
    + rewrite slice_content by lia. destruct (str_slice c boff (Nat.min o (blen c))) as [v|]; [|reflexivity].
      cbn [bind]. destruct (line_items (line pos) c evs sc1 o (offset pos + length (graphemes brk v))) as [ks sc''] eqn:E.
      destruct pos as [ln of]. cbn [line offset] in *.
      destruct ok; do 6 eexists; (split; [reflexivity|]); (split; [reflexivity|]); exact E.
    + specialize (IH sc1 boff pos). destruct (line_items (line pos) c evs sc1 boff (offset pos)) as [ks sc''] eqn:E.
      destruct ok; [exact IH|]. do 6 eexists. split; [reflexivity|]. split; [reflexivity|exact E].
Qed.

(** What the iterator has still to return. *)
Definition remains (it : iter) (ks : list (item stack)) : Prop :=
  exists n cs, li_rem (ti_lines it) n (wholes cs) /\ Forall (fun c => ~ In LF c) cs /\
  match ti_line it with
  | Some l => exists c z, l = c ++ z /\ end_of_line l = blen c /\
      let '(k, sc) := line_items (line (ti_position it)) c (ti_events it) (ti_scopes it) (ti_byte_offset it) (offset (ti_position it)) in
      ks = k ++ rest_items n cs (ti_parser it) sc
  | None => ks = rest_items n cs (ti_parser it) (ti_scopes it)
  end.

Definition after (it : iter) (ks : list (item stack)) : Prop :=
  match ks with
  | [] => exists it', next it = Ok (None, it') /\ remains it' [] /\ ti_error it' = ti_error it
  | Tok k :: r => exists it', next it = Ok (Some k, it') /\ remains it' r /\ ti_error it' = ti_error it
  | Stop e :: r => exists it', next it = Ok (None, it') /\ remains it' r /\ ti_error it' = Some e
  | Boom :: _ => next it = Panic
  end.

(** A line that has nothing left. *)
Lemma next_line it t1 n cs : build it = Ok (BNone stack, t1) -> ti_line t1 = None -> ti_error t1 = ti_error it ->
  li_rem (ti_lines t1) n (wholes cs) -> Forall (fun c => ~ In LF c) cs ->
  after it (rest_items n cs (ti_parser t1) (ti_scopes t1)).
Proof.
  intros Eb El Ee Hr Hc. unfold after, ti_next. rewrite Eb. cbn [bind]. unfold parse_next_line.
  destruct cs as [|c cs].
  - cbn [wholes] in Hr. rewrite (li_next_none _ _ Hr). cbn [bind]. cbn [TokenStream.rest_items]. cbn [ti_line].
    eexists. split; [reflexivity|]. split; [|exact Ee]. exists n, []. cbn [ti_lines ti_line wholes TokenStream.rest_items]. now split.
  - cbn [wholes] in Hr. destruct (li_next_some _ _ _ _ Hr) as (it' & En & Hr'). rewrite En. cbn [bind TokenStream.rest_items].
    inversion_clear Hc as [|? ? Hc1 Hc2]. destruct (whole_eol c cs Hc1) as [He (z & Ew)].
    destruct (parse_line (ti_parser t1) (whole c cs)) as [[evs|] s'].
    + destruct (line_items n c evs (ti_scopes t1) 0 0) as [ks sc'] eqn:Ei. cbn [ti_line]. eexists. split; [reflexivity|].
      split; [|exact Ee]. exists (S n), cs. cbn [ti_lines ti_line ti_events ti_scopes ti_byte_offset ti_position ti_parser line offset].
      split; [assumption|]. split; [assumption|]. exists c, z. split; [assumption|]. split; [assumption|]. now rewrite Ei.
    + eexists. split; [reflexivity|]. split; [|reflexivity]. exists (S n), cs. unfold set_error.
      cbn [ti_lines ti_line ti_parser ti_scopes]. rewrite El. now split.
Qed.

Lemma next_item it ks : remains it ks -> after it ks.
Proof.
  intros (n & cs & Hr & Hc & H). destruct (ti_line it) as [l|] eqn:El.
  - destruct H as (c & z & -> & He & H).
    pose proof (loop_items c z (c ++ z) (ti_events it) eq_refl (ti_scopes it) (ti_byte_offset it) (ti_position it)) as L.
    destruct (line_items _ _ _ _ _ _) as [k sc] eqn:Ei. subst ks.
    assert (Eb : forall x, loop (c ++ z) (blen c) (ti_events it) (ti_scopes it) (ti_byte_offset it) (ti_position it) = x ->
      build it = let* (r, scopes, boff, pos, evs, keep) := x in
        Ok (r, TI scopes (ti_parser it) (ti_lines it) (if (keep : bool) then Some (c ++ z) else None) boff pos evs (ti_error it))).
    { intros x <-. unfold build_next_token. now rewrite El, He. }
    destruct k as [|k ks].
    + destruct L as (b & p & L). specialize (Eb _ L). cbn [bind] in Eb. cbn [app].
      eapply next_line in Eb; [exact Eb|reflexivity..|exact Hr|exact Hc].
    + assert (G : forall r sc1 b p evs' keep, loop (c ++ z) (blen c) (ti_events it) (ti_scopes it) (ti_byte_offset it) (ti_position it) = Ok (r, sc1, b, p, evs', keep) ->
        (if (keep : bool) then line_items (line p) c evs' sc1 b (offset p) = (ks, sc) else ks = [] /\ sc1 = sc) ->
        exists t1, build it = Ok (r, t1) /\ ti_error t1 = ti_error it /\ remains t1 (ks ++ rest_items n cs (ti_parser it) sc) /\
          forall e, remains (set_error _ _ _ t1 e) (ks ++ rest_items n cs (ti_parser it) sc)).
      { intros r sc1 b p evs' keep L' K. specialize (Eb _ L'). cbn [bind] in Eb. eexists. split; [exact Eb|]. split; [reflexivity|].
        assert (R : forall e, remains (TI sc1 (ti_parser it) (ti_lines it) (if keep then Some (c ++ z) else None) b p evs' e) (ks ++ rest_items n cs (ti_parser it) sc)).
        { intros e. exists n, cs. cbn [ti_lines ti_line ti_events ti_scopes ti_byte_offset ti_position ti_parser]. split; [assumption|]. split; [assumption|].
          destruct keep; [|now destruct K as [-> ->]]. exists c, z. split; [reflexivity|]. split; [assumption|]. now rewrite K. }
        split; [apply R|]. intros e. apply R. }
      cbn [app]. destruct k as [t|e|].
      * destruct L as (r & sc1 & b & p & evs' & keep & L & -> & K). destruct (G _ _ _ _ _ _ L K) as (t1 & B & E & R & _).
        exists t1. unfold ti_next. rewrite B. now split.
      * destruct L as (r & sc1 & b & p & evs' & keep & L & -> & K). destruct (G _ _ _ _ _ _ L K) as (t1 & B & E & _ & R).
        exists (set_error _ _ _ t1 e). unfold ti_next. rewrite B. split; [reflexivity|]. split; [apply R|reflexivity].
      * unfold after, ti_next. now rewrite (Eb _ L).
  - subst ks. eapply next_line; [|exact El|reflexivity|exact Hr|exact Hc]. unfold build_next_token. now rewrite El.
Qed.

Lemma steps_play n : forall it ks, remains it ks ->
  match steps next n it with
  | Ok (xs, it') => play n ks = Some xs /\
      ti_error it' = fold_left (fun r k => match k with Stop e => Some e | _ => r end) (firstn n ks) (ti_error it)
  | Panic => play n ks = None
  end.
Proof.
  induction n as [|n IH]; intros it ks R; cbn [steps play firstn]; [now split|].
  pose proof (next_item it ks R) as A. destruct ks as [|[k|e|] ks]; cbn [after] in A.
  - destruct A as (it' & -> & R' & E). cbn [bind]. specialize (IH _ _ R'). destruct (steps next n it') as [[xs it2]|]; cbn [bind].
    + destruct IH as [-> ->]. split; [reflexivity|]. rewrite firstn_nil. exact E.
    + now rewrite IH.
  - destruct A as (it' & -> & R' & E). cbn [bind]. specialize (IH _ _ R'). destruct (steps next n it') as [[xs it2]|]; cbn [bind].
    + destruct IH as [-> ->]. split; [reflexivity|]. cbn [fold_left]. now rewrite E.
    + now rewrite IH.
  - destruct A as (it' & -> & R' & E). cbn [bind]. specialize (IH _ _ R'). destruct (steps next n it') as [[xs it2]|]; cbn [bind].
    + destruct IH as [-> ->]. split; [reflexivity|]. cbn [fold_left]. now rewrite E.
    + now rewrite IH.
  - now rewrite A.
Qed.

Lemma lines_no_lf t : Forall (fun c => ~ In LF c) (lines_of t).
Proof.
  induction t as [l Hl|l t Hl IH] using text_line_ind.
  - rewrite lines_of_one by assumption. now constructor.
  - rewrite lines_of_app by assumption. now constructor.
Qed.

Lemma stream_exactly start new t :
  match stream pstate scopeop stack parse_line apply brk start new t with
  | None => ti_new pstate scopeop stack parse_line new t start = Ok (RErr ParsingError)
  | Some ks => exists it, ti_new pstate scopeop stack parse_line new t start = Ok (ROk it) /\ forall n,
      match steps next n it with
      | Ok (xs, it') => play n ks = Some xs /\ ti_error it' = recorded n ks
      | Panic => play n ks = None
      end
  end.
Proof.
  unfold stream, ti_new, parse_next_line. pose proof (lines_no_lf t) as F. pose proof (li_new_rem t) as R. rewrite <- wholes_full in R.
  pose proof (lines_of_ne t) as N. destruct (lines_of t) as [|c cs]; [contradiction|]. cbn [wholes] in R.
  cbn [ti_lines ti_parser]. destruct (li_next_some _ _ _ _ R) as (li' & -> & R'). cbn [bind].
  inversion_clear F as [|? ? F1 F2]. destruct (whole_eol c cs F1) as [He (z & Ew)].
  destruct (parse_line start (whole c cs)) as [[evs|] s]; [|reflexivity].
  destruct (line_items 0 c evs new 0 0) as [ks sc] eqn:Ei. eexists. split; [reflexivity|]. intros n.
  match goal with |- match steps next n ?i with _ => _ end => pose proof (steps_play n i (ks ++ rest_items 1 cs s sc)) as P end.
  apply P. exists 1, cs. cbn [ti_lines ti_line ti_events ti_scopes ti_byte_offset ti_position ti_parser line offset].
  split; [assumption|]. split; [assumption|]. exists c, z. split; [assumption|]. split; [assumption|]. now rewrite Ei.
Qed.

(** With events at char boundaries nothing panics. *)
Lemma line_no_boom n c z evs : (z = [] \/ z = [LF]) -> Forall (fun e => exists a r, c ++ z = a ++ r /\ fst e = blen a) evs ->
  forall sc a r col, c ++ z = a ++ r -> ~ In Boom (fst (line_items n c evs sc (blen a) col)).
Proof.
  intros Hz. induction evs as [|[o op] evs IH]; intros Hb sc a r col E; cbn [TokenStream.line_items].
  - destruct (Nat.ltb_spec (blen a) (blen c)) as [L|L]; [|now intros []].
    destruct (rest_slice pstate scopeop stack parse_line apply sc c z a r E L) as (v & _ & S). rewrite slice_content in S by lia.
    rewrite S. cbn. intros [X|[]]. discriminate.
  - inversion_clear Hb as [|? ? Ho Hb']. destruct (apply sc op) as [sc' ok]. destruct (Nat.ltb_spec (blen a) o) as [L|L].
    + destruct (slice_ok pstate scopeop stack parse_line apply sc c z a r o E Hz Ho L) as (v & r' & S & _ & a' & Ea & -> & _).
      rewrite slice_content in S by lia. rewrite S.
      specialize (IH Hb' sc' a' _ (col + length (graphemes brk v)) Ea).
      destruct (line_items n c evs sc' (blen a') _) as [ks sc2]. cbn [fst] in *. intros [X|X]; [destruct ok; discriminate|contradiction].
    + specialize (IH Hb' sc' a r col E). destruct (line_items n c evs sc' (blen a) col) as [ks sc2]. cbn [fst] in *.
      destruct ok; [exact IH|]. intros [X|X]; [discriminate|contradiction].
Qed.
Lemma whole_split c cs : exists z, whole c cs = c ++ z /\ (z = [] \/ z = [LF]).
Proof. unfold whole. destruct cs; [exists []; split; [now rewrite app_nil_r|now left]|]. exists [LF]. split; [reflexivity|now right]. Qed.
Lemma line_fine n c cs s evs s' sc : on_boundaries pstate scopeop parse_line -> parse_line s (whole c cs) = (Some evs, s') ->
  ~ In Boom (fst (line_items n c evs sc 0 0)).
Proof.
  intros Hbd E. destruct (whole_split c cs) as (z & Ew & Hz). rewrite Ew in E. specialize (Hbd _ _ _ _ E).
  exact (line_no_boom n c z evs Hz Hbd sc [] (c ++ z) 0 eq_refl).
Qed.
Lemma rest_no_boom cs : on_boundaries pstate scopeop parse_line -> forall n s sc, ~ In Boom (rest_items n cs s sc).
Proof.
  intros Hbd. induction cs as [|c cs IH]; intros n s sc; cbn [TokenStream.rest_items]; [now intros []|].
  destruct (parse_line s (whole c cs)) as [[evs|] s'] eqn:E.
  - pose proof (line_fine n c cs s evs s' sc Hbd E) as F. destruct (line_items n c evs sc 0 0) as [ks sc']. cbn [fst] in F.
    intros [X|X]; [discriminate|]. apply in_app_or in X as [X|X]; [contradiction|]. now apply IH in X.
  - intros [X|X]; [discriminate|]. now apply IH in X.
Qed.
Lemma stream_no_boom start new t ks : on_boundaries pstate scopeop parse_line ->
  stream pstate scopeop stack parse_line apply brk start new t = Some ks -> ~ In Boom ks.
Proof.
  intros Hbd. unfold stream. destruct (lines_of t) as [|c cs]; [discriminate|].
  destruct (parse_line start (whole c cs)) as [[evs|] s'] eqn:E; [|discriminate].
  pose proof (line_fine 0 c cs start evs s' new Hbd E) as F. destruct (line_items 0 c evs new 0 0) as [k sc']. cbn [fst] in F.
  intros X. injection X as <-. intros X. apply in_app_or in X as [X|X]; [contradiction|]. now apply rest_no_boom in X.
Qed.
Lemma play_some n : forall ks : list (item stack), ~ In Boom ks -> exists xs, play n ks = Some xs.
Proof.
  induction n as [|n IH]; intros ks H; [now exists []|]. destruct ks as [|[k|e|] ks]; cbn [play].
  - destruct (IH [] (fun x => x)) as (xs & ->). cbn. eauto.
  - destruct (IH ks (fun x => H (or_intror x))) as (xs & ->). cbn. eauto.
  - destruct (IH ks (fun x => H (or_intror x))) as (xs & ->). cbn. eauto.
  - exfalso. apply H. now left.
Qed.
Lemma stream_fine start new t : on_boundaries pstate scopeop parse_line ->
  match stream pstate scopeop stack parse_line apply brk start new t with
  | None => True
  | Some ks => ~ In Boom ks /\ forall n, exists xs, play n ks = Some xs
  end.
Proof.
  intros Hbd. destruct (stream _ _ _ _ _ _ _ _ _) as [ks|] eqn:E; [|exact I].
  pose proof (stream_no_boom _ _ _ _ Hbd E) as F. split; [exact F|]. intros n. now apply play_some.
Qed.

(** Iterating until [next] first returns [None]. *)
Lemma drains_remains it xs it' : drains next it xs it' -> forall ks, remains it ks ->
  exists rest, ks = map Tok xs ++ rest /\
  match rest with
  | [] => ti_error it' = ti_error it
  | Stop e :: _ => ti_error it' = Some e
  | _ => False
  end.
Proof.
  induction 1 as [it it' E|it x it1 xs it' E D IH]; intros ks R; pose proof (next_item it ks R) as A.
  - destruct ks as [|[k|e|] ks]; cbn [after] in A.
    + exists []. split; [reflexivity|]. destruct A as (i & A & _ & X). rewrite E in A. now injection A as <-.
    + destruct A as (i & A & _). rewrite E in A. discriminate.
    + exists (Stop e :: ks). split; [reflexivity|]. destruct A as (i & A & _ & X). rewrite E in A. now injection A as <-.
    + congruence.
  - destruct ks as [|[k|e|] ks]; cbn [after] in A; try (destruct A as (i & A & R' & X); rewrite E in A; try discriminate); try congruence.
    injection A as <- <-. destruct (IH _ R') as (rest & -> & Y). exists rest. split; [reflexivity|]. now rewrite X in Y.
Qed.
Lemma yields_stream start new t xs it : yields pstate scopeop stack parse_line apply brk start new t xs it ->
  exists rest, stream pstate scopeop stack parse_line apply brk start new t = Some (map Tok xs ++ rest) /\
  match rest with
  | [] => ti_error it = None
  | Stop e :: _ => ti_error it = Some e
  | _ => False
  end.
Proof.
  intros (it0 & E & D). unfold stream, ti_new, parse_next_line in *. pose proof (lines_no_lf t) as F. pose proof (li_new_rem t) as R. rewrite <- wholes_full in R.
  pose proof (lines_of_ne t) as N. destruct (lines_of t) as [|c cs]; [contradiction|]. cbn [wholes] in R.
  cbn [ti_lines ti_parser] in E. destruct (li_next_some _ _ _ _ R) as (li' & El & R'). rewrite El in E. cbn [bind] in E.
  inversion_clear F as [|? ? F1 F2]. destruct (whole_eol c cs F1) as [He (z & Ew)].
  destruct (parse_line start (whole c cs)) as [[evs|] s]; [|discriminate]. injection E as <-.
  destruct (line_items 0 c evs new 0 0) as [ks sc] eqn:Ei.
  destruct (drains_remains _ _ _ D (ks ++ rest_items 1 cs s sc)) as (rest & -> & X); [|now exists rest].
  exists 1, cs. cbn [ti_lines ti_line ti_events ti_scopes ti_byte_offset ti_position ti_parser line offset].
  split; [assumption|]. split; [assumption|]. exists c, z. split; [assumption|]. split; [assumption|]. now rewrite Ei.
Qed.
End Stream.
