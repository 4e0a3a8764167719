(** Proofs: how a text is cut into tokens. *)
From Coq Require Import Sorted.
From Verif Require Import Base Utf8 Utf8Proofs Grapheme GraphemeProofs Position LineIterator Buffer Token
  Spec TextProofs TextFacts SearchProofs TokenSpec TokenProofs TokenProps TokenCuts.

Section Cuts.
Variables pstate scopeop stack : Type.
Variable parse_line : pstate -> text -> option (list (nat * scopeop)) * pstate.
Variable apply : stack -> scopeop -> stack * bool.
Variable new : stack.
Variable brk : brk_rule.
Hypothesis Hbd : on_boundaries pstate scopeop parse_line.
Notation lexemes := (lexemes scopeop stack apply brk).
Notation more := (more_tokens pstate scopeop stack parse_line apply brk).
Notation parses := (parse_all pstate scopeop parse_line).

Lemma skip_enc a x : skipn (blen a) (enc a ++ x) = x.
Proof. unfold blen. now rewrite skipn_app, skipn_all, Nat.sub_diag. Qed.

Lemma lexemes_pieces c z evs : (z = [] \/ z = [LF]) -> end_of_line (c ++ z) = blen c ->
  forall sc a r pos, c ++ z = a ++ r -> Forall (fun e => boundary (c ++ z) (fst e)) evs ->
  snd (lexemes (c ++ z) evs sc (blen a) pos) <> None ->
  map enc (map lx_value (fst (lexemes (c ++ z) evs sc (blen a) pos))) = pieces (enc c) (blen a) (map fst evs).
Proof.
  intros Hz Heol. induction evs as [|[e op] evs IH]; intros sc a r pos E Hb Hn; cbn [TokenProofs.lexemes map fst pieces] in *.
  - rewrite Heol. change (length (enc c)) with (blen c). destruct (Nat.ltb_spec (blen a) (blen c)) as [H|H]; [|reflexivity].
    destruct (rest_slice _ _ _ parse_line apply new _ _ _ _ E H) as (v & Ec & Es). unfold cut. rewrite Es. cbn. f_equal.
    now rewrite Ec, enc_app, skip_enc.
  - inversion_clear Hb as [|? ? He Hb']. cbn [fst] in He. destruct (apply sc op) as [sc' ok].
    destruct (Nat.ltb_spec (blen a) e) as [H|H].
    + rewrite Heol in *. destruct (slice_ok _ _ _ parse_line apply new _ _ _ _ _ E Hz He H) as (v & r' & Es & Esk & a' & Ea' & Ee & Er' & Hv & Ec).
      unfold cut in *. rewrite Es in *. destruct ok; [|now destruct Hn].
      subst e. revert Hn. set (pos' := Pos _ _). intros Hn. specialize (IH sc' a' _ pos' Ea' Hb').
      destruct (lexemes (c ++ z) evs sc' (blen a') pos') as [ls res]. cbn [fst snd map lx_value] in *.
      rewrite (IH Hn). f_equal. rewrite Ec, !enc_app. rewrite skip_enc.
      rewrite firstn_app. destruct Hv as [Hv|(_ & -> & He1 & He2)].
      * rewrite <- Hv. unfold blen. now rewrite firstn_all, Nat.sub_diag, app_nil_r.
      * cbn [enc flat_map]. rewrite firstn_nil, app_nil_r, firstn_all2; [reflexivity|]. fold (blen v). lia.
    + destruct ok; [|now destruct Hn]. exact (IH _ _ _ _ E Hb' Hn).
Qed.

Lemma token_lines_ne {S} (ks : list (token S)) : token_lines ks <> [].
Proof. induction ks as [|[|l] ks IH]; cbn; try discriminate. now destruct (token_lines ks). Qed.
Lemma token_lines_lexemes {S} (lx : list (lexeme S)) ks : token_lines (map Lexeme lx ++ ks) =
  match token_lines ks with vs :: ls => (map lx_value lx ++ vs) :: ls | [] => [] end.
Proof.
  induction lx as [|l lx IH]; cbn [map app token_lines]; [now destruct (token_lines ks)|].
  rewrite IH. now destruct (token_lines ks).
Qed.

Definition cut_line (lev : text * list (nat * scopeop)) : list (list byte) :=
  pieces (enc (fst lev)) 0 (map fst (snd lev)).

Lemma content_line l sc n s evs s' : parse_line s l = (Some evs, s') ->
  snd (lexemes l evs sc 0 (Pos n 0)) <> None ->
  exists c, (l = c \/ l = c ++ [LF]) /\ end_of_line l = blen c /\
    map enc (map lx_value (fst (lexemes l evs sc 0 (Pos n 0)))) = cut_line (c, evs).
Proof.
  intros El Hn. pose proof (Hbd _ _ _ _ El) as Hb. destruct (eol_split _ _ _ parse_line apply new l) as (c & z & -> & Heol & Hz & _).
  exists c. split; [destruct Hz as [->| ->]; [left; apply app_nil_r|now right]|]. split; [exact Heol|].
  exact (lexemes_pieces c z evs Hz Heol sc [] (c ++ z) (Pos n 0) eq_refl Hb Hn).
Qed.

Lemma more_cuts r : forall s sc n evss, snd (more s sc n (full_lines r)) = None ->
  parses s (full_lines r) = Some evss ->
  exists ls, token_lines (fst (more s sc n (full_lines r))) = [] :: ls /\
    map (map enc) ls = map cut_line (combine (lines_of r) evss) /\ length evss = length (lines_of r).
Proof.
  induction r as [m Hm|m r Hm IH] using text_line_ind; intros s sc n evss He Hp.
  - rewrite full_lines_one in * by assumption. rewrite lines_of_one by assumption. cbn [more_tokens parse_all] in *.
    destruct (parse_line s m) as [[evs|] s'] eqn:El; [|discriminate]. injection Hp as <-.
    pose proof (content_line m sc n s evs s' El) as C.
    destruct (lexemes m evs sc 0 (Pos n 0)) as [lx [sc'|]]; [|discriminate]. cbn [fst snd] in *.
    destruct (C ltac:(discriminate)) as (c & Hc & Hl & Ec).
    assert (c = m) as ->.
    { destruct Hc as [->| ->]; [reflexivity|]. exfalso. apply Hm, in_or_app. right. now left. }
    exists [map lx_value lx]. cbn [token_lines]. rewrite token_lines_lexemes. cbn [token_lines]. rewrite app_nil_r.
    split; [reflexivity|]. split; [cbn; now rewrite Ec|reflexivity].
  - rewrite full_lines_app in * by assumption. rewrite lines_of_app by assumption. cbn [more_tokens parse_all] in *.
    destruct (parse_line s (m ++ [LF])) as [[evs|] s'] eqn:El; [|discriminate].
    destruct (parses s' (full_lines r)) as [evss'|] eqn:Er; [|discriminate]. injection Hp as <-.
    pose proof (content_line (m ++ [LF]) sc n s evs s' El) as C.
    destruct (lexemes (m ++ [LF]) evs sc 0 (Pos n 0)) as [lx [sc'|]]; [|discriminate]. cbn [fst snd] in *.
    destruct (C ltac:(discriminate)) as (c & Hc & Hl & Ec).
    assert (c = m) as ->.
    { destruct Hc as [X|X]; [|now apply app_inj_tail in X as [-> _]].
      exfalso. rewrite <- X, (eol_lf _ _ apply new), blen_app in Hl. change (blen [LF]) with 1 in Hl. lia. }
    specialize (IH s' sc' (S n) evss'). destruct (more s' sc' (S n) (full_lines r)) as [ks e]. cbn [fst snd] in *.
    destruct (IH He Er) as (ls & E1 & E2 & E3). exists (map lx_value lx :: ls).
    cbn [token_lines]. rewrite token_lines_lexemes, E1, app_nil_r. split; [reflexivity|].
    split; [cbn; now rewrite Ec, E2|cbn; now rewrite E3].
Qed.

Lemma tokens_cut start data ks it : yields pstate scopeop stack parse_line apply brk start new data ks it ->
  ti_error it = None ->
  exists evss, parses start (full_lines data) = Some evss /\ length evss = length (lines_of data) /\
    map (map enc) (token_lines ks) = map cut_line (combine (lines_of data) evss).
Proof.
  intros Y He. destruct (yields_all _ _ _ _ _ _ _ Hbd _ _ _ _ Y) as (e & E & Ee & _).
  rewrite He in Ee. subst e.
  destruct (all_error _ _ _ parse_line apply new brk Hbd start data ks None E) as (evss & sc & Hp & _).
  exists evss. split; [exact Hp|]. rewrite all_tokens_more in E.
  destruct (parse_line start (hd [] (full_lines data))) as [[evs|] s'] eqn:El; [|discriminate].
  injection E as E1 E2. destruct (more_cuts data start new 0 evss E2 Hp) as (ls & L1 & L2 & L3).
  split; [exact L3|]. rewrite <- E1. rewrite <- L2.
  assert (X : exists ks', fst (more start new 0 (full_lines data)) = Newline :: ks').
  { assert (F : exists l ls', full_lines data = l :: ls').
    { unfold full_lines. destruct (removelast (lines_of data)) as [|l ls']; cbn [map app]; do 2 eexists; reflexivity. }
    destruct F as (l & ls' & F). rewrite F in *. cbn [hd more_tokens] in *. rewrite El in *.
    destruct (lexemes l evs new 0 (Pos 0 0)) as [lx [sc'|]]; [|discriminate].
    destruct (more s' sc' 1 ls') as [ks' e]. eexists. reflexivity. }
  destruct X as (ks' & X). rewrite X in *. cbn [token_lines tl] in *. now injection L1 as ->.
Qed.

(** ** Empty lexemes *)

Lemma pieces_empty bs os : StronglySorted le os -> forall from, Forall (fun o => from <= o) os ->
  Forall (fun o => o <= length bs + 1) os -> from <= length bs + 1 ->
  (In [] (pieces bs from os) <-> (from = length bs \/ In (length bs) os) /\ In (length bs + 1) os /\ from <= length bs).
Proof.
  induction 1 as [|o os Hs IH Hle]; intros from Hf Hb Hfr; cbn [pieces].
  - split; [|intros (_ & [] & _)]. destruct (Nat.ltb_spec from (length bs)) as [H|H]; [|intros []].
    intros [X|[]]. apply (f_equal (@length _)) in X. rewrite skipn_length in X. cbn in X. lia.
  - inversion_clear Hf as [|? ? Ho Hf']. inversion_clear Hb as [|? ? Hbo Hb'].
    destruct (Nat.ltb_spec from o) as [H|H].
    + cbn [In]. specialize (IH o Hle Hb' Hbo). rewrite IH.
      assert (Z : firstn (o - from) (skipn from bs) = [] <-> length bs <= from).
      { split.
        - intros X. apply (f_equal (@length _)) in X. rewrite firstn_length, skipn_length in X. cbn in X. lia.
        - intros X. rewrite (skipn_all2 bs) by lia. apply firstn_nil. }
      rewrite Z. rewrite Forall_forall in Hle. split.
      * intros [X|(X1 & X2 & X3)]; [split; [left; lia|split; [left; lia|lia]]|].
        split; [|split; [now right|lia]]. right. destruct X1 as [X1|X1]; [now left|now right].
      * intros (X1 & X2 & X3). destruct X1 as [->|X1]; [now left|].
        destruct X1 as [->|X1].
        -- right. split; [now left|]. split; [|lia]. destruct X2 as [X2|X2]; [lia|exact X2].
        -- pose proof (Hle _ X1). right. split; [now right|]. split; [|lia]. destruct X2 as [X2|X2]; [lia|exact X2].
    + assert (o = from) as -> by lia. rewrite (IH from Hle Hb' Hfr). cbn [In].
      split; intros (X1 & X2 & X3); repeat split; try exact X3.
      * destruct X1 as [X1|X1]; [now left|right; now right].
      * now right.
      * destruct X1 as [X1|[X1|X1]]; [now left|now left|now right].
      * destruct X2 as [X2|X2]; [lia|exact X2].
Qed.

Lemma parsed_line r : forall s evss line evs, parses s (full_lines r) = Some evss ->
  In (line, evs) (combine (lines_of r) evss) ->
  exists s0 s1 full, parse_line s0 full = (Some evs, s1) /\ (full = line \/ full = line ++ [LF]).
Proof.
  induction r as [m Hm|m r Hm IH] using text_line_ind; intros s evss line evs Hp Hi.
  - rewrite full_lines_one in Hp by assumption. rewrite lines_of_one in Hi by assumption. cbn [parse_all] in Hp.
    destruct (parse_line s m) as [[es|] s'] eqn:El; [|discriminate]. injection Hp as <-.
    cbn in Hi. destruct Hi as [[= <- <-]|[]]. exists s, s', m. auto.
  - rewrite full_lines_app in Hp by assumption. rewrite lines_of_app in Hi by assumption. cbn [parse_all] in Hp.
    destruct (parse_line s (m ++ [LF])) as [[es|] s'] eqn:El; [|discriminate].
    destruct (parses s' (full_lines r)) as [evss'|] eqn:Er; [|discriminate]. injection Hp as <-.
    cbn [combine In] in Hi. destruct Hi as [[= <- <-]|Hi]; [exists s, s', (m ++ [LF]); auto|eauto].
Qed.

Lemma in_token_lines {S} (ks : list (token S)) v :
  (exists l, In (Lexeme l) ks /\ lx_value l = v) <-> exists vs, In vs (token_lines ks) /\ In v vs.
Proof.
  induction ks as [|[|k] ks IH]; cbn [token_lines In].
  - split; [intros (? & [] & _)|intros (? & [<-|[]] & [])].
  - split.
    + intros (l & [X|X] & E); [discriminate|]. destruct (proj1 IH) as (vs & H1 & H2); eauto.
    + intros (vs & [<-|X] & E); [destruct E|]. destruct (proj2 IH) as (l & H1 & H2); eauto.
  - pose proof (token_lines_ne ks) as Ne. destruct (token_lines ks) as [|w ls]; [now destruct Ne|]. cbn [In] in *. split.
    + intros (l & [[= ->]|X] & E); [exists (lx_value l :: w); cbn; auto|].
      destruct (proj1 IH) as (vs & [<-|H1] & H2); [eauto| |]; eauto. exists (lx_value k :: w). cbn. auto.
    + intros (vs & [<-|X] & E); [destruct E as [E|E]; [eauto|]|];
        destruct (proj2 IH) as (l & H1 & H2); eauto.
Qed.

(** Some lexeme is empty exactly if the parser cuts a line both at its end and
    after its newline. *)
Lemma empty_exactly start data ks it : in_order pstate scopeop parse_line ->
  yields pstate scopeop stack parse_line apply brk start new data ks it -> ti_error it = None ->
  exists evss, parses start (full_lines data) = Some evss /\
    ((exists l, In (Lexeme l) ks /\ lx_value l = []) <->
     exists line evs, In (line, evs) (combine (lines_of data) evss) /\
       (line = [] \/ In (blen line) (map fst evs)) /\ In (blen line + 1) (map fst evs)).
Proof.
  intros Hord Y He. destruct (tokens_cut start data ks it Y He) as (evss & Hp & Hl & Hc). exists evss. split; [exact Hp|].
  assert (P : forall line evs, In (line, evs) (combine (lines_of data) evss) ->
    (In [] (cut_line (line, evs)) <-> (line = [] \/ In (blen line) (map fst evs)) /\ In (blen line + 1) (map fst evs))).
  { intros line evs Hi. destruct (parsed_line data start evss line evs Hp Hi) as (s0 & s1 & full & El & Hf).
    unfold cut_line. cbn [fst snd]. rewrite (pieces_empty (enc line) (map fst evs)).
    - fold (blen line). split.
      + intros ([X|X] & Y2 & _); (split; [|exact Y2]); [left|now right].
        now apply blen_zero.
      + intros ([->|X] & Y2); (split; [|split; [exact Y2|lia]]); [now left|now right].
    - apply Sorted_StronglySorted; [intros x y z0; lia|]. exact (Hord _ _ _ _ El).
    - apply Forall_forall. intros; lia.
    - apply Forall_forall. intros o Ho. apply in_map_iff in Ho as (e & <- & Ho).
      pose proof (Hbd _ _ _ _ El) as B. rewrite Forall_forall in B. destruct (B e Ho) as (a & r & Ea & ->).
      change (length (enc line)) with (blen line).
      assert (blen full = blen a + blen r) by (rewrite Ea; apply blen_app).
      assert (blen full <= blen line + 1).
      { destruct Hf as [->| ->]; [lia|]. rewrite blen_app. change (blen [LF]) with 1. lia. }
      lia.
    - lia. }
  rewrite in_token_lines. split.
  - intros (vs & H1 & H2). apply (in_map (map enc)) in H1. rewrite Hc in H1. apply in_map_iff in H1 as ([line evs] & E & Hi).
    exists line, evs. split; [exact Hi|]. apply P; [exact Hi|]. rewrite E. now apply (in_map enc) in H2.
  - intros (line & evs & Hi & H). apply P in H; [|exact Hi]. pose proof (in_map cut_line _ _ Hi) as Hm. rewrite <- Hc in Hm.
    apply in_map_iff in Hm as (vs & E & Hv). exists vs. split; [exact Hv|]. rewrite <- E in H.
    apply in_map_iff in H as (v & Ev & Hin). destruct v as [|ch v]; [exact Hin|].
    exfalso. apply (f_equal (@length _)) in Ev. now apply blen_zero in Ev.
Qed.
End Cuts.
