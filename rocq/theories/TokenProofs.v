(** Proofs about line iteration and tokens. *)
From Coq Require Import Sorted.
From Verif Require Import Base Utf8 Utf8Proofs Grapheme GraphemeProofs Position LineIterator Buffer Token
  Spec TextProofs TextFacts SearchProofs TokenSpec.

(** ** Slices *)
Lemma bskip_app a : forall b, bskip (a ++ b) (blen a) = Ok b.
Proof.
  induction a as [|c a IH]; intros b; [now destruct b|].
  cbn [app bskip]. rewrite blen_cons. pose proof (len1_pos c).
  destruct (len1 c + blen a) eqn:E; [lia|]. rewrite <- E.
  rewrite (proj2 (Nat.leb_le _ _)) by lia. now replace (len1 c + blen a - len1 c) with (blen a) by lia.
Qed.
Lemma btake_app a : forall b, btake (a ++ b) (blen a) = Ok a.
Proof.
  induction a as [|c a IH]; intros b; [now destruct b|].
  cbn [app btake]. rewrite blen_cons. pose proof (len1_pos c).
  destruct (len1 c + blen a) eqn:E; [lia|]. rewrite <- E.
  rewrite (proj2 (Nat.leb_le _ _)) by lia. replace (len1 c + blen a - len1 c) with (blen a) by lia.
  now rewrite IH.
Qed.
Lemma str_slice_app a v b : str_slice (a ++ v ++ b) (blen a) (blen a + blen v) = Ok v.
Proof.
  unfold str_slice, usub. rewrite (proj2 (Nat.leb_le _ _)) by lia. cbn [bind].
  rewrite bskip_app. cbn [bind]. replace (blen a + blen v - blen a) with (blen v) by lia. apply btake_app.
Qed.

(** ** Lines *)
Lemma full_lines_one l : ~ In LF l -> full_lines l = [l].
Proof. intros H. unfold full_lines. now rewrite lines_of_one. Qed.
Lemma full_lines_app l t : ~ In LF l -> full_lines (l ++ LF :: t) = (l ++ [LF]) :: full_lines t.
Proof.
  intros H. unfold full_lines. rewrite lines_of_app by assumption. pose proof (lines_of_ne t).
  destruct (lines_of t) as [|x xs]; [contradiction|]. reflexivity.
Qed.
Lemma full_lines_concat t : concat (full_lines t) = t.
Proof.
  induction t as [l Hl|l t Hl IH] using text_line_ind.
  - rewrite full_lines_one by assumption. apply app_nil_r.
  - rewrite full_lines_app by assumption. cbn [concat]. rewrite IH. now rewrite <- app_assoc.
Qed.
Lemma full_lines_length t : length (full_lines t) = length (lines_of t).
Proof.
  unfold full_lines. rewrite app_length, map_length. pose proof (lines_of_ne t).
  transitivity (length (removelast (lines_of t) ++ [last (lines_of t) []])).
  - now rewrite app_length.
  - now rewrite <- app_removelast_last.
Qed.
Lemma full_lines_lf t : Forall (fun l => forall a b, l = a ++ LF :: b -> b = []) (full_lines t).
Proof.
  induction t as [l Hl|l t Hl IH] using text_line_ind.
  - rewrite full_lines_one by assumption. constructor; [|constructor]. intros a b ->.
    exfalso. apply Hl. apply in_or_app. right. now left.
  - rewrite full_lines_app by assumption. constructor; [|assumption]. intros a b E.
    destruct b as [|x b _] using rev_ind; [reflexivity|].
    rewrite app_comm_cons, app_assoc in E. apply app_inj_tail in E as [-> <-].
    exfalso. apply Hl. apply in_or_app. right. now left.
Qed.

Lemma li_scan_lf l t e : ~ In LF l -> li_scan (l ++ LF :: t) e = (e + blen l + 1, true).
Proof.
  revert e; induction l as [|c l IH]; intros e H; cbn [app li_scan].
  - rewrite N.eqb_refl. f_equal. change (len1 LF) with 1. change (blen []) with 0. lia.
  - destruct (N.eqb_spec c LF) as [->|]; [exfalso; apply H; now left|].
    rewrite IH by (intros X; apply H; now right). rewrite blen_cons. f_equal. lia.
Qed.
Lemma li_scan_end l e : ~ In LF l -> li_scan l e = (e + blen l, false).
Proof.
  revert e; induction l as [|c l IH]; intros e H; cbn [li_scan].
  - f_equal. change (blen []) with 0. lia.
  - destruct (N.eqb_spec c LF) as [->|]; [exfalso; apply H; now left|].
    rewrite IH by (intros X; apply H; now right). rewrite blen_cons. f_equal. lia.
Qed.

Lemma count_lf_occ t : count_lf t = count_occ N.eq_dec t LF.
Proof.
  induction t as [|c t IH]; [reflexivity|]. unfold count_lf in *. cbn [filter count_occ].
  destruct (N.eqb_spec LF c) as [<-|Hc]; destruct (N.eq_dec _ LF) as [|Hn]; cbn [length]; try congruence.
Qed.

(** The iterator still has to yield the lines [ls], numbered from [n]. *)
Definition li_rem (it : line_iter) (n : nat) (ls : list text) : Prop :=
  (li_done it = true /\ ls = []) \/
  (li_done it = false /\ li_number it = n /\ exists pre rest, li_data it = pre ++ rest /\
     li_end it = blen pre /\ ls = full_lines rest).

Lemma li_new_rem t : li_rem (li_new t) 0 (full_lines t).
Proof. right. split; [reflexivity|]. split; [reflexivity|]. now exists [], t. Qed.
Lemma li_next_none it n : li_rem it n [] -> li_next it = Ok (None, it).
Proof.
  intros [[H _]|(_ & _ & pre & rest & _ & _ & E)]; [unfold li_next; now rewrite H|].
  apply (f_equal (@length _)) in E. rewrite full_lines_length, lines_count in E. simpl in E. lia.
Qed.
Lemma li_next_some it n l ls : li_rem it n (l :: ls) ->
  exists it', li_next it = Ok (Some (n, l), it') /\ li_rem it' (S n) ls.
Proof.
  intros [[_ H]|(Hd & <- & pre & rest & Hda & He & E)]; [discriminate|].
  unfold li_next. rewrite Hd, Hda, He, bskip_app. cbn [bind].
  destruct (text_line_ind (fun r => (exists m, r = m /\ ~ In LF m) \/ exists m t, r = m ++ LF :: t /\ ~ In LF m)
    ltac:(intros m Hm; left; eauto) ltac:(intros m t Hm _; right; eauto) rest) as [(m & -> & Hm)|(m & t & -> & Hm)].
  - rewrite full_lines_one in E by assumption. injection E as -> ->.
    rewrite li_scan_end by assumption.
    pose proof (str_slice_app pre m []) as X. rewrite app_nil_r in X. rewrite X. cbn [bind].
    unfold out_of_data. cbn [li_end li_data]. rewrite blen_app, Nat.eqb_refl. cbn [andb negb].
    eexists. split; [reflexivity|]. left. split; reflexivity.
  - rewrite full_lines_app in E by assumption. injection E as -> ->.
    rewrite li_scan_lf by assumption.
    pose proof (str_slice_app pre (m ++ [LF]) t) as X. rewrite blen_app in X.
    rewrite <- app_assoc in X. cbn [app] in X. change (blen [LF]) with 1 in X.
    rewrite Nat.add_assoc in X. rewrite X. cbn [bind negb]. rewrite andb_false_r.
    eexists. split; [reflexivity|]. right. cbn [li_done li_number li_data li_end].
    split; [reflexivity|]. split; [lia|]. exists (pre ++ m ++ [LF]), t.
    split; [now rewrite <- !app_assoc|]. split; [|reflexivity]. rewrite !blen_app. change (blen [LF]) with 1. lia.
Qed.

Lemma li_drains : forall ls it n, li_rem it n ls ->
  exists it', drains li_next it (combine (seq n (length ls)) ls) it' /\ li_next it' = Ok (None, it').
Proof.
  induction ls as [|l ls IH]; intros it n H.
  - pose proof (li_next_none _ _ H) as E. exists it. split; [now constructor|assumption].
  - destruct (li_next_some _ _ _ _ H) as (it1 & E & H1). destruct (IH _ _ H1) as (it' & D & E').
    exists it'. split; [|assumption]. cbn [length seq combine]. econstructor; eassumption.
Qed.

Lemma drains_det {I X} (next : I -> res (option X * I)) it xs it' :
  drains next it xs it' -> forall ys it'', drains next it ys it'' -> xs = ys /\ it' = it''.
Proof.
  induction 1 as [it it' E|it x it1 xs it' E D IH]; intros ys it'' D'; inversion D' as [? ? E'|? ? ? ? ? E' D'']; subst; rewrite E in E'.
  - now injection E' as <-.
  - discriminate.
  - discriminate.
  - injection E' as <- <-. destruct (IH _ _ D'') as [<- <-]. now split.
Qed.

Lemma lines_partition t : exists ls it, drains li_next (li_new t) ls it /\
  concat (map snd ls) = t /\ map fst ls = seq 0 (length ls) /\ map snd ls = full_lines t /\
  length ls = 1 + count_occ N.eq_dec t LF /\
  Forall (fun l => forall a b, snd l = a ++ LF :: b -> b = []) ls /\
  li_next it = Ok (None, it).
Proof.
  destruct (li_drains _ _ _ (li_new_rem t)) as (it & D & E). eexists _, it. split; [exact D|].
  assert (L : forall n (ls : list text), map fst (combine (seq n (length ls)) ls) = seq n (length ls) /\
    map snd (combine (seq n (length ls)) ls) = ls /\ length (combine (seq n (length ls)) ls) = length ls).
  { intros n ls. revert n. induction ls as [|l ls IH]; intros n; [now split|]. cbn [length seq combine map fst snd].
    destruct (IH (S n)) as (-> & -> & ->). repeat split. }
  destruct (L 0 (full_lines t)) as (L1 & L2 & L3).
  split; [rewrite L2; apply full_lines_concat|]. split; [now rewrite L3|]. split; [assumption|].
  split; [rewrite L3, full_lines_length, lines_count, count_lf_occ; lia|].
  split; [|assumption].
  pose proof (full_lines_lf t) as F. rewrite <- L2 in F at 1. now rewrite Forall_map in F.
Qed.

(** ** Tokens *)
Section Tokens.
Variables pstate scopeop stack : Type.
Variable parse_line : pstate -> text -> option (list (nat * scopeop)) * pstate.
Variable apply : stack -> scopeop -> stack * bool.
Variable stack_new : stack.
Variable brk : brk_rule.
Notation iter := (token_iter pstate scopeop stack).
Notation next := (ti_next pstate scopeop stack parse_line apply brk).
Notation build := (build_next_token pstate scopeop stack apply brk).
Notation applies := (apply_all scopeop stack apply).

Inductive runs : iter -> list (token stack) -> iter -> Prop :=
| runs_nil t : runs t [] t
| runs_cons t k t1 ks t' : next t = Ok (Some k, t1) -> runs t1 ks t' -> runs t (k :: ks) t'.
Lemma runs_drains t ks t1 : runs t ks t1 -> forall ks' t', drains next t1 ks' t' -> drains next t (ks ++ ks') t'.
Proof. induction 1; intros ks' t'' D; [assumption|]. econstructor; eauto. Qed.

Definition cut (l : text) (a b : nat) : text := match str_slice l a b with Ok v => v | Panic => [] end.
Definition boundary (l : text) (o : nat) : Prop := exists a r, l = a ++ r /\ o = blen a.

(** The lexemes of the rest of a line and the scopes after it. *)
Fixpoint lexemes (l : text) (evs : list (nat * scopeop)) (sc : stack) (boff : nat) (pos : position)
  : list (lexeme stack) * option stack :=
  match evs with
  | [] => (if boff <? end_of_line l then [Lex (cut l boff (end_of_line l)) sc pos] else [], Some sc)
  | (e, op) :: evs' =>
    let '(sc', ok) := apply sc op in
    if boff <? e then
      let v := cut l boff (Nat.min e (end_of_line l)) in
      if ok then
        let '(ls, r) := lexemes l evs' sc' e (Pos (line pos) (offset pos + length (graphemes brk v))) in
        (Lex v sc pos :: ls, r)
      else ([], None)
    else if ok then lexemes l evs' sc' boff pos else ([], None)
  end.

Lemma eol_split l : exists c z, l = c ++ z /\ end_of_line l = blen c /\ (z = [] \/ z = [LF]) /\ (z = [] -> ends_with_lf l = false).
Proof.
  unfold end_of_line, ends_with_lf. destruct l as [|x l _] using rev_ind; [exists [], []; intuition|].
  rewrite rev_app_distr. cbn [rev app]. destruct (N.eqb_spec x LF) as [->|H].
  - exists l, [LF]. split; [reflexivity|]. split; [|split; [now right|discriminate]].
    rewrite blen_app. change (blen [LF]) with 1. lia.
  - exists (l ++ [x]), []. split; [now rewrite app_nil_r|]. split; [reflexivity|]. split; [now left|reflexivity].
Qed.

Lemma app_cmp {A} (a : list A) : forall r b s, a ++ r = b ++ s ->
  (exists m, b = a ++ m /\ r = m ++ s) \/ (exists m, a = b ++ m /\ s = m ++ r).
Proof.
  induction a as [|x a IH]; intros r b s E.
  - left. now exists b.
  - destruct b as [|y b]; [right; now exists (x :: a)|]. injection E as <- E.
    destruct (IH _ _ _ E) as [(m & -> & ->)|(m & -> & ->)]; [left|right]; now exists m.
Qed.
Lemma blen_le_app (a b r s : text) : a ++ r = b ++ s -> blen a <= blen b -> exists m, b = a ++ m /\ r = m ++ s.
Proof.
  intros E H. destruct (app_cmp _ _ _ _ E) as [?|(m & -> & ->)]; [assumption|].
  rewrite blen_app in H. assert (blen m = 0) as Z by lia. apply blen_zero in Z as ->.
  exists []. now rewrite !app_nil_r.
Qed.

(** The slice taken for an event is the text up to it, without the newline. *)
Lemma slice_ok c z a r e : c ++ z = a ++ r -> (z = [] \/ z = [LF]) -> boundary (c ++ z) e -> blen a < e ->
  exists v r', str_slice (c ++ z) (blen a) (Nat.min e (blen c)) = Ok v /\ skipn (length a) c = v ++ r' /\
    exists a', c ++ z = a' ++ skipn (length a') (c ++ z) /\ e = blen a' /\ skipn (length a') c = r' /\
      (blen v = e - blen a \/ z = [LF] /\ r' = [] /\ e = blen c + 1 /\ blen a + blen v = blen c) /\ c = a ++ v ++ r'.
Proof.
  intros E Hz (a' & r' & E' & ->) Hlt. rewrite E in E'.
  destruct (blen_le_app _ _ _ _ E' ltac:(lia)) as (m & -> & ->).
  rewrite <- E in E'.
  assert (Hm : m <> []) by (intros ->; rewrite app_nil_r in Hlt; lia).
  destruct (app_cmp _ _ _ _ E') as [(n & Ea & Ez)|(n & Ec & Er)].
  - (* the event is at or after the end of the content *)
    destruct n as [|x n].
    + rewrite app_nil_r in Ea. subst c. exists m, [].
      rewrite Nat.min_id, blen_app. rewrite <- app_assoc. rewrite str_slice_app. split; [reflexivity|].
      split; [now rewrite skipn_app, skipn_all, Nat.sub_diag, app_nil_r|].
      exists (a ++ m). split; [now rewrite app_assoc, skipn_app, skipn_all, Nat.sub_diag|].
      split; [now rewrite blen_app|]. split; [apply skipn_all|]. rewrite app_nil_r. split; [left; lia|reflexivity].
    + destruct Hz as [->| ->]; [discriminate|]. injection Ez as <- Ez. destruct n as [|]; [|discriminate]. destruct r'; [|discriminate].
      (* a ++ m = c ++ [LF] *)
      destruct m as [|y m _] using rev_ind; [contradiction|]. rewrite app_assoc in Ea. apply app_inj_tail in Ea as [<- ->].
      exists m, []. rewrite Nat.min_r by (rewrite !blen_app; lia).
      rewrite blen_app at 1. rewrite <- app_assoc. rewrite str_slice_app. split; [reflexivity|].
      split; [now rewrite skipn_app, skipn_all, Nat.sub_diag, app_nil_r|].
      exists (a ++ m ++ [LF]). split; [now rewrite skipn_all, app_nil_r|].
      split; [reflexivity|]. split; [rewrite app_assoc; apply skipn_all2; rewrite !app_length; simpl; lia|].
      rewrite app_nil_r. split; [right|reflexivity]. split; [reflexivity|]. split; [reflexivity|].
      rewrite !blen_app. change (blen [LF]) with 1. lia.
  - subst c. exists m, n. rewrite Nat.min_l by (rewrite !blen_app; lia).
    rewrite blen_app. rewrite <- !app_assoc. rewrite str_slice_app. split; [reflexivity|].
    split; [now rewrite skipn_app, skipn_all, Nat.sub_diag|].
    exists (a ++ m). split; [now rewrite app_assoc, skipn_app, skipn_all, Nat.sub_diag|].
    split; [now rewrite blen_app|]. split; [now rewrite app_assoc, skipn_app, skipn_all, Nat.sub_diag|].
    split; [left; lia|]. reflexivity.
Qed.

Fixpoint lex_pos (n off : nat) (ls : list (lexeme stack)) : Prop :=
  match ls with
  | [] => True
  | l :: ls' => lx_position l = Pos n off /\ lex_pos n (off + length (graphemes brk (lx_value l))) ls'
  end.
Definition not_inside (a v : text) (e : nat * scopeop) : Prop :=
  ~ (blen a < fst e < blen a + blen v).
Fixpoint lex_scopes (evs : list (nat * scopeop)) (sc0 : stack) (a : text) (ls : list (lexeme stack)) : Prop :=
  match ls with
  | [] => True
  | l :: ls' =>
    applies sc0 (map snd (filter (fun e => fst e <=? blen a) evs)) = Some (lx_scope l) /\
    Forall (not_inside a (lx_value l)) evs /\ lex_scopes evs sc0 (a ++ lx_value l) ls'
  end.

Lemma applies_app sc xs ys : applies sc (xs ++ ys) =
  match applies sc xs with Some sc' => applies sc' ys | None => None end.
Proof.
  revert sc; induction xs as [|x xs IH]; intros sc; [reflexivity|]. cbn [app apply_all].
  destruct (apply sc x) as [sc' []]; [apply IH|reflexivity].
Qed.

Lemma rest_slice (c z a r : text) : c ++ z = a ++ r -> blen a < blen c ->
  exists v, c = a ++ v /\ str_slice (c ++ z) (blen a) (blen c) = Ok v.
Proof.
  intros E H. destruct (blen_le_app _ _ _ _ (eq_sym E) ltac:(lia)) as (m & -> & ->).
  exists m. split; [reflexivity|]. rewrite blen_app. rewrite <- app_assoc. apply str_slice_app.
Qed.

Section Line.
Variables c z : text.
Hypothesis Hz : z = [] \/ z = [LF].
Hypothesis Heol : end_of_line (c ++ z) = blen c.
Notation bounds evs := (Forall (fun e => boundary (c ++ z) (fst e)) evs).

Lemma lexemes_res evs : forall sc boff pos,
  snd (lexemes (c ++ z) evs sc boff pos) = applies sc (map snd evs).
Proof.
  induction evs as [|[e op] evs IH]; intros sc boff pos; [reflexivity|].
  cbn [lexemes map snd apply_all]. destruct (apply sc op) as [sc' ok].
  destruct (boff <? e), ok; try reflexivity; [|apply IH].
  specialize (IH sc' e (Pos (line pos) (offset pos + length (graphemes brk (cut (c ++ z) boff (Nat.min e (end_of_line (c ++ z))))))) ).
  destruct (lexemes _ _ _ _ _) as [ls r]. exact IH.
Qed.

Lemma boundary_le o : boundary (c ++ z) o -> o <= blen (c ++ z).
Proof. intros (a & r & -> & ->). rewrite blen_app. lia. Qed.
Lemma cz_le : blen (c ++ z) <= blen c + 1.
Proof. rewrite blen_app. destruct Hz as [->| ->]; [change (blen []) with 0|change (blen [LF]) with 1]; lia. Qed.

Lemma lexemes_past evs : bounds evs -> forall sc pos, fst (lexemes (c ++ z) evs sc (blen c + 1) pos) = [].
Proof.
  induction evs as [|[e op] evs IH]; intros Hb sc pos.
  - cbn [lexemes]. rewrite Heol. now rewrite (proj2 (Nat.ltb_ge _ _)) by lia.
  - inversion_clear Hb as [|? ? He Hb']. cbn [fst] in He. apply boundary_le in He. pose proof cz_le.
    cbn [lexemes]. rewrite (proj2 (Nat.ltb_ge _ _)) by lia.
    destruct (apply sc op) as [sc' []]; [apply IH; assumption|reflexivity].
Qed.

Lemma at_eol a r : c ++ z = a ++ r -> blen c <= blen a -> skipn (length a) c = [].
Proof.
  intros E H. destruct (blen_le_app _ _ _ _ E H) as (m & -> & ->). apply skipn_all2. rewrite app_length. lia.
Qed.

Lemma lexemes_text evs : forall sc a r pos, c ++ z = a ++ r -> bounds evs ->
  exists w, skipn (length a) c = concat (map lx_value (fst (lexemes (c ++ z) evs sc (blen a) pos))) ++ w /\
    (snd (lexemes (c ++ z) evs sc (blen a) pos) <> None -> w = []).
Proof.
  induction evs as [|[e op] evs IH]; intros sc a r pos E Hb; cbn [lexemes].
  - rewrite Heol. exists []. split; [|reflexivity]. cbn [fst]. destruct (Nat.ltb_spec (blen a) (blen c)) as [H|H].
    + destruct (rest_slice _ _ _ _ E H) as (v & Ec & Es). unfold cut. rewrite Es.
      rewrite Ec at 1. rewrite skipn_app, skipn_all, Nat.sub_diag. cbn. now rewrite !app_nil_r.
    + rewrite (at_eol _ _ E H). reflexivity.
  - inversion_clear Hb as [|? ? He Hb']. cbn [fst] in He.
    destruct (apply sc op) as [sc' ok]. destruct (Nat.ltb_spec (blen a) e) as [H|H].
    + rewrite Heol. destruct (slice_ok _ _ _ _ _ E Hz He H) as (v & r' & Es & Esk & a' & Ea' & -> & Er' & _ & Ec).
      unfold cut. rewrite Es. destruct ok.
      * set (pos' := Pos _ _). destruct (IH sc' a' _ pos' Ea' Hb') as (w & Ew & Hw).
        destruct (lexemes (c ++ z) evs sc' (blen a') pos') as [ls res]. cbn [fst snd map concat lx_value] in *.
        exists w. split; [|assumption]. rewrite Esk, <- app_assoc, <- Ew, Er'. reflexivity.
      * exists (skipn (length a) c). split; [reflexivity|]. now intros [].
    + destruct ok; [eapply IH; eassumption|]. eexists. split; [reflexivity|]. now intros [].
Qed.

Lemma lexemes_pos evs : forall sc boff pos,
  lex_pos (line pos) (offset pos) (fst (lexemes (c ++ z) evs sc boff pos)).
Proof.
  induction evs as [|[e op] evs IH]; intros sc boff [n off]; cbn [lexemes].
  - destruct (_ <? _); cbn; auto.
  - destruct (apply sc op) as [sc' ok]. destruct (boff <? e), ok; cbn [fst]; try exact I; [|apply (IH _ _ (Pos n off))].
    specialize (IH sc' e (Pos n (off + length (graphemes brk (cut (c ++ z) boff (Nat.min e (end_of_line (c ++ z)))))))).
    cbn [line offset] in *. destruct (lexemes _ _ _ _ _) as [ls r]. cbn [fst lex_pos lx_position lx_value]. now split.
Qed.

Lemma filter_all {A} (f : A -> bool) l : Forall (fun x => f x = true) l -> filter f l = l.
Proof. induction 1 as [|x l H _ IH]; cbn; [reflexivity|]. now rewrite H, IH. Qed.
Lemma filter_none {A} (f : A -> bool) l : Forall (fun x => f x = false) l -> filter f l = [].
Proof. induction 1 as [|x l H _ IH]; cbn; [reflexivity|]. now rewrite H, IH. Qed.

Lemma lexemes_scopes evs : forall before sc0 sc a r pos, c ++ z = a ++ r -> bounds evs ->
  StronglySorted le (map fst evs) -> Forall (fun e => fst e <= blen a) before ->
  applies sc0 (map snd before) = Some sc ->
  lex_scopes (before ++ evs) sc0 a (fst (lexemes (c ++ z) evs sc (blen a) pos)).
Proof.
  induction evs as [|[e op] evs IH]; intros before sc0 sc a r pos E Hb Hs Hd Hap; cbn [lexemes].
  - rewrite Heol, app_nil_r. cbn [fst]. destruct (blen a <? blen c); [|exact I]. cbn [lex_scopes lx_scope lx_value].
    rewrite filter_all by (eapply Forall_impl; [|exact Hd]; intros; now apply Nat.leb_le).
    split; [assumption|]. split; [|exact I]. eapply Forall_impl; [|exact Hd]. unfold not_inside. intros x Hx Hx'. cbn in Hx. lia.
  - inversion_clear Hb as [|? ? He Hb']. cbn [fst map] in He, Hs. inversion_clear Hs as [|? ? Hs' Hle].
    destruct (apply sc op) as [sc' ok] eqn:Eap.
    assert (Hap' : ok = true -> applies sc0 (map snd (before ++ [(e, op)])) = Some sc').
    { intros ->. rewrite map_app, applies_app, Hap. cbn. now rewrite Eap. }
    replace (before ++ (e, op) :: evs) with ((before ++ [(e, op)]) ++ evs) in * by now rewrite <- app_assoc.
    destruct (Nat.ltb_spec (blen a) e) as [H|H].
    + rewrite Heol. destruct (slice_ok _ _ _ _ _ E Hz He H) as (v & r' & Es & Esk & a' & Ea' & Ee & Er' & Hv & Ec).
      unfold cut. rewrite Es. destruct ok; [|exact I].
      assert (Hle' : Forall (fun x => e <= fst x) evs) by now rewrite Forall_map in Hle.
      assert (Hd' : Forall (fun x => fst x <= e) (before ++ [(e, op)])).
      { apply Forall_app. split; [eapply Forall_impl; [|exact Hd]; cbn; intros; lia|]. constructor; [cbn; lia|constructor]. }
      match goal with |- lex_scopes ?X _ _ _ =>
        assert (Hhead : applies sc0 (map snd (filter (fun e => fst e <=? blen a) X)) = Some sc /\
                 Forall (not_inside a v) X) end.
      { rewrite <- app_assoc. split.
        - rewrite !filter_app. rewrite (filter_all _ before) by (eapply Forall_impl; [|exact Hd]; intros; now apply Nat.leb_le).
          rewrite (filter_none _ [(e, op)]) by (constructor; [apply Nat.leb_gt; cbn; lia|constructor]).
          rewrite (filter_none _ evs) by (eapply Forall_impl; [|exact Hle']; intros x Hx; cbv beta in *; apply Nat.leb_gt; lia).
          now rewrite app_nil_r.
        - unfold not_inside. apply Forall_app. split; [eapply Forall_impl; [|exact Hd]; intros x Hx; cbv beta in *; lia|].
          constructor; [cbn; lia|]. eapply Forall_impl; [|exact Hle']. intros x Hx; cbv beta in *; lia. }
      set (pos' := Pos _ _). destruct Hv as [Hv|(_ & _ & Hv & Hv')].
      * (* the next state is just after the value *)
        assert (Ea : a' = a ++ v).
        { rewrite Ec in Ea'. assert (X : a ++ v ++ r' ++ z = a' ++ skipn (length a') (c ++ z)) by (rewrite <- Ec in Ea'; rewrite <- Ea'; now rewrite Ec, <- !app_assoc).
          rewrite app_assoc in X. destruct (blen_le_app _ _ _ _ X) as (m & -> & _); [rewrite blen_app; lia|].
          rewrite !blen_app in Ee. assert (blen m = 0) as Z by lia. apply blen_zero in Z as ->.
          now rewrite app_nil_r. }
        rewrite Ee in *. pose proof (IH (before ++ [(blen a', op)]) sc0 sc' a' _ pos' Ea' Hb' Hs' Hd' (Hap' eq_refl)) as P.
        destruct (lexemes (c ++ z) evs sc' (blen a') pos') as [ls res]. cbn [fst lex_scopes lx_scope lx_value] in *.
        rewrite <- Ea. split; [apply Hhead|]. split; [apply Hhead|exact P].
      * rewrite Hv. pose proof (lexemes_past evs Hb' sc' pos') as P.
        destruct (lexemes (c ++ z) evs sc' (blen c + 1) pos') as [ls res]. cbn [fst] in P. subst ls.
        cbn [fst lex_scopes lx_scope lx_value]. rewrite <- Hv. split; [apply Hhead|]. split; [apply Hhead|exact I].
    + destruct ok; [|exact I]. eapply IH; try eassumption; [|now apply Hap'].
      apply Forall_app. split; [assumption|]. constructor; [cbn; lia|constructor].
Qed.
End Line.

(** One line of tokens. *)
Definition kept (t t' : iter) : Prop :=
  ti_parser t' = ti_parser t /\ ti_lines t' = ti_lines t /\ ti_error t' = ti_error t.
Definition line_outcome (t : iter) (ls : list (lexeme stack)) (r : option stack) : Prop :=
  exists t1, runs t (map Lexeme ls) t1 /\
    match r with
    | Some sc' => exists t2, build t1 = Ok (BNone stack, t2) /\ ti_scopes t2 = sc' /\ ti_line t2 = None /\ kept t t2
    | None => exists t2, build t1 = Ok (BErr stack ScopeError, t2)
    end.

Lemma next_build t t' : build t = build t' -> next t = next t'.
Proof. unfold ti_next. now intros ->. Qed.

Lemma line_steps l evs : forall t, Forall (fun e => boundary l (fst e)) evs ->
  ti_line t = Some l -> ti_events t = evs -> boundary l (ti_byte_offset t) ->
  let '(ls, r) := lexemes l evs (ti_scopes t) (ti_byte_offset t) (ti_position t) in line_outcome t ls r.
Proof.
  destruct (eol_split l) as (c & z & -> & Heol & Hz & _).
  induction evs as [|[e op] evs IH]; intros t Hb Hl Hev Ho; cbn [lexemes].
  - rewrite Heol. destruct (Nat.ltb_spec (ti_byte_offset t) (blen c)) as [H|H].
    + destruct Ho as (a & r & E & Eo). rewrite Eo in *.
      destruct (rest_slice _ _ _ _ E H) as (v & Ec & Es). unfold cut. rewrite Es.
      exists (TI (ti_scopes t) (ti_parser t) (ti_lines t) None (ti_byte_offset t) (ti_position t) [] (ti_error t)).
      split.
      * cbn [map]. econstructor; [|constructor]. unfold ti_next, build_next_token. rewrite Hl, Hev. cbn [build_loop].
        rewrite Heol, Eo, (proj2 (Nat.ltb_lt _ _) H), Es. cbn [bind]. reflexivity.
      * exists (TI (ti_scopes t) (ti_parser t) (ti_lines t) None (ti_byte_offset t) (ti_position t) [] (ti_error t)).
        unfold build_next_token. cbn [ti_line ti_scopes]. repeat split.
    + exists t. split; [constructor|]. eexists. split.
      * unfold build_next_token. rewrite Hl, Hev. cbn [build_loop].
        rewrite Heol, (proj2 (Nat.ltb_ge _ _) H). cbn [bind]. reflexivity.
      * cbn. repeat split.
  - inversion_clear Hb as [|? ? He Hb']. cbn [fst] in He.
    assert (Hbl : build t = let* (r, scopes, boff, pos, evs', keep) :=
        build_loop scopeop stack apply brk (c ++ z) (blen c) ((e, op) :: evs) (ti_scopes t) (ti_byte_offset t) (ti_position t) in
      Ok (r, TI scopes (ti_parser t) (ti_lines t) (if (keep : bool) then Some (c ++ z) else None) boff pos evs' (ti_error t))).
    { unfold build_next_token. now rewrite Hl, Hev, Heol. }
    cbn [build_loop] in Hbl.
    destruct (apply (ti_scopes t) op) as [sc' ok] eqn:Eap. destruct (Nat.ltb_spec (ti_byte_offset t) e) as [H|H].
    + destruct Ho as (a & r & E & Eo). rewrite Eo in *. rewrite Heol.
      destruct (slice_ok _ _ _ _ _ E Hz He H) as (v & r' & Es & _). unfold cut. rewrite Es in Hbl |- *. cbn [bind] in Hbl.
      destruct ok.
      * set (pos' := Pos _ _) in *.
        pose (t1 := TI sc' (ti_parser t) (ti_lines t) (Some (c ++ z)) e pos' evs (ti_error t)).
        specialize (IH t1 Hb' eq_refl eq_refl He). cbn [t1 ti_scopes ti_byte_offset ti_position] in IH.
        destruct (lexemes (c ++ z) evs sc' e pos') as [ls res]. destruct IH as (t2 & R & Hr).
        exists t2. split; [|exact Hr]. cbn [map]. econstructor; [|exact R].
        unfold ti_next. rewrite Hbl. reflexivity.
      * exists t. split; [constructor|]. eexists. rewrite Hbl. reflexivity.
    + destruct ok.
      * pose (t1 := TI sc' (ti_parser t) (ti_lines t) (Some (c ++ z)) (ti_byte_offset t) (ti_position t) evs (ti_error t)).
        assert (Ebt : build t = build t1).
        { rewrite Hbl. unfold build_next_token. cbn [t1 ti_line ti_events ti_scopes ti_byte_offset ti_position ti_parser ti_lines ti_error].
          rewrite Heol. reflexivity. }
        specialize (IH t1 Hb' eq_refl eq_refl Ho). cbn [t1 ti_scopes ti_byte_offset ti_position] in IH. fold t1 in IH.
        destruct (lexemes (c ++ z) evs sc' (ti_byte_offset t) (ti_position t)) as [ls res]. destruct IH as (t2 & R & Hr).
        destruct ls as [|x ls].
        { inversion R; subst. exists t. split; [constructor|]. now rewrite Ebt. }
        { exists t2. split; [|exact Hr]. inversion R as [|? ? ? ? ? E1 R1]; subst. cbn [map]. econstructor; [|exact R1].
          now rewrite (next_build _ _ Ebt). }
      * exists t. split; [constructor|]. eexists. rewrite Hbl. reflexivity.
Qed.

(** The tokens of the remaining lines, each preceded by a newline. *)
Fixpoint more_tokens (s : pstate) (sc : stack) (n : nat) (ls : list text) : list (token stack) * option error :=
  match ls with
  | [] => ([], None)
  | l :: ls' =>
    match parse_line s l with
    | (None, _) => ([], Some ParsingError)
    | (Some evs, s') =>
      let '(lx, r) := lexemes l evs sc 0 (Pos n 0) in
      match r with
      | None => (Newline :: map Lexeme lx, Some ScopeError)
      | Some sc' => let '(ks, e) := more_tokens s' sc' (S n) ls' in (Newline :: map Lexeme lx ++ ks, e)
      end
    end
  end.

Lemma boundary_0 l : boundary l 0.
Proof. now exists [], l. Qed.

Lemma parse_next_some t n l ls : li_rem (ti_lines t) n (l :: ls) ->
  exists it', li_rem it' (S n) ls /\
  parse_next_line pstate scopeop stack parse_line t =
    match parse_line (ti_parser t) l with
    | (None, s') => Ok (Some ParsingError, TI (ti_scopes t) s' it' (ti_line t) (ti_byte_offset t) (ti_position t) (ti_events t) (ti_error t))
    | (Some evs, s') => Ok (None, TI (ti_scopes t) s' it' (Some l) 0 (Pos n 0) evs (ti_error t))
    end.
Proof.
  intros H. destruct (li_next_some _ _ _ _ H) as (it' & E & H'). exists it'. split; [assumption|].
  unfold parse_next_line. rewrite E. cbn [bind]. destruct (parse_line (ti_parser t) l) as [[evs|] s']; reflexivity.
Qed.

Lemma drains_build t t1 ks t' : build t = build t1 -> drains next t1 ks t' -> drains next t ks t'.
Proof. intros E D. inversion D; subst; econstructor; rewrite ?(next_build _ _ E); eassumption. Qed.

Hypothesis Hbd : on_boundaries pstate scopeop parse_line.

Lemma more_drains : forall ls n t1 t2, build t1 = Ok (BNone stack, t2) -> ti_line t2 = None ->
  li_rem (ti_lines t2) n ls -> ti_error t2 = None ->
  exists t', drains next t1 (fst (more_tokens (ti_parser t2) (ti_scopes t2) n ls)) t' /\
    ti_error t' = snd (more_tokens (ti_parser t2) (ti_scopes t2) n ls) /\
    (ti_error t' = None -> next t' = Ok (None, t')).
Proof.
  induction ls as [|l ls IH]; intros n t1 t2 Eb Hl Hli He.
  - exists t2. cbn [more_tokens fst snd].
    assert (Ep : parse_next_line pstate scopeop stack parse_line t2 = Ok (None, t2)).
    { unfold parse_next_line. rewrite (li_next_none _ _ Hli). cbn [bind]. destruct t2; cbn in *. now subst. }
    split; [|split; [assumption|]].
    + constructor. unfold ti_next. rewrite Eb. cbn [bind]. rewrite Ep. cbn [bind]. now rewrite Hl.
    + intros _. unfold ti_next, build_next_token. rewrite Hl. cbn [bind]. rewrite Ep. cbn [bind]. now rewrite Hl.
  - cbn [more_tokens]. destruct (parse_next_some _ _ _ _ Hli) as (it' & Hli' & Ep).
    destruct (parse_line (ti_parser t2) l) as [[evs|] s'] eqn:El.
    + set (t3 := TI _ _ _ _ _ _ _ _) in Ep.
      assert (En : next t1 = Ok (Some Newline, t3)).
      { unfold ti_next. rewrite Eb. cbn [bind]. rewrite Ep. reflexivity. }
      pose proof (line_steps l evs t3 (Hbd _ _ _ _ El) eq_refl eq_refl (boundary_0 l)) as L.
      cbn [t3 ti_scopes ti_byte_offset ti_position] in L. fold t3 in L.
      destruct (lexemes l evs (ti_scopes t2) 0 (Pos n 0)) as [lx r]. destruct L as (t4 & R & L).
      destruct r as [sc'|].
      * destruct L as (t5 & Eb5 & Es5 & Hl5 & Ep5 & Eli5 & Ee5).
        destruct (IH (S n) t4 t5 Eb5 Hl5) as (t' & D & De & Dn); [now rewrite Eli5|now rewrite Ee5|].
        rewrite Es5, Ep5 in D, De. cbn [t3 ti_parser] in D, De.
        destruct (more_tokens s' sc' (S n) ls) as [ks e]. cbn [fst snd] in *.
        exists t'. split; [|split; assumption]. econstructor; [exact En|]. eapply runs_drains; eassumption.
      * destruct L as (t5 & Eb5). exists (set_error _ _ _ t5 ScopeError). cbn [fst snd].
        split; [|split; [reflexivity|discriminate]]. econstructor; [exact En|].
        rewrite <- (app_nil_r (map _ _)). eapply runs_drains; [exact R|]. constructor.
        unfold ti_next. rewrite Eb5. reflexivity.
    + cbn [fst snd]. eexists. split; [constructor; unfold ti_next; rewrite Eb; cbn [bind]; rewrite Ep; reflexivity|].
      split; [reflexivity|discriminate].
Qed.

(** All tokens of a text. *)
Definition all_tokens (start : pstate) (t : text) : option (list (token stack) * option error) :=
  match full_lines t with
  | [] => None
  | l :: ls =>
    match parse_line start l with
    | (None, _) => None
    | (Some evs, s') =>
      let '(lx, r) := lexemes l evs stack_new 0 (Pos 0 0) in
      match r with
      | None => Some (map Lexeme lx, Some ScopeError)
      | Some sc' => let '(ks, e) := more_tokens s' sc' 1 ls in Some (map Lexeme lx ++ ks, e)
      end
    end
  end.

Lemma all_drains start data :
  match all_tokens start data with
  | None => ti_new _ _ _ parse_line stack_new data start = Ok (RErr ParsingError)
  | Some (ks, e) => exists t t', ti_new _ _ _ parse_line stack_new data start = Ok (ROk t) /\
      drains next t ks t' /\ ti_error t' = e /\ (e = None -> next t' = Ok (None, t'))
  end.
Proof.
  unfold all_tokens, ti_new. pose proof (li_new_rem data) as Hli.
  assert (Hne : full_lines data <> []).
  { intros E. apply (f_equal (@length _)) in E. rewrite full_lines_length, lines_count in E. simpl in E. lia. }
  destruct (full_lines data) as [|l ls]; [contradiction|]. clear Hne.
  set (t0 := TI _ _ _ _ _ _ _ _). destruct (parse_next_some t0 0 l ls Hli) as (it' & Hli' & Ep). rewrite Ep.
  change (ti_parser t0) with start. destruct (parse_line start l) as [[evs|] s'] eqn:El; [|reflexivity].
  cbn [bind]. set (t3 := TI _ _ _ _ _ _ _ _).
  pose proof (line_steps l evs t3 (Hbd _ _ _ _ El) eq_refl eq_refl (boundary_0 l)) as L.
  change (ti_scopes t3) with stack_new in L. change (ti_byte_offset t3) with 0 in L. change (ti_position t3) with (Pos 0 0) in L.
  destruct (lexemes l evs stack_new 0 (Pos 0 0)) as [lx r]. destruct L as (t4 & R & L).
  destruct r as [sc'|].
  - destruct L as (t5 & Eb5 & Es5 & Hl5 & Ep5 & Eli5 & Ee5).
    destruct (more_drains ls 1 t4 t5 Eb5 Hl5) as (t' & D & De & Dn); [now rewrite Eli5|now rewrite Ee5|].
    rewrite Es5, Ep5 in D, De. change (ti_parser t3) with s' in D, De.
    destruct (more_tokens s' sc' 1 ls) as [ks e]. cbn [fst snd] in *.
    exists t3, t'. split; [reflexivity|]. split; [eapply runs_drains; eassumption|]. split; [assumption|]. intros X. apply Dn. congruence.
  - destruct L as (t5 & Eb5). exists t3, (set_error _ _ _ t5 ScopeError). split; [reflexivity|].
    split; [|split; [reflexivity|discriminate]].
    rewrite <- (app_nil_r (map _ _)). eapply runs_drains; [exact R|]. constructor. unfold ti_next. rewrite Eb5. reflexivity.
Qed.

Lemma eol_none m : ~ In LF m -> end_of_line m = blen m.
Proof.
  intros H. unfold end_of_line, ends_with_lf. destruct m as [|x m _] using rev_ind; [reflexivity|].
  rewrite rev_app_distr. cbn [rev app]. destruct (N.eqb_spec x LF) as [->|]; [|reflexivity].
  exfalso. apply H. apply in_or_app. right. now left.
Qed.
Lemma eol_lf m : end_of_line (m ++ [LF]) = blen m.
Proof.
  unfold end_of_line, ends_with_lf. rewrite rev_app_distr. cbn [rev app]. rewrite N.eqb_refl, blen_app.
  change (blen [LF]) with 1. lia.
Qed.

Lemma text_of_app {S} (a b : list (token S)) : text_of (a ++ b) = text_of a ++ text_of b.
Proof. unfold text_of. now rewrite map_app, concat_app. Qed.
Lemma text_of_lexemes {S} (ls : list (lexeme S)) : text_of (map Lexeme ls) = concat (map lx_value ls).
Proof. unfold text_of. now rewrite map_map. Qed.

(** A condition on each lexeme and the tokens before it. *)
Fixpoint each (P : list (token stack) -> lexeme stack -> Prop) (pre ks : list (token stack)) : Prop :=
  match ks with
  | [] => True
  | k :: ks' => match k with Lexeme l => P pre l | Newline => True end /\ each P (pre ++ [k]) ks'
  end.
Lemma each_app P ks ks' : forall pre, each P pre (ks ++ ks') <-> each P pre ks /\ each P (pre ++ ks) ks'.
Proof.
  induction ks as [|k ks IH]; intros pre; cbn [app each]; [rewrite app_nil_r; tauto|].
  rewrite IH, <- app_assoc. cbn [app]. tauto.
Qed.
Lemma each_split P ks pre : each P pre ks -> forall a l b, ks = a ++ Lexeme l :: b -> P (pre ++ a) l.
Proof. intros H a l b ->. apply each_app in H as [_ [H _]]. exact H. Qed.

(** The lines of a line-by-line recursion. *)
Lemma one_line m evs sc n : ~ In LF m -> Forall (fun e => boundary m (fst e)) evs ->
  exists w, m = concat (map lx_value (fst (lexemes m evs sc 0 (Pos n 0)))) ++ w /\
    (snd (lexemes m evs sc 0 (Pos n 0)) <> None -> w = []).
Proof.
  intros Hm Hb. rewrite <- (app_nil_r m) in Hb.
  destruct (lexemes_text m [] (or_introl eq_refl) ltac:(rewrite app_nil_r; now apply eol_none) evs sc [] (m ++ []) (Pos n 0) eq_refl Hb) as (w & E & H).
  rewrite app_nil_r in E, H. now exists w.
Qed.
Lemma lf_line m evs sc n : Forall (fun e => boundary (m ++ [LF]) (fst e)) evs ->
  exists w, m = concat (map lx_value (fst (lexemes (m ++ [LF]) evs sc 0 (Pos n 0)))) ++ w /\
    (snd (lexemes (m ++ [LF]) evs sc 0 (Pos n 0)) <> None -> w = []).
Proof.
  intros Hb. destruct (lexemes_text m [LF] (or_intror eq_refl) (eol_lf m) evs sc [] (m ++ [LF]) (Pos n 0) eq_refl Hb) as (w & E & H).
  now exists w.
Qed.

Lemma more_text r : forall s sc n, let '(ks, e) := more_tokens s sc n (full_lines r) in
  exists w, LF :: r = text_of ks ++ w /\ (e = None -> w = []).
Proof.
  induction r as [m Hm|m r Hm IH] using text_line_ind; intros s sc n.
  - rewrite full_lines_one by assumption. cbn [more_tokens].
    destruct (parse_line s m) as [[evs|] s'] eqn:El; [|eexists; split; [reflexivity|discriminate]].
    destruct (one_line m evs sc n Hm (Hbd _ _ _ _ El)) as (w & Ew & Hw).
    destruct (lexemes m evs sc 0 (Pos n 0)) as [lx [sc'|]]; cbn [fst snd] in *; exists w; rewrite ?app_nil_r.
    + split; [|intros _; now apply Hw]. rewrite Ew at 1. unfold text_of. cbn [map concat token_text app].
      f_equal. fold (@text_of stack (map Lexeme lx)). now rewrite text_of_lexemes.
    + split; [|discriminate]. rewrite Ew at 1. unfold text_of. cbn [map concat token_text app].
      f_equal. fold (@text_of stack (map Lexeme lx)). now rewrite text_of_lexemes.
  - rewrite full_lines_app by assumption. cbn [more_tokens].
    destruct (parse_line s (m ++ [LF])) as [[evs|] s'] eqn:El; [|eexists; split; [reflexivity|discriminate]].
    destruct (lf_line m evs sc n (Hbd _ _ _ _ El)) as (w & Ew & Hw).
    destruct (lexemes (m ++ [LF]) evs sc 0 (Pos n 0)) as [lx [sc'|]]; cbn [fst snd] in *.
    + specialize (IH s' sc' (S n)). destruct (more_tokens s' sc' (S n) (full_lines r)) as [ks e].
      destruct IH as (w' & Ew' & Hw'). exists w'. split; [|assumption].
      rewrite (Hw ltac:(discriminate)), app_nil_r in Ew.
      change (Newline :: map Lexeme lx ++ ks) with ([Newline] ++ map Lexeme lx ++ ks).
      rewrite !text_of_app, text_of_lexemes, <- Ew, <- !app_assoc, <- Ew'. reflexivity.
    + exists (w ++ LF :: r). split; [|discriminate].
      change (Newline :: map Lexeme lx) with ([Newline] ++ map Lexeme lx).
      rewrite text_of_app, text_of_lexemes. rewrite Ew at 1. now rewrite <- !app_assoc.
Qed.

Lemma all_text start data ks e : all_tokens start data = Some (ks, e) ->
  exists w, data = text_of ks ++ w /\ (e = None -> w = []).
Proof.
  unfold all_tokens. destruct data as [m Hm|m r Hm _] using text_line_ind.
  - rewrite full_lines_one by assumption.
    destruct (parse_line start m) as [[evs|] s'] eqn:El; [|discriminate].
    destruct (one_line m evs stack_new 0 Hm (Hbd _ _ _ _ El)) as (w & Ew & Hw).
    destruct (lexemes m evs stack_new 0 (Pos 0 0)) as [lx [sc'|]]; cbn [fst snd more_tokens] in *; intros E; injection E as <- <-;
      exists w; rewrite ?app_nil_r, text_of_lexemes; (split; [assumption|]); [intros _; now apply Hw|discriminate].
  - rewrite full_lines_app by assumption.
    destruct (parse_line start (m ++ [LF])) as [[evs|] s'] eqn:El; [|discriminate].
    destruct (lf_line m evs stack_new 0 (Hbd _ _ _ _ El)) as (w & Ew & Hw).
    destruct (lexemes (m ++ [LF]) evs stack_new 0 (Pos 0 0)) as [lx [sc'|]]; cbn [fst snd] in *.
    + pose proof (more_text r s' sc' 1) as M. destruct (more_tokens s' sc' 1 (full_lines r)) as [ks' e'].
      intros E; injection E as <- <-. destruct M as (w' & Ew' & Hw'). exists w'. split; [|assumption].
      rewrite (Hw ltac:(discriminate)), app_nil_r in Ew. now rewrite text_of_app, text_of_lexemes, <- Ew, <- app_assoc, <- Ew'.
    + intros E; injection E as <- <-. exists (w ++ LF :: r). split; [|discriminate].
      rewrite text_of_lexemes. rewrite Ew at 1. now rewrite <- app_assoc.
Qed.

Notation parses := (parse_all pstate scopeop parse_line).
(** Which failure an iteration reports, and where. *)
Lemma more_error ls : forall s sc n, Forall (fun l => exists m, l = m ++ [LF]) (removelast ls) ->
  match snd (more_tokens s sc n ls) with
  | None => exists evss sc', parses s ls = Some evss /\ applies sc (map snd (concat evss)) = Some sc'
  | Some ParsingError => exists k evss, parses s (firstn k ls) = Some evss /\ parses s (firstn (S k) ls) = None /\
      text_of (fst (more_tokens s sc n ls)) ++ [LF] = LF :: concat (firstn k ls)
  | Some ScopeError => exists k evss, parses s (firstn k ls) = Some evss /\ applies sc (map snd (concat evss)) = None
  | Some _ => False
  end.
Proof.
  induction ls as [|l ls IH]; intros s sc n Hls; cbn [more_tokens parse_all].
  - cbn [snd]. exists [], sc. now split.
  - destruct (parse_line s l) as [[evs|] s'] eqn:El.
    2: { cbn [fst snd]. exists 0, []. cbn [firstn parse_all]. rewrite El. repeat split. }
    pose proof (Hbd _ _ _ _ El) as Hb.
    destruct (eol_split l) as (c & z & -> & _). pose proof (lexemes_res c z evs sc 0 (Pos n 0)) as R.
    assert (Hlf : ls <> [] -> exists m, c ++ z = m ++ [LF]).
    { destruct ls; [contradiction|]. cbn [removelast] in Hls. inversion_clear Hls. auto. }
    assert (Hls' : Forall (fun l => exists m, l = m ++ [LF]) (removelast ls)).
    { destruct ls; [constructor|]. cbn [removelast] in Hls |- *. now inversion_clear Hls. }
    assert (Ht : ls <> [] -> snd (lexemes (c ++ z) evs sc 0 (Pos n 0)) <> None ->
      text_of (map Lexeme (fst (lexemes (c ++ z) evs sc 0 (Pos n 0)))) ++ [LF] = c ++ z).
    { intros Hne Hr. destruct (Hlf Hne) as (m & Em). rewrite Em in *.
      destruct (lf_line m evs sc n Hb) as (w & Ew & Hw). rewrite (Hw Hr), app_nil_r in Ew.
      now rewrite text_of_lexemes, <- Ew. }
    destruct (lexemes (c ++ z) evs sc 0 (Pos n 0)) as [lx [sc'|]]; cbn [fst snd] in R, Ht; symmetry in R.
    + specialize (IH s' sc' (S n) Hls'). destruct (more_tokens s' sc' (S n) ls) as [ks e] eqn:Em. cbn [fst snd] in *.
      destruct e as [[]|]; try exact IH.
      * destruct IH as (k & evss & E1 & E2 & E3). exists (S k), (evs :: evss).
        split; [cbn [firstn parse_all]; now rewrite El, E1|].
        split; [change (firstn (S (S k)) ((c ++ z) :: ls)) with ((c ++ z) :: firstn (S k) ls);
                cbn [parse_all]; rewrite El, E2; reflexivity|].
        cbn [firstn concat].
        assert (Hne : ls <> []) by (intros ->; cbn [firstn] in E2; rewrite ?firstn_nil in E2; discriminate).
        change (Newline :: map Lexeme lx ++ ks) with ([Newline] ++ map Lexeme lx ++ ks).
        rewrite !text_of_app, <- !app_assoc, E3. change (text_of [Newline]) with [LF]. cbn [app]. f_equal.
        rewrite (app_assoc c z), <- (Ht Hne ltac:(discriminate)), <- app_assoc. reflexivity.
      * destruct IH as (k & evss & E1 & E2). exists (S k), (evs :: evss). cbn [firstn parse_all concat].
        rewrite El, E1, map_app, applies_app, R. now split.
      * destruct IH as (evss & sc'' & E1 & E2). exists (evs :: evss), sc''. rewrite E1. split; [reflexivity|].
        cbn [concat]. rewrite map_app, applies_app, R. exact E2.
    + cbn [snd]. exists 1, [evs]. cbn [firstn parse_all concat]. rewrite El, app_nil_r. now split.
Qed.

(** Only the last lexeme of a line can be empty. *)
Fixpoint adjacent (ks : list (token stack)) : Prop :=
  match ks with
  | Lexeme l :: ((Lexeme _ :: _) as ks') => lx_value l <> [] /\ adjacent ks'
  | _ :: ks' => adjacent ks'
  | [] => True
  end.
Lemma adjacent_split ks : adjacent ks -> forall pre l l' post, ks = pre ++ Lexeme l :: Lexeme l' :: post -> lx_value l <> [].
Proof.
  intros H pre. revert ks H. induction pre as [|k pre IH]; intros ks H l l' post ->.
  - apply H.
  - cbn [app] in H. eapply (IH (pre ++ Lexeme l :: Lexeme l' :: post)); [|reflexivity].
    destruct k as [|x]; [exact H|]. cbn [adjacent] in H. destruct (pre ++ Lexeme l :: Lexeme l' :: post) as [|[|y] r]; tauto.
Qed.
Lemma adjacent_app lx ks : adjacent (map Lexeme lx) -> adjacent (Newline :: ks) -> adjacent (map Lexeme lx ++ Newline :: ks).
Proof.
  intros H1 H2. induction lx as [|l lx IH]; [exact H2|]. cbn [map app].
  destruct lx as [|l' lx]; [exact H2|]. cbn [map app adjacent] in *. destruct H1 as [H1 H1']. split; [assumption|]. now apply IH.
Qed.
Lemma lexemes_adjacent c z evs : (z = [] \/ z = [LF]) -> end_of_line (c ++ z) = blen c -> forall sc a r pos, c ++ z = a ++ r ->
  Forall (fun e => boundary (c ++ z) (fst e)) evs -> adjacent (map Lexeme (fst (lexemes (c ++ z) evs sc (blen a) pos))).
Proof.
  intros Hz Heol. induction evs as [|[e op] evs IH]; intros sc a r pos E Hb; cbn [lexemes].
  - destruct (_ <? _); cbn; auto.
  - inversion_clear Hb as [|? ? He Hb']. cbn [fst] in He. destruct (apply sc op) as [sc' ok].
    destruct (Nat.ltb_spec (blen a) e) as [H|H].
    + rewrite Heol. destruct (slice_ok _ _ _ _ _ E Hz He H) as (v & r' & Es & Esk & a' & Ea' & Ee & Er' & Hv & Ec).
      unfold cut. rewrite Es. destruct ok; [|exact I]. set (pos' := Pos _ _).
      pose proof (IH sc' a' _ pos' Ea' Hb') as P. rewrite <- Ee in P.
      destruct Hv as [Hv|(_ & _ & Hv & _)].
      * destruct (lexemes (c ++ z) evs sc' e pos') as [[|x ls] res]; cbn [fst map adjacent] in *; [exact I|].
        split; [|exact P]. intros X. cbn in X. subst v. change (blen []) with 0 in Hv. lia.
      * rewrite Hv. pose proof (lexemes_past c z Hz Heol evs Hb' sc' pos') as P'.
        destruct (lexemes (c ++ z) evs sc' (blen c + 1) pos') as [ls res]. cbn [fst] in P'. subst ls. exact I.
    + destruct ok; [eapply IH; eassumption|exact I].
Qed.
Lemma more_adjacent ls : forall s sc n, adjacent (fst (more_tokens s sc n ls)) /\
  match fst (more_tokens s sc n ls) with Lexeme _ :: _ => False | _ => True end.
Proof.
  induction ls as [|l ls IH]; intros s sc n; cbn [more_tokens]; [now split|].
  destruct (parse_line s l) as [[evs|] s'] eqn:El; [|now split].
  pose proof (Hbd _ _ _ _ El) as Hb. destruct (eol_split l) as (c & z & -> & Heol & Hz & _).
  pose proof (lexemes_adjacent c z evs Hz Heol sc [] (c ++ z) (Pos n 0) eq_refl Hb) as A. change (blen []) with 0 in A.
  destruct (lexemes (c ++ z) evs sc 0 (Pos n 0)) as [lx [sc'|]]; cbn [fst] in *; [|now split].
  specialize (IH s' sc' (S n)). destruct (more_tokens s' sc' (S n) ls) as [ks e]. cbn [fst] in *. destruct IH as [I1 I2].
  split; [|exact I]. cbn [adjacent]. destruct ks as [|[|k] ks]; [now rewrite app_nil_r|now apply adjacent_app|contradiction].
Qed.

Lemma all_tokens_more start data : all_tokens start data =
  match parse_line start (hd [] (full_lines data)) with
  | (None, _) => None
  | _ => Some (tl (fst (more_tokens start stack_new 0 (full_lines data))), snd (more_tokens start stack_new 0 (full_lines data)))
  end.
Proof.
  unfold all_tokens.
  assert (Hne : full_lines data <> []).
  { intros E. apply (f_equal (@length _)) in E. rewrite full_lines_length, lines_count in E. simpl in E. lia. }
  destruct (full_lines data) as [|l ls]; [contradiction|]. cbn [hd more_tokens].
  destruct (parse_line start l) as [[evs|] s']; [|reflexivity].
  destruct (lexemes l evs stack_new 0 (Pos 0 0)) as [lx [sc'|]]; [|reflexivity].
  now destruct (more_tokens s' sc' 1 ls).
Qed.

Lemma lexemes_no_lf lx (m w : text) : ~ In LF m -> m = concat (map lx_value lx) ++ w ->
  Forall (fun l : lexeme stack => ~ In LF (lx_value l)) lx.
Proof.
  intros Hm ->. apply Forall_forall. intros l Hl X. apply Hm. apply in_or_app. left. apply in_concat.
  exists (lx_value l). split; [now apply in_map|assumption].
Qed.

Lemma lines_of_done cs a : Forall (fun l => ~ In LF l) cs -> ~ In LF a ->
  lines_of (concat (map (fun l => l ++ [LF]) cs) ++ a) = cs ++ [a].
Proof.
  intros H Ha. induction H as [|c cs Hc _ IH]; cbn [map concat app]; [now apply lines_of_one|].
  rewrite <- !app_assoc. cbn [app]. rewrite lines_of_app by assumption. now rewrite IH.
Qed.

Inductive parsed : pstate -> list text -> list (list (nat * scopeop)) -> pstate -> Prop :=
| parsed_nil s : parsed s [] [] s
| parsed_cons s l evs s1 ls evss s2 : parse_line s l = (Some evs, s1) -> parsed s1 ls evss s2 ->
    parsed s (l :: ls) (evs :: evss) s2.
Lemma parsed_snoc s ls evss s1 l evs s2 : parsed s ls evss s1 -> parse_line s1 l = (Some evs, s2) ->
  parsed s (ls ++ [l]) (evss ++ [evs]) s2.
Proof. induction 1; intros E; cbn [app]; econstructor; try eassumption; [constructor|now apply IHparsed]. Qed.
Lemma parsed_all s ls evss s1 : parsed s ls evss s1 -> parses s ls = Some evss.
Proof. induction 1 as [|s l evs s1 ls evss s2 E _ IH]; cbn [parse_all]; [reflexivity|]. now rewrite E, IH. Qed.
Lemma parsed_length s ls evss s1 : parsed s ls evss s1 -> length evss = length ls.
Proof. induction 1; cbn [length]; congruence. Qed.

Lemma full_lines_ends t : Forall (fun l => exists m, l = m ++ [LF]) (removelast (full_lines t)).
Proof.
  unfold full_lines. rewrite removelast_last. apply Forall_map, Forall_forall. intros l _. now exists l.
Qed.

Lemma all_error start data ks e : all_tokens start data = Some (ks, e) ->
  match e with
  | None => all_fine pstate scopeop stack parse_line apply start stack_new data
  | Some ParsingError => exists k evss, parses start (firstn k (full_lines data)) = Some evss /\
      parses start (firstn (S k) (full_lines data)) = None /\ text_of ks ++ [LF] = concat (firstn k (full_lines data))
  | Some ScopeError => exists k evss, parses start (firstn k (full_lines data)) = Some evss /\
      applies stack_new (map snd (concat evss)) = None
  | Some _ => False
  end.
Proof.
  rewrite all_tokens_more. pose proof (more_error (full_lines data) start stack_new 0 (full_lines_ends data)) as M.
  pose proof (proj2 (more_adjacent (full_lines data) start stack_new 0)) as Hn.
  destruct (parse_line start (hd [] (full_lines data))) as [[evs|] s'] eqn:El; [|discriminate].
  intros E. injection E as <- <-.
  destruct (snd (more_tokens start stack_new 0 (full_lines data))) as [[]|] eqn:Es; try exact M.
  destruct M as (k & evss & E1 & E2 & E3). exists k, evss. split; [assumption|]. split; [assumption|].
  destruct (fst (more_tokens start stack_new 0 (full_lines data))) as [|[|x] ks] eqn:Ek.
  - (* no token: the first line failed *)
    exfalso. destruct (full_lines data) as [|l ls] eqn:Ef; [discriminate|]. cbn [hd] in El. cbn [more_tokens] in Ek, Es.
    rewrite El in Ek, Es. destruct (lexemes l evs stack_new 0 (Pos 0 0)) as [lx [sc'|]]; [|discriminate].
    now destruct (more_tokens s' sc' 1 ls).
  - cbn [tl]. change (Newline :: ks) with ([Newline] ++ ks) in E3. rewrite text_of_app in E3. now injection E3.
  - contradiction.
Qed.
Lemma all_adjacent start data ks e : all_tokens start data = Some (ks, e) -> adjacent ks.
Proof.
  rewrite all_tokens_more. destruct (more_adjacent (full_lines data) start stack_new 0) as [A Hn].
  destruct (parse_line start (hd [] (full_lines data))) as [[evs|] s'] eqn:El; [|discriminate].
  intros E. injection E as <- _. destruct (fst _) as [|[|x] ks]; [exact I|exact A|contradiction].
Qed.
Lemma all_none start data : all_tokens start data = None -> parses start (firstn 1 (full_lines data)) = None.
Proof.
  rewrite all_tokens_more. pose proof (full_lines_length data) as L. rewrite lines_count in L.
  destruct (full_lines data) as [|l ls]; [cbn in L; lia|]. cbn [hd firstn parse_all].
  destruct (parse_line start l) as [[evs|] s']; [discriminate|reflexivity].
Qed.

Section Data.
Variable start : pstate.
Variable data : text.

Definition at_scope (pre : list (token stack)) (l : lexeme stack) : Prop :=
  scope_at pstate scopeop stack parse_line apply start stack_new data (end_line (text_of pre)) (end_byte (text_of pre))
    = Some (lx_scope l) /\
  forall evss, parses start (firstn (S (end_line (text_of pre))) (full_lines data)) = Some evss ->
    Forall (fun e => ~ (end_byte (text_of pre) < fst e < end_byte (text_of pre) + blen (lx_value l)))
      (nth (end_line (text_of pre)) evss []).
Definition at_pos (pre : list (token stack)) (l : lexeme stack) : Prop :=
  ~ In LF (lx_value l) /\
  lx_position l = Pos (end_line (text_of pre))
    (list_sum (map (fun v => length (graphemes brk v)) (last_line_values pre []))).

(** What precedes line [n]. *)
Record done_lines (n : nat) (cs : list text) (rest : list text) (evss : list (list (nat * scopeop)))
       (s : pstate) (sc : stack) : Prop := {
  dl_n : length cs = n;
  dl_lf : Forall (fun l => ~ In LF l) cs;
  dl_all : full_lines data = map (fun l => l ++ [LF]) cs ++ rest;
  dl_parsed : parsed start (map (fun l => l ++ [LF]) cs) evss s;
  dl_scope : applies stack_new (map snd (concat evss)) = Some sc }.

Lemma done_end n cs rest evss s sc a : done_lines n cs rest evss s sc -> ~ In LF a ->
  end_line (concat (map (fun l => l ++ [LF]) cs) ++ a) = n /\ end_byte (concat (map (fun l => l ++ [LF]) cs) ++ a) = blen a.
Proof.
  intros D Ha. unfold end_line, end_byte. rewrite lines_of_done by (assumption || apply D).
  rewrite last_last, app_length, (dl_n _ _ _ _ _ _ D). cbn [length]. split; [lia|reflexivity].
Qed.

Lemma last_values_app {S} (pre ks : list (token S)) : forall acc,
  last_line_values (pre ++ ks) acc = last_line_values ks (last_line_values pre acc).
Proof. induction pre as [|[|l] pre IH]; intros acc; cbn [app last_line_values]; auto. Qed.

Lemma block_pos n cs rest evss s sc lx : done_lines n cs rest evss s sc ->
  Forall (fun l : lexeme stack => ~ In LF (lx_value l)) lx ->
  forall pre vs, Forall (fun v => ~ In LF v) vs ->
  text_of pre = concat (map (fun l => l ++ [LF]) cs) ++ concat vs -> last_line_values pre [] = vs ->
  lex_pos n (list_sum (map (fun v => length (graphemes brk v)) vs)) lx ->
  each at_pos pre (map Lexeme lx).
Proof.
  intros D F. induction F as [|l lx Hl _ IH]; intros pre vs Hv Et El Hp; cbn [map each]; [exact I|].
  destruct Hp as [Hp1 Hp2]. split.
  - split; [assumption|]. rewrite Hp1, El, Et. f_equal. symmetry. eapply done_end; [eassumption|].
    intros X. apply in_concat in X as (v & Iv & X). eapply Forall_forall in Hv; [|exact Iv]. contradiction.
  - apply IH with (vs := vs ++ [lx_value l]).
    + apply Forall_app. split; [assumption|now constructor].
    + rewrite text_of_app, Et, concat_app, <- app_assoc. reflexivity.
    + rewrite last_values_app, El. reflexivity.
    + rewrite map_app, list_sum_app. cbn [map list_sum fold_right]. now rewrite Nat.add_0_r.
Qed.

Lemma block_scope n cs rest evss s sc lx l evs s' : done_lines n cs (l :: rest) evss s sc ->
  parse_line s l = (Some evs, s') ->
  Forall (fun l : lexeme stack => ~ In LF (lx_value l)) lx ->
  forall pre a, ~ In LF a ->
  text_of pre = concat (map (fun l => l ++ [LF]) cs) ++ a ->
  lex_scopes evs sc a lx -> each at_scope pre (map Lexeme lx).
Proof.
  intros D Ep F. induction F as [|x lx Hl _ IH]; intros pre a Ha Et Hs; cbn [map each]; [exact I|].
  destruct Hs as (Hs1 & Hs2 & Hs3). split.
  - destruct (done_end _ _ _ _ _ _ _ D Ha) as [E1 E2]. unfold at_scope, scope_at. rewrite Et, E1, E2.
    assert (El : length (map (fun l => l ++ [LF]) cs) = n) by now rewrite map_length, (dl_n _ _ _ _ _ _ D).
    pose proof (parsed_length _ _ _ _ (dl_parsed _ _ _ _ _ _ D)) as El'. rewrite El in El'.
    assert (Ef : firstn (S n) (full_lines data) = map (fun l => l ++ [LF]) cs ++ [l]).
    { rewrite (dl_all _ _ _ _ _ _ D), firstn_app, El. rewrite firstn_all2 by lia.
      replace (S n - n) with 1 by lia. reflexivity. }
    rewrite Ef, (parsed_all _ _ _ _ (parsed_snoc _ _ _ _ _ _ _ (dl_parsed _ _ _ _ _ _ D) Ep)).
    assert (En : nth n (evss ++ [evs]) [] = evs) by (rewrite app_nth2 by lia; now rewrite El', Nat.sub_diag).
    split.
    + rewrite En, firstn_app, El', Nat.sub_diag, app_nil_r, firstn_all2 by lia.
      rewrite map_app, applies_app, (dl_scope _ _ _ _ _ _ D). exact Hs1.
    + intros evss' X. injection X as <-. rewrite En. exact Hs2.
  - apply IH with (a := a ++ lx_value x).
    + intros X. apply in_app_or in X. tauto.
    + rewrite text_of_app, Et, <- app_assoc. f_equal. f_equal. unfold text_of. cbn. now rewrite app_nil_r.
    + exact Hs3.
Qed.

Lemma done_next n cs m rest evss s sc evs s' sc' : done_lines n cs ((m ++ [LF]) :: rest) evss s sc ->
  ~ In LF m -> parse_line s (m ++ [LF]) = (Some evs, s') -> applies sc (map snd evs) = Some sc' ->
  done_lines (S n) (cs ++ [m]) rest (evss ++ [evs]) s' sc'.
Proof.
  intros D Hm Ep Ea. constructor.
  - rewrite app_length, (dl_n _ _ _ _ _ _ D). cbn. lia.
  - apply Forall_app. split; [apply D|now constructor].
  - rewrite map_app, <- app_assoc. apply D.
  - rewrite map_app. eapply parsed_snoc; [apply D|exact Ep].
  - rewrite concat_app, map_app, applies_app, (dl_scope _ _ _ _ _ _ D). cbn. now rewrite app_nil_r.
Qed.

Lemma line_each (m z : text) evs n sc : ~ In LF m -> z = [] \/ z = [LF] ->
  Forall (fun e => boundary (m ++ z) (fst e)) evs ->
  Forall (fun l : lexeme stack => ~ In LF (lx_value l)) (fst (lexemes (m ++ z) evs sc 0 (Pos n 0))) /\
  lex_pos n 0 (fst (lexemes (m ++ z) evs sc 0 (Pos n 0))) /\
  (Sorted le (map fst evs) -> lex_scopes evs sc [] (fst (lexemes (m ++ z) evs sc 0 (Pos n 0)))).
Proof.
  intros Hm Hz Hb. split; [|split].
  - destruct Hz as [->| ->].
    + rewrite app_nil_r in *. destruct (one_line m evs sc n Hm Hb) as (w & E & _). eapply lexemes_no_lf; eassumption.
    + destruct (lf_line m evs sc n Hb) as (w & E & _). eapply lexemes_no_lf; eassumption.
  - apply (lexemes_pos m z evs sc 0 (Pos n 0)).
  - intros Hs. apply Sorted_StronglySorted in Hs; [|intros x y w; apply Nat.le_trans].
    apply (lexemes_scopes m z Hz ltac:(destruct Hz as [->| ->]; [rewrite app_nil_r; now apply eol_none|apply eol_lf])
      evs [] sc sc [] (m ++ z) (Pos n 0)); auto.
Qed.

Lemma more_each r : forall n cs evss s sc pre, done_lines n cs (full_lines r) evss s sc ->
  text_of (pre ++ [Newline]) = concat (map (fun l => l ++ [LF]) cs) ->
  each at_pos pre (fst (more_tokens s sc n (full_lines r))) /\
  (in_order pstate scopeop parse_line -> each at_scope pre (fst (more_tokens s sc n (full_lines r)))).
Proof.
  induction r as [m Hm|m r Hm IH] using text_line_ind; intros n cs evss s sc pre D Et.
  - rewrite full_lines_one in * by assumption. cbn [more_tokens].
    destruct (parse_line s m) as [[evs|] s'] eqn:El; [|now split].
    pose proof (Hbd _ _ _ _ El) as Hb. rewrite <- (app_nil_r m) in Hb.
    destruct (line_each m [] evs n sc Hm (or_introl eq_refl) Hb) as (F & Hp & Hs). rewrite app_nil_r in *.
    assert (Ev : last_line_values (pre ++ [Newline]) [] = []) by now rewrite last_values_app.
    assert (G : each at_pos pre (Newline :: map Lexeme (fst (lexemes m evs sc 0 (Pos n 0)))) /\
      (in_order pstate scopeop parse_line -> each at_scope pre (Newline :: map Lexeme (fst (lexemes m evs sc 0 (Pos n 0)))))).
    { cbn [each]. split; [split; [exact I|]|intros Ho; split; [exact I|]].
      - eapply block_pos with (vs := []); try eassumption; [constructor|now rewrite app_nil_r].
      - eapply block_scope with (a := []); try eassumption; [intros []|now rewrite app_nil_r|]. apply Hs. eapply Ho; eassumption. }
    destruct (lexemes m evs sc 0 (Pos n 0)) as [lx [sc'|]]; cbn [fst] in *; rewrite ?app_nil_r; exact G.
  - rewrite full_lines_app in * by assumption. cbn [more_tokens].
    destruct (parse_line s (m ++ [LF])) as [[evs|] s'] eqn:El; [|now split].
    destruct (line_each m [LF] evs n sc Hm (or_intror eq_refl) (Hbd _ _ _ _ El)) as (F & Hp & Hs).
    pose proof (lexemes_res m [LF] evs sc 0 (Pos n 0)) as R.
    destruct (lf_line m evs sc n (Hbd _ _ _ _ El)) as (w & Ew & Hw).
    assert (Ev : last_line_values (pre ++ [Newline]) [] = []) by now rewrite last_values_app.
    assert (G : each at_pos pre (Newline :: map Lexeme (fst (lexemes (m ++ [LF]) evs sc 0 (Pos n 0)))) /\
      (in_order pstate scopeop parse_line -> each at_scope pre (Newline :: map Lexeme (fst (lexemes (m ++ [LF]) evs sc 0 (Pos n 0)))))).
    { cbn [each]. split; [split; [exact I|]|intros Ho; split; [exact I|]].
      - eapply block_pos with (vs := []); try eassumption; [constructor|now rewrite app_nil_r].
      - eapply block_scope with (a := []); try eassumption; [intros []|now rewrite app_nil_r|]. apply Hs. eapply Ho; eassumption. }
    destruct (lexemes (m ++ [LF]) evs sc 0 (Pos n 0)) as [lx [sc'|]]; cbn [fst snd] in *; [|exact G].
    specialize (IH (S n) (cs ++ [m]) (evss ++ [evs]) s' sc' (pre ++ Newline :: map Lexeme lx) (done_next _ _ _ _ _ _ _ _ _ _ D Hm El (eq_sym R))).
    destruct (more_tokens s' sc' (S n) (full_lines r)) as [ks e]. cbn [fst] in *.
    destruct IH as [IH1 IH2].
    { rewrite (Hw ltac:(discriminate)), app_nil_r in Ew. replace (pre ++ Newline :: map Lexeme lx) with ((pre ++ [Newline]) ++ map Lexeme lx) by now rewrite <- app_assoc.
      rewrite !text_of_app. rewrite <- text_of_app, Et, text_of_lexemes, <- Ew, map_app, concat_app. cbn. rewrite app_nil_r. now rewrite <- app_assoc. }
    change (Newline :: map Lexeme lx ++ ks) with ((Newline :: map Lexeme lx) ++ ks).
    split; [apply each_app; split; [apply G|exact IH1]|]. intros Ho. apply each_app. split; [now apply G|now apply IH2].
Qed.

Lemma all_each ks e : all_tokens start data = Some (ks, e) ->
  each at_pos [] ks /\ (in_order pstate scopeop parse_line -> each at_scope [] ks).
Proof.
  unfold all_tokens.
  assert (D0 : done_lines 0 [] (full_lines data) [] start stack_new) by (constructor; auto; constructor).
  assert (Cases : (~ In LF data) \/ exists m r, data = m ++ LF :: r /\ ~ In LF m).
  { clear. destruct data as [m Hm|m r Hm _] using text_line_ind; [now left|right; eauto]. }
  destruct Cases as [Hm|(m & r & Ed & Hm)].
  - rewrite full_lines_one in D0 |- * by assumption.
    destruct (parse_line start data) as [[evs|] s'] eqn:El; [|discriminate].
    pose proof (Hbd _ _ _ _ El) as Hb. rewrite <- (app_nil_r data) in Hb.
    destruct (line_each data [] evs 0 stack_new Hm (or_introl eq_refl) Hb) as (F & Hp & Hs). rewrite app_nil_r in *.
    assert (G : each at_pos [] (map Lexeme (fst (lexemes data evs stack_new 0 (Pos 0 0)))) /\
      (in_order pstate scopeop parse_line -> each at_scope [] (map Lexeme (fst (lexemes data evs stack_new 0 (Pos 0 0)))))).
    { split; [|intros Ho].
      - eapply block_pos with (vs := []); try eassumption; [constructor|reflexivity|reflexivity].
      - eapply block_scope with (a := []); try eassumption; [intros []|reflexivity|]. apply Hs. eapply Ho; eassumption. }
    destruct (lexemes data evs stack_new 0 (Pos 0 0)) as [lx [sc'|]]; cbn [fst more_tokens] in *; intros E; injection E as <- _;
      rewrite ?app_nil_r; exact G.
  - rewrite Ed in D0 |- *. rewrite full_lines_app in D0 |- * by assumption.
    destruct (parse_line start (m ++ [LF])) as [[evs|] s'] eqn:El; [|discriminate].
    destruct (line_each m [LF] evs 0 stack_new Hm (or_intror eq_refl) (Hbd _ _ _ _ El)) as (F & Hp & Hs).
    pose proof (lexemes_res m [LF] evs stack_new 0 (Pos 0 0)) as R.
    destruct (lf_line m evs stack_new 0 (Hbd _ _ _ _ El)) as (w & Ew & Hw).
    assert (G : each at_pos [] (map Lexeme (fst (lexemes (m ++ [LF]) evs stack_new 0 (Pos 0 0)))) /\
      (in_order pstate scopeop parse_line -> each at_scope [] (map Lexeme (fst (lexemes (m ++ [LF]) evs stack_new 0 (Pos 0 0)))))).
    { split; [|intros Ho].
      - eapply block_pos with (vs := []); try eassumption; [constructor|reflexivity|reflexivity].
      - eapply block_scope with (a := []); try eassumption; [intros []|reflexivity|]. apply Hs. eapply Ho; eassumption. }
    destruct (lexemes (m ++ [LF]) evs stack_new 0 (Pos 0 0)) as [lx [sc'|]]; cbn [fst snd] in *;
      [|intros E; injection E as <- _; exact G].
    pose proof (more_each r 1 [m] [evs] s' sc' (map Lexeme lx) (done_next _ _ _ _ _ _ _ _ _ _ D0 Hm El (eq_sym R))) as M.
    destruct (more_tokens s' sc' 1 (full_lines r)) as [ks' e']. cbn [fst] in *. intros E; injection E as <- _.
    destruct M as [M1 M2].
    { rewrite (Hw ltac:(discriminate)), app_nil_r in Ew. rewrite text_of_app, text_of_lexemes, <- Ew. cbn. now rewrite app_nil_r. }
    split; [apply each_app; split; [apply G|exact M1]|]. intros Ho. apply each_app. split; [now apply G|now apply M2].
Qed.
End Data.
End Tokens.
