(** Line iteration, tokens and workspaces on machine integers. *)
From Verif Require Import Base Utf8 Utf8Proofs Grapheme GraphemeProofs Position LineIterator GapBuffer
  GapBufferProofs Cursor PathModel Buffer Spec CursorSpec CursorCalls Calls TextProofs HalvesProofs TextFacts GapProps
  CursorProofs OpProofs BufferCalls AnyTextProofs BufferIoProps Token TokenSpec Workspace WorkspaceSpec WorkspaceProofs WorkspaceProps RacingProofs
  Machine MachineSpec MachineProofs MachineEnough MachineWork MachineWorkSpec.

(** ** Lines *)

Lemma bskip_len s : forall n r, bskip s n = Ok r -> blen s = n + blen r.
Proof.
  induction s as [|c s IH]; intros [|n] r; cbn [bskip]; try discriminate; try (intros E; injection E as <-; reflexivity).
  destruct (Nat.leb_spec (len1 c) (S n)) as [H|H]; [|discriminate]. intros E. apply IH in E. rewrite blen_cons. lia.
Qed.
Lemma btake_len s : forall n r, btake s n = Ok r -> blen r = n.
Proof.
  induction s as [|c s IH]; intros [|n] r; cbn [btake]; try discriminate; try (intros E; injection E as <-; reflexivity).
  destruct (Nat.leb_spec (len1 c) (S n)) as [H|H]; [|discriminate].
  destruct (btake s (S n - len1 c)) as [r'|] eqn:E'; [|discriminate]. intros E. injection E as <-.
  apply IH in E'. rewrite blen_cons. lia.
Qed.
Lemma slice_len s a b r : str_slice s a b = Ok r -> a <= b /\ blen r = b - a /\ b <= blen s.
Proof.
  unfold str_slice, usub. destruct (Nat.leb_spec a b) as [H|H]; [|discriminate]. cbn [bind].
  destruct (bskip s a) as [s'|] eqn:E; [|discriminate]. cbn [bind]. intros E'. pose proof (btake_len _ _ _ E') as L.
  split; [assumption|]. split; [assumption|]. apply bskip_len in E.
  assert (blen r <= blen s').
  { clear - E'. revert r E'. generalize (b - a). induction s' as [|c s IH]; intros [|n] r; cbn [btake]; try discriminate;
      try (intros E; injection E as <-; cbn; lia).
    destruct (Nat.leb_spec (len1 c) (S n)) as [H|H]; [|discriminate].
    destruct (btake s (S n - len1 c)) as [r'|] eqn:E'; [|discriminate]. intros E. injection E as <-.
    apply IH in E'. rewrite !blen_cons. lia. }
  lia.
Qed.

Lemma u_scan_line_ok K cs : forall e, e + blen cs <= 2 * K + 1 -> u_li_scan K cs e = MOk (li_scan cs e).
Proof.
  induction cs as [|c cs IH]; intros e H; [reflexivity|]. cbn [u_li_scan li_scan]. rewrite blen_cons in H.
  rewrite uadd_ok by lia. cbn [mbind]. destruct (N.eqb c LF); [reflexivity|]. apply IH. lia.
Qed.
Lemma scan_line_len cs : forall e, let '(e', nl) := li_scan cs e in
  e <= e' <= e + blen cs /\ (nl = true -> e < e') /\ (nl = false -> e' = e + blen cs).
Proof.
  induction cs as [|c cs IH]; intros e; cbn [li_scan]; [cbn; lia|]. rewrite blen_cons.
  assert (1 <= len1 c) by (unfold len1, enc1; repeat match goal with |- context [if ?b then _ else _] => destruct b end; cbn; lia).
  destruct (N.eqb c LF); [split; [lia|]; split; [lia|discriminate]|].
  specialize (IH (e + len1 c)). destruct (li_scan cs (e + len1 c)) as [e' nl]. destruct IH as (H1 & H2 & H3).
  split; [lia|]. split; intros X; [specialize (H2 X)|specialize (H3 X)]; lia.
Qed.

Definition li_fits (K : nat) (it : line_iter) : Prop :=
  blen (li_data it) <= K /\ li_number it <= li_end it /\ li_end it <= blen (li_data it).

Lemma li_new_fits K t : blen t <= K -> li_fits K (li_new t).
Proof. intros H. split; [assumption|]. cbn. lia. Qed.

Lemma u_li_next_ok K it : li_fits K it -> agrees (fun x => li_fits K (snd x) /\
    match fst x with Some (n, l) => blen l <= K | None => True end) (u_li_next K it) (li_next it)
  /\ u_li_next K it = of_res (li_next it).
Proof.
  intros (Hd & Hn & He).
  assert (X : u_li_next K it = of_res (li_next it) /\ forall x, li_next it = Ok x -> li_fits K (snd x) /\
    match fst x with Some (n, l) => blen l <= K | None => True end).
  { unfold u_li_next, li_next. destruct (li_done it); [split; [reflexivity|intros x E; injection E as <-; now repeat split]|].
    destruct (bskip (li_data it) (li_end it)) as [rest|] eqn:Es; [|now split].
    cbn [of_res mbind bind]. apply bskip_len in Es. rewrite u_scan_line_ok by lia. cbn [mbind].
    pose proof (scan_line_len rest (li_end it)) as L. destruct (li_scan rest (li_end it)) as [e nl].
    destruct L as (L1 & L2 & L3).
    destruct (str_slice (li_data it) (li_end it) e) as [l|] eqn:El; [|now split]. cbn [of_res mbind bind].
    apply slice_len in El. unfold out_of_data. cbn [li_end li_data].
    destruct nl.
    - specialize (L2 eq_refl). rewrite andb_false_r. rewrite uadd_ok by lia. cbn [mbind]. split; [reflexivity|].
      intros x E. injection E as <-. cbn [fst snd]. split; [|lia]. split; cbn [li_data li_number li_end]; lia.
    - specialize (L3 eq_refl). rewrite (proj2 (Nat.eqb_eq _ _)) by lia. cbn [andb negb mbind]. split; [reflexivity|].
      intros x E. injection E as <-. cbn [fst snd]. split; [|lia]. split; cbn [li_data li_number li_end]; lia. }
  destruct X as [X1 X2]. split; [right; now split|exact X1].
Qed.

(** ** Tokens *)

Section Tokens.
  Variables pstate scopeop stack : Type.
  Variable parse_line : pstate -> text -> option (list (nat * scopeop)) * pstate.
  Variable apply : stack -> scopeop -> stack * bool.
  Variable stack_new : stack.
  Variable brk : brk_rule.
  Variable K : nat.
  Notation titer := (token_iter pstate scopeop stack).
  Notation tparse := (parse_next_line pstate scopeop stack parse_line).
  Notation tnext := (ti_next pstate scopeop stack parse_line apply brk).
  Notation uparse := (u_parse_next_line pstate scopeop stack parse_line K).
  Notation unext := (u_ti_next pstate scopeop stack parse_line apply brk K).

  Definition ti_fits (t : titer) : Prop :=
    li_fits K (ti_lines t) /\
    match ti_line t with
    | Some l => blen l <= K /\ offset (ti_position t) <= ti_byte_offset t /\ offset (ti_position t) <= blen l
    | None => True
    end.

  Lemma u_parse_ok t : ti_fits t -> uparse t = of_res (tparse t) /\
    forall x, tparse t = Ok x -> ti_fits (snd x).
  Proof.
    intros [L P]. destruct (u_li_next_ok K _ L) as [[A|[_ A]] E]; unfold u_parse_next_line, parse_next_line; rewrite E.
    - rewrite E in A. destruct (li_next (ti_lines t)); discriminate.
    - destruct (li_next (ti_lines t)) as [[l lines]|]; [|now split]. specialize (A _ eq_refl). cbn [of_res mbind bind fst snd] in *.
      destruct l as [[n l]|].
      + destruct A as [A1 A2]. destruct (parse_line (ti_parser t) l) as [[evs|] ps]; (split; [reflexivity|]); intros x X; injection X as <-; split; cbn; try assumption.
        lia.
      + destruct A as [A1 _]. split; [reflexivity|]. intros x X. injection X as <-. now split.
  Qed.

  Lemma u_loop_build_ok l : blen l <= K -> forall evs sc boff pos, offset pos <= boff -> offset pos <= blen l ->
    u_build_loop scopeop stack apply brk K l (end_of_line l) evs sc boff pos = of_res (build_loop scopeop stack apply brk l (end_of_line l) evs sc boff pos) /\
    forall r sc' boff' pos' evs' keep, build_loop scopeop stack apply brk l (end_of_line l) evs sc boff pos = Ok (r, sc', boff', pos', evs', keep) ->
      offset pos' <= boff' /\ offset pos' <= blen l.
  Proof.
    intros Hl. induction evs as [|[eo op] evs IH]; intros sc boff pos H1 H2; cbn [u_build_loop build_loop].
    - destruct (boff <? end_of_line l).
      + destruct (str_slice l boff (end_of_line l)) as [v|]; cbn [of_res mbind bind]; [|split; [reflexivity|discriminate]].
        split; [reflexivity|]. intros r sc' boff' pos' evs' keep E. injection E as _ _ <- <- _ _. now split.
      + split; [reflexivity|]. intros r sc' boff' pos' evs' keep E. injection E as _ _ <- <- _ _. now split.
    - destruct (Nat.ltb_spec boff eo) as [Hb|Hb].
      + destruct (str_slice l boff (Nat.min eo (end_of_line l))) as [v|] eqn:Ev; cbn [of_res mbind bind]; [|split; [reflexivity|discriminate]].
        apply slice_len in Ev as (V1 & V2 & V3). pose proof (clusters_le brk v) as C. rewrite uadd_ok by lia. cbn [mbind].
        destruct (apply sc op) as [sc1 [|]]; (split; [reflexivity|]); intros r sc' boff' pos' evs' keep E;
          injection E as _ _ <- <- _ _; cbn [offset]; lia.
      + destruct (apply sc op) as [sc1 [|]].
        * apply IH; assumption.
        * split; [reflexivity|]. intros r sc' boff' pos' evs' keep E. injection E as _ _ <- <- _ _. now split.
  Qed.

  Lemma u_next_ok t : ti_fits t -> unext t = of_res (tnext t) /\ forall x, tnext t = Ok x -> ti_fits (snd x).
  Proof.
    intros [L P]. unfold u_ti_next, ti_next.
    assert (B : u_build_next_token pstate scopeop stack apply brk K t = of_res (build_next_token pstate scopeop stack apply brk t)
      /\ forall x, build_next_token pstate scopeop stack apply brk t = Ok x -> ti_fits (snd x)).
    { unfold u_build_next_token, build_next_token. destruct (ti_line t) as [l|] eqn:El.
      - destruct P as (P1 & P2 & P3). destruct (u_loop_build_ok l P1 (ti_events t) (ti_scopes t) _ _ P2 P3) as [-> F].
        destruct (build_loop scopeop stack apply brk l (end_of_line l) (ti_events t) (ti_scopes t) (ti_byte_offset t) (ti_position t))
          as [[[[[[r sc] boff] pos] evs] keep]|]; cbn [of_res mbind bind]; [|split; [reflexivity|discriminate]].
        split; [reflexivity|]. intros x X. injection X as <-. destruct (F _ _ _ _ _ _ eq_refl) as [F1 F2].
        split; cbn; [assumption|]. now destruct keep.
      - split; [reflexivity|]. intros x X. injection X as <-. split; [assumption|]. cbn [snd]. now rewrite El. }
    destruct B as [-> F]. destruct (build_next_token pstate scopeop stack apply brk t) as [[r t1]|]; [|split; [reflexivity|discriminate]].
    specialize (F _ eq_refl). cbn [of_res mbind bind snd] in *. destruct r as [tok| |e].
    - split; [reflexivity|]. intros x X. injection X as <-. exact F.
    - destruct (u_parse_ok t1 F) as [-> F2]. destruct (tparse t1) as [[e t2]|]; [|split; [reflexivity|discriminate]].
      specialize (F2 _ eq_refl). cbn [of_res mbind bind snd] in *. destruct e as [e|].
      + split; [reflexivity|]. intros x X. injection X as <-. exact F2.
      + destruct (ti_line t2) eqn:E2; (split; [reflexivity|]); intros x X; injection X as <-; exact F2.
    - split; [reflexivity|]. intros x X. injection X as <-. exact F.
  Qed.

  Lemma u_ti_steps_ok n : forall t, ti_fits t -> u_steps unext n t = of_res (steps tnext n t).
  Proof.
    induction n as [|n IH]; intros t F; [reflexivity|]. cbn [u_steps steps]. destruct (u_next_ok t F) as [-> F1].
    destruct (tnext t) as [[x t1]|]; [|reflexivity]. cbn [of_res mbind bind]. rewrite IH by (exact (F1 _ eq_refl)).
    now destruct (steps tnext n t1) as [[? ?]|].
  Qed.

  Lemma tokens_machine data start : blen data <= K ->
    u_ti_new pstate scopeop stack parse_line stack_new K data start = of_res (ti_new pstate scopeop stack parse_line stack_new data start) /\
    forall t n, ti_new pstate scopeop stack parse_line stack_new data start = Ok (ROk t) ->
      u_steps unext n t = of_res (steps tnext n t).
  Proof.
    intros H. unfold u_ti_new, ti_new.
    destruct (u_parse_ok (TI stack_new start (li_new data) None 0 (Pos 0 0) [] None)) as [-> F].
    { split; [now apply li_new_fits|exact I]. }
    destruct (tparse _) as [[e t]|]; [|split; [reflexivity|discriminate]]. specialize (F _ eq_refl). cbn [of_res mbind bind snd] in *.
    destruct e as [e|]; (split; [reflexivity|]); intros t' n E; [discriminate|]. injection E as <-. now apply u_ti_steps_ok.
  Qed.
End Tokens.

Lemma lines_machine K data n : blen data <= K ->
  u_steps (u_li_next K) n (li_new data) = of_res (steps li_next n (li_new data)).
Proof.
  intros H. pose proof (li_new_fits K data H) as F. revert F. generalize (li_new data). clear H.
  induction n as [|n IH]; intros it F; [reflexivity|]. cbn [u_steps steps]. destruct (u_li_next_ok K it F) as [[A|[_ A]] E]; rewrite E.
  - rewrite E in A. now destruct (li_next it).
  - destruct (li_next it) as [[x it1]|]; [|reflexivity]. cbn [of_res mbind bind]. rewrite IH by (now apply (A _ eq_refl)).
    now destruct (steps li_next n it1) as [[? ?]|].
Qed.

(** ** Buffers *)

Lemma reached_tame K brk b f : 1 <= K -> u_reached K brk b f -> tame K b.
Proof.
  intros HK (b0 & f0 & cs & os & Hf & Hc & E). apply u_fresh_ok in Hf as [_ Ht]. revert b0 f0 os Ht E.
  induction Hc as [|[al c] cs (H1 & H2 & H3) _ IH]; intros b0 f0 os Ht E; cbn [u_brun] in E; [now injection E as _ <- _|].
  cbn [fst snd] in *. destruct (u_bexec_ok K brk al c b0 f0 HK H1 H2 H3 Ht) as [X|[X T]]; rewrite X in E; [discriminate|].
  destruct (bexec brk al c b0 f0) as [[[o b1] f1]|]; [|discriminate]. cbn [of_res mbind] in E.
  destruct (u_brun K brk cs b1 f1) as [[[os2 b2] f2]| | |] eqn:E2; try discriminate. cbn [mbind] in E.
  injection E as _ <- <-. exact (IH _ _ _ (T _ eq_refl) E2).
Qed.

Lemma fits_text K g t : fits K g -> gb_to_string g = Ok t -> blen t <= K.
Proof.
  intros [(a & c & R) H] E. rewrite (to_string_ok _ _ _ R) in E. injection E as <-. rewrite (rep_vlen _ _ _ R) in H.
  rewrite blen_app. lia.
Qed.

Lemma lookups_machine K brk b f needle : 1 <= K -> u_reached K brk b f ->
  u_buf_data K b = of_res (buf_data b) /\ u_buf_line_count K b = of_res (buf_line_count b) /\
  u_buf_search K b needle = of_res (buf_search b needle).
Proof.
  intros HK R. pose proof (reached_fits _ _ _ _ HK R) as F.
  assert (D : u_buf_data K b = of_res (buf_data b)) by now apply u_to_string_ok.
  split; [exact D|]. unfold u_buf_line_count, u_buf_search, buf_line_count, buf_search. rewrite D.
  destruct (buf_data b) as [t|] eqn:E; [|now split]. cbn [of_res mbind bind]. split; [|reflexivity].
  apply (fits_text K) in E; [|assumption]. pose proof (count_lf_blen t). now rewrite uadd_ok by lia.
Qed.

(** ** Workspaces *)

Record wtame (K : nat) (w : workspace) : Prop := WTame {
  wt_buffers : Forall (tame K) (w_buffers w);
  wt_current : match w_current w with Some b => tame K b | None => True end;
  wt_room : length (w_buffers w) <= K;
  wt_index : match w_index w with Some i => i <= K | None => True end }.

Lemma tame_id K b i : tame K b -> tame K (set_id b i).
Proof. intros [[] [] ? ? ?]. split; [split; assumption|split; assumption|assumption..]. Qed.
Lemma tame_syntax K b s : tame K b -> tame K (set_syntax b s).
Proof. intros [[] [] ? ? ?]. split; [split; assumption|split; assumption|assumption..]. Qed.

Lemma u_buffer_new_ok K al : agrees (tame K) (u_buffer_new K al) (buffer_new al).
Proof.
  unfold u_buffer_new, buffer_new. eapply agrees_bind; [apply u_new_ok; constructor|]. intros g E F. right. split; [reflexivity|].
  intros b X. injection X as <-. split; [split; cbn; try constructor; apply F|split; [exact F|split; cbn; lia]|constructor|constructor|exact I].
Qed.
Lemma u_from_file_ok K al f p : agrees (fun r => match r with ROk b => tame K b | RErr _ => True end)
  (u_from_file K al f p) (from_file al f p).
Proof.
  unfold u_from_file, from_file. destruct (read_to_string f p) as [t|] eqn:Er.
  2:{ right. split; [reflexivity|]. intros r X. now injection X as <-. }
  assert (V : valid_text t).
  { unfold read_to_string in Er. destruct (fs_read _ _) as [bs|]; [|discriminate]. now apply decode_strict_valid in Er. }
  eapply agrees_bind; [now apply u_new_ok|]. intros g E F. right. destruct (fs_canon f p); (split; [reflexivity|]); intros b X; injection X as <-; [|exact I].
  split; [split; cbn; try constructor; apply F|split; [exact F|split; cbn; lia]|constructor|constructor|exact I].
Qed.

Lemma upd_len {A} (l : list A) : forall i x l', upd l i x = Ok l' -> length l' = length l.
Proof.
  induction l as [|y l IH]; intros [|i] x l'; cbn; try discriminate.
  - intros E. now injection E as <-.
  - destruct (upd l i x) as [r|] eqn:Er; [|discriminate]. intros E. injection E as <-. cbn. now rewrite (IH _ _ _ Er).
Qed.
Lemma upd_all {A} (P : A -> Prop) (l : list A) : forall i x l', upd l i x = Ok l' -> P x -> Forall P l -> Forall P l'.
Proof.
  induction l as [|y l IH]; intros [|i] x l'; cbn; try discriminate; intros E Hx H; inversion_clear H.
  - injection E as <-. now constructor.
  - destruct (upd l i x) as [r|] eqn:Er; [|discriminate]. injection E as <-. constructor; [assumption|]. now apply (IH i x).
Qed.

Lemma u_select_ok K al w i : wtame K w ->
  agrees (fun x => wtame K (snd x) /\ w_next_id (snd x) = w_next_id w) (u_select_buffer K al w i) (select_buffer al w i).
Proof.
  intros [B C R I0]. unfold u_select_buffer, select_buffer.
  eapply (agrees_bind (fun w1 => wtame K w1 /\ w_next_id w1 = w_next_id w)).
  - right. split; [reflexivity|]. intros w1 E.
    destruct (w_current w) as [cur|] eqn:Ec; [|injection E as <-; split; [split; try assumption; now rewrite Ec|reflexivity]].
    destruct (w_index w) as [k|] eqn:Ek; [|discriminate]. unfold get in E.
    destruct (nth_error (w_buffers w) k) as [slot|] eqn:En; [|discriminate]. cbn [bind] in E.
    destruct (upd (w_buffers w) k cur) as [bs|] eqn:Eu; [|discriminate]. injection E as <-. split; [|reflexivity].
    split; cbn.
    + now apply (upd_all _ _ _ _ _ Eu).
    + apply nth_error_In in En. now apply (proj1 (Forall_forall _ _) B).
    + now rewrite (upd_len _ _ _ _ Eu).
    + assumption.
  - intros w1 _ [[B1 C1 R1 I1] N1]. destruct (nth_error (w_buffers w1) i) as [target|] eqn:En.
    + eapply agrees_bind; [apply u_buffer_new_ok|]. intros blank _ Hb. 
      destruct (upd (w_buffers w1) i blank) as [bs|] eqn:Eu; [|right; now split]. right. split; [reflexivity|].
      intros x X. injection X as <-. cbn [snd]. split; [|exact N1]. split; cbn.
      * now apply (upd_all _ _ _ _ _ Eu).
      * apply nth_error_In in En. now apply (proj1 (Forall_forall _ _) B1).
      * now rewrite (upd_len _ _ _ _ Eu).
      * assert (i < length (w_buffers w1)) by (apply nth_error_Some; congruence). lia.
    + right. split; [reflexivity|]. intros x X. injection X as <-. cbn [snd]. split; [now split|assumption].
Qed.

Lemma update_tame K w : wtame K w -> wtame K (snd (update_current_syntax w)) /\ w_next_id (snd (update_current_syntax w)) = w_next_id w.
Proof.
  intros [B C R I0]. unfold update_current_syntax. destruct (w_current w) as [b|] eqn:Ec; cbn [snd].
  - split; [|reflexivity]. split; cbn; try assumption. now apply tame_syntax.
  - split; [|reflexivity]. split; try assumption. now rewrite Ec.
Qed.

Lemma u_add_ok K al w b : wtame K w -> tame K b -> w_next_id w <= 2 * K ->
  agrees (fun w' => wtame K w' /\ w_next_id w' = w_next_id w + 1) (u_add_buffer K al w b) (add_buffer al w b).
Proof.
  intros [B C R I0] Hb Hn. unfold u_add_buffer, add_buffer. rewrite uadd_ok by lia. cbn [mbind].
  assert (E : match w_index w with Some i => uadd K i 1 | None => MOk 0 end
    = MOk (match w_index w with Some i => i + 1 | None => 0 end)).
  { destruct (w_index w) as [i|]; [|reflexivity]. now rewrite uadd_ok by lia. }
  rewrite E. cbn [mbind]. clear E. set (i := match w_index w with Some i => i + 1 | None => 0 end).
  eapply (agrees_bind (fun bs => Forall (tame K) bs /\ length bs <= K)).
  - unfold u_vec_insert. destruct (vec_insert (w_buffers w) i _) as [bs|] eqn:Ev; cbn [of_res mbind]; [|right; now split].
    destruct (Nat.leb_spec (length bs) K) as [H|H]; [|now left]. right. split; [reflexivity|]. intros x X. injection X as <-.
    split; [|assumption]. unfold vec_insert in Ev. destruct (i <=? _); [|discriminate]. injection Ev as <-.
    apply Forall_app. rewrite <- (firstn_skipn i (w_buffers w)) in B. apply Forall_app in B as [B1 B2].
    split; [assumption|]. constructor; [now apply tame_id|assumption].
  - intros bs _ [Hbs Hr]. eapply agrees_bind; [apply u_select_ok|].
    + split; assumption.
    + intros [k w2] _ [W2 N2]. cbn [snd w_next_id] in *. right. destruct (w_current w2) as [b2|] eqn:Ec.
      * destruct (b_syntax b2).
        -- split; [reflexivity|]. intros x X. injection X as <-. now split.
        -- split; [reflexivity|]. intros x X. injection X as <-. destruct (update_tame K w2 W2) as [T ->]. now split.
      * split; [reflexivity|]. intros x X. injection X as <-. now split.
Qed.

Lemma u_by_path_ok K al f w p : wtame K w ->
  agrees (fun x => wtame K (snd x) /\ w_next_id (snd x) = w_next_id w) (u_select_buffer_by_path K al f w p) (select_buffer_by_path al f w p).
Proof.
  intros W. unfold u_select_buffer_by_path, select_buffer_by_path.
  assert (X : forall k, agrees (fun x => wtame K (snd x) /\ w_next_id (snd x) = w_next_id w) (MOk (k : bool, w)) (Ok (k, w))).
  { intros k. right. split; [reflexivity|]. intros x X. now injection X as <-. }
  destruct (fs_canon f p); [|apply X]. destruct (path_is _ _); [apply X|].
  destruct (find_index _ _); [now apply u_select_ok|apply X].
Qed.

Lemma select_drop K al w i : wtame K w -> agrees (fun w' => wtame K w' /\ w_next_id w' = w_next_id w)
  (let+ (_, w') := u_select_buffer K al w i in MOk w') (let* (_, w') := select_buffer al w i in Ok w').
Proof.
  intros W. eapply agrees_bind; [now apply u_select_ok|]. intros [k w'] _ H. right. split; [reflexivity|].
  intros x X. now injection X as <-.
Qed.

Lemma agrees_unit K (n : nat) (m : mres workspace) r (f : fsys) :
  agrees (fun w' => wtame K w' /\ w_next_id w' <= n) m r ->
  agrees (fun x : wout * workspace * fsys => wtame K (snd (fst x)) /\ w_next_id (snd (fst x)) <= n)
    (let+ w' := m in MOk (WUnit, w', f)) (let* w' := r in Ok (WUnit, w', f)).
Proof.
  intros H. eapply agrees_bind; [exact H|]. intros w' _ P. right. split; [reflexivity|]. intros x X. now injection X as <-.
Qed.

Definition gives (c : wcall) : nat := match c with WAdd _ | WOpen _ => 1 | _ => 0 end.
Lemma adding_cons al c cs : adding ((al, c) :: cs) = gives c + adding cs.
Proof. now destruct c. Qed.

Lemma u_wexec_ok K brk al c w f : 1 <= K -> alloc_ok al -> u_wcall_ok K brk c -> wtame K w ->
  (gives c = 0 \/ w_next_id w <= 2 * K) ->
  agrees (fun x => wtame K (snd (fst x)) /\ w_next_id (snd (fst x)) <= w_next_id w + gives c)
    (u_wexec K brk al c w f) (wexec brk al c w f).
Proof.
  intros HK Ha Hc W Hn. pose proof W as [B C R I0].
  assert (Now : forall o w' f', wtame K w' -> w_next_id w' <= w_next_id w + gives c ->
    agrees (fun x => wtame K (snd (fst x)) /\ w_next_id (snd (fst x)) <= w_next_id w + gives c)
      (MOk (o : wout, w', f' : fsys)) (Ok (o, w', f'))).
  { intros o w' f' H1 H2. right. split; [reflexivity|]. intros x X. injection X as <-. now split. }
  assert (Le : forall m r, agrees (fun w' => wtame K w' /\ w_next_id w' = w_next_id w) m r ->
    agrees (fun w' => wtame K w' /\ w_next_id w' <= w_next_id w + gives c) m r).
  { intros m r H. eapply agrees_imp; [exact H|]. intros w' _ [H1 H2]. split; [assumption|lia]. }
  destruct c as [b|p| | | |c| |p|ss|f']; cbn [u_wexec wexec gives u_wcall_ok] in *.
  - destruct Hc as (fb & Hb). apply reached_tame in Hb; [|assumption]. apply agrees_unit.
    eapply agrees_imp; [apply u_add_ok; [assumption|assumption|lia]|]. intros w' _ [H1 H2]. split; [assumption|lia].
  - unfold u_open_buffer, open_buffer.
    eapply (agrees_bind (fun x => wtame K (snd x) /\ w_next_id (snd x) <= w_next_id w + 1)).
    + eapply agrees_bind; [now apply u_by_path_ok|]. intros [found w1] _ [W1 N1]. cbn [snd] in *. destruct found.
      * right. split; [reflexivity|]. intros x X. injection X as <-. cbn. split; [assumption|lia].
      * eapply agrees_bind; [apply u_from_file_ok|]. intros [b|e] _ Hb.
        -- eapply agrees_bind; [apply u_add_ok; [assumption|assumption|lia]|]. intros w2 _ [W2 N2].
           right. split; [reflexivity|]. intros x X. injection X as <-. cbn. split; [assumption|lia].
        -- right. split; [reflexivity|]. intros x X. injection X as <-. cbn. split; [assumption|lia].
    + intros [r w'] _ [H1 H2]. now apply Now.
  - apply agrees_unit, Le. unfold u_close_current_buffer, close_current_buffer. destruct (w_index w) as [i|] eqn:Ei.
    + destruct (vec_remove (w_buffers w) i) as [bs|] eqn:Ev; cbn [of_res mbind bind]; [|right; split; [reflexivity|discriminate]].
      assert (Hbs : Forall (tame K) bs /\ length bs <= K).
      { unfold vec_remove in Ev. destruct (Nat.ltb_spec i (length (w_buffers w))); [|discriminate]. injection Ev as <-. split.
        - apply Forall_app. split.
          + rewrite <- (firstn_skipn i (w_buffers w)) in B. now apply Forall_app in B as [B1 _].
          + rewrite <- (firstn_skipn (S i) (w_buffers w)) in B. now apply Forall_app in B as [_ B2].
        - rewrite app_length, firstn_length. pose proof (skipn_length (S i) (w_buffers w)) as L. cbn [skipn] in L. lia. }
      destruct Hbs as [Hb1 Hb2]. destruct bs as [|b0 bs].
      * right. split; [reflexivity|]. intros x X. injection X as <-. split; [|reflexivity]. now split.
      * apply (select_drop K al (WS (w_path w) (b0 :: bs) (w_next_id w) None (Some i) (w_syntaxes w)) (i - 1)). now split.
    + right. split; [reflexivity|]. intros x X. injection X as <-. split; [|reflexivity]. split; cbn; try assumption; exact I.
  - apply agrees_unit, Le. unfold u_next_buffer, next_buffer. destruct (w_index w) as [i|] eqn:Ei.
    + destruct (usub (length (w_buffers w)) 1) as [last|]; cbn [of_res mbind bind]; [|right; split; [reflexivity|discriminate]].
      destruct (i =? last); [now apply select_drop|]. rewrite uadd_ok by lia. cbn [mbind]. now apply select_drop.
    + right. split; [reflexivity|]. intros x X. now injection X as <-.
  - apply agrees_unit, Le. unfold u_previous_buffer, previous_buffer. destruct (w_index w) as [i|] eqn:Ei.
    + destruct (0 <? i); [now apply select_drop|].
      destruct (usub (length (w_buffers w)) 1) as [last|]; cbn [of_res mbind bind]; [|right; split; [reflexivity|discriminate]].
      now apply select_drop.
    + right. split; [reflexivity|]. intros x X. now injection X as <-.
  - destruct Hc as [Hc Hm]. destruct (w_current w) as [b|] eqn:Ec; [|apply Now; [assumption|lia]].
    eapply agrees_bind; [now apply u_bexec_ok|]. intros [[o b'] f'] _ Hb. cbn [fst snd] in Hb. apply Now; [|cbn; lia]. now split.
  - destruct (update_tame K w W) as [W' N']. destruct (update_current_syntax w) as [r w']. cbn [snd] in *. apply Now; [assumption|lia].
  - apply Now; [now split|cbn; lia].
  - apply Now; [now split|cbn; lia].
  - apply Now; [assumption|lia].
Qed.

Lemma u_wrun_ok K brk cs : 1 <= K -> forall w f,
  Forall (fun ac => alloc_ok (fst ac) /\ u_wcall_ok K brk (snd ac)) cs -> wtame K w ->
  w_next_id w + adding cs <= 2 * K + 1 ->
  agrees (fun _ => True) (u_wrun K brk cs w f) (wrun brk cs w f).
Proof.
  intros HK. induction cs as [|[al c] cs IH]; intros w f H W Hn; cbn [u_wrun wrun].
  - right. now split.
  - inversion_clear H as [|? ? [H1 H2] H']. cbn [fst snd] in *. rewrite adding_cons in Hn.
    eapply agrees_bind; [apply u_wexec_ok; try assumption; destruct (gives c); [now left|right; lia]|]. intros [[o w1] f1] _ [W1 N1]. cbn [fst snd] in *.
    eapply agrees_bind; [apply IH; try assumption; lia|]. intros [[os w2] f2] _ _. right. now split.
Qed.

Lemma ws_new_tame K f p ss w : ws_new f p (Some ss) = ROk w -> wtame K w /\ w_next_id w = 0.
Proof.
  unfold ws_new. destruct (fs_canon f p); [|discriminate]. intros E. injection E as <-. split; [|reflexivity].
  split; cbn; try exact I; [constructor|lia].
Qed.

Lemma machine_workspace K brk f0 p ss w0 cs : 1 <= K -> ws_new f0 p (Some ss) = ROk w0 ->
  Forall (fun ac => alloc_ok (fst ac) /\ u_wcall_ok K brk (snd ac)) cs -> adding cs <= 2 * K + 1 ->
  u_wrun K brk cs w0 f0 = MNoMemory \/ u_wrun K brk cs w0 f0 = of_res (wrun brk cs w0 f0).
Proof.
  intros HK E H Hn. destruct (ws_new_tame K _ _ _ _ E) as [W N].
  destruct (u_wrun_ok K brk cs HK w0 f0 H W) as [X|[X _]]; [lia|now left|now right].
Qed.

Lemma u_wcall_wcall K brk c : 1 <= K -> u_wcall_ok K brk c -> wcall_ok brk c.
Proof.
  intros HK. destruct c; cbn; try (intros; exact I).
  - intros (f & H). exists f. now apply reached_reachable in H.
  - tauto.
Qed.

Lemma machine_workspace_no_panic K cls f0 p ss w0 cs : 1 <= K -> cls LF = GC_LF -> ws_new f0 p (Some ss) = ROk w0 ->
  Forall (fun ac => alloc_ok (fst ac) /\ u_wcall_ok K (uax29 cls) (snd ac)) cs -> adding cs <= 2 * K + 1 ->
  u_wrun K (uax29 cls) cs w0 f0 = MNoMemory \/
  exists os w f, u_wrun K (uax29 cls) cs w0 f0 = MOk (os, w, f) /\ wrun (uax29 cls) cs w0 f0 = Ok (os, w, f).
Proof.
  intros HK Hc E H Hn. destruct (machine_workspace K (uax29 cls) f0 p ss w0 cs HK E H Hn) as [X|X]; [now left|]. right.
  destruct (workspace_no_panic cls f0 p ss w0 cs Hc E) as (os & w & f & Ew).
  { eapply Forall_impl; [|exact H]. cbn beta. intros a [A1 A2]. split; [assumption|]. now apply (u_wcall_wcall K). }
  exists os, w, f. rewrite X, Ew. now split.
Qed.

(** A step on machine integers that succeeds is the step. *)
Lemma u_add_over K al w b : 2 * K < w_next_id w -> u_add_buffer K al w b = MOverflow.
Proof. intros H. unfold u_add_buffer. rewrite uadd_over by lia. reflexivity. Qed.

Lemma u_wexec_step K brk al c w f x : 1 <= K -> alloc_ok al -> u_wcall_ok K brk c -> wtame K w ->
  u_wexec K brk al c w f = MOk x -> wexec brk al c w f = Ok x /\ wtame K (snd (fst x)).
Proof.
  intros HK Ha Hc W E.
  assert (G : gives c = 0 \/ w_next_id w <= 2 * K -> wexec brk al c w f = Ok x /\ wtame K (snd (fst x))).
  { intros H. destruct (u_wexec_ok K brk al c w f HK Ha Hc W H) as [X|[X P]]; [congruence|]. rewrite X in E.
    destruct (wexec brk al c w f) as [y|]; [|discriminate]. injection E as ->. split; [reflexivity|]. now apply (P _ eq_refl). }
  destruct (le_lt_dec (w_next_id w) (2 * K)) as [H|H]; [apply G; now right|].
  destruct c as [b|p| | | |c| |p|ss|f']; try (apply G; now left); clear G; cbn [u_wexec wexec] in *.
  - now rewrite u_add_over in E by assumption.
  - unfold u_open_buffer, open_buffer in *. destruct (u_by_path_ok K al f w p W) as [X|[X P]]; rewrite X in E; [discriminate|].
    destruct (select_buffer_by_path al f w p) as [[found w1]|]; [|discriminate]. destruct (P _ eq_refl) as [W1 N1].
    cbn [of_res mbind bind snd] in *. destruct found; cbn [mbind bind] in *; [injection E as <-; now split|].
    destruct (u_from_file_ok K al f p) as [X'|[X' P']]; rewrite X' in E; [discriminate|].
    destruct (from_file al f p) as [[b|e]|]; [| |discriminate]; cbn [of_res mbind bind] in *.
    + now rewrite u_add_over in E by lia.
    + injection E as <-. now split.
Qed.

Lemma u_wrun_steps K brk cs : 1 <= K -> forall w f os w' f',
  Forall (fun ac => alloc_ok (fst ac) /\ u_wcall_ok K brk (snd ac)) cs -> wtame K w ->
  u_wrun K brk cs w f = MOk (os, w', f') -> wrun brk cs w f = Ok (os, w', f') /\ wtame K w'.
Proof.
  intros HK. induction cs as [|[al c] cs IH]; intros w f os w' f' H W E; cbn [u_wrun wrun] in *.
  - injection E as <- <- <-. now split.
  - inversion_clear H as [|? ? [H1 H2] H']. cbn [fst snd] in *.
    destruct (u_wexec K brk al c w f) as [[[o w1] f1]| | |] eqn:E1; try discriminate.
    destruct (u_wexec_step K brk al c w f _ HK H1 H2 W E1) as [X W1]. rewrite X. cbn [mbind bind fst snd] in *.
    destruct (u_wrun K brk cs w1 f1) as [[[os1 w2] f2]| | |] eqn:E2; try discriminate. cbn [mbind] in E.
    injection E as <- <- <-. destruct (IH _ _ _ _ _ H' W1 E2) as [-> W2]. now split.
Qed.

Lemma reached_workspace K brk w f : 1 <= K -> u_reached_workspace K brk w f ->
  reachable_workspace brk any w f /\ wtame K w.
Proof.
  intros HK (f0 & p & ss & w0 & cs & os & E & H & Er). destruct (ws_new_tame K _ _ _ _ E) as [W _].
  destruct (u_wrun_steps K brk cs HK w0 f0 os w f H W Er) as [X W']. split; [|assumption].
  exists f0, p, ss, w0, cs, os. split; [assumption|]. split; [|assumption].
  eapply Forall_impl; [|exact H]. cbn beta. intros a [A1 A2]. split; [assumption|]. split; [now apply (u_wcall_wcall K)|exact I].
Qed.

(** Adding overflows exactly if the ids are used up. *)
Lemma add_when K brk al w f b fb : 1 <= K -> alloc_ok al -> u_reached_workspace K brk w f -> u_reached K brk b fb ->
  u_wexec K brk al (WAdd b) w f = MOverflow <-> 2 * K < w_next_id w.
Proof.
  intros HK Ha R Hb. destruct (reached_workspace K brk w f HK R) as [_ W]. split.
  - intros E. destruct (le_lt_dec (w_next_id w) (2 * K)) as [H|H]; [|assumption].
    destruct (u_wexec_ok K brk al (WAdd b) w f HK Ha) as [X|[X _]]; try (now right); try assumption; [now exists fb|congruence|].
    rewrite X in E. now apply of_res_not_over in E.
  - intros H. cbn [u_wexec]. now rewrite u_add_over.
Qed.

(** Nothing but giving out an id overflows. *)
Lemma others_never K brk al c w f : 1 <= K -> alloc_ok al -> u_wcall_ok K brk c -> u_reached_workspace K brk w f ->
  u_wexec K brk al c w f = MOverflow ->
  2 * K < w_next_id w /\ ((exists b, c = WAdd b) \/ (exists p, c = WOpen p)).
Proof.
  intros HK Ha Hc R E. destruct (reached_workspace K brk w f HK R) as [_ W].
  assert (G : ~ (gives c = 0 \/ w_next_id w <= 2 * K)).
  { intros H. destruct (u_wexec_ok K brk al c w f HK Ha Hc W H) as [X|[X _]]; [congruence|]. rewrite X in E. now apply of_res_not_over in E. }
  split; [lia|]. destruct c; try (exfalso; apply G; now left); eauto.
Qed.

Lemma tokens_of_machine K brk w f : 1 <= K -> u_reached_workspace K brk w f ->
  u_current_buffer_tokens K w = of_res (current_buffer_tokens w) /\
  forall ts, current_buffer_tokens w = Ok (ROk ts) -> blen (ts_data ts) <= K.
Proof.
  intros HK R. destruct (reached_workspace K brk w f HK R) as [_ [_ C _ _]].
  unfold u_current_buffer_tokens, current_buffer_tokens. destruct (w_current w) as [b|]; [|split; [reflexivity|discriminate]].
  destruct C as [_ [F _] _ _ _]. unfold u_buf_data, buf_data. rewrite u_to_string_ok by exact F.
  destruct (gb_to_string (b_data b)) as [t|] eqn:E; [|split; [reflexivity|discriminate]]. cbn [of_res mbind bind].
  apply (fits_text K) in E; [|assumption]. destruct (b_syntax b); (split; [reflexivity|]); intros ts X; [|discriminate].
  injection X as <-. exact E.
Qed.

Lemma machine_tokens K brk w f ts pstate scopeop stack
  (parse_line : pstate -> text -> option (list (nat * scopeop)) * pstate)
  (apply : stack -> scopeop -> stack * bool) new (start : syntax -> pstate) :
  1 <= K -> u_reached_workspace K brk w f ->
  u_current_buffer_tokens K w = of_res (current_buffer_tokens w) /\
  (current_buffer_tokens w = Ok (ROk ts) ->
   u_ti_new pstate scopeop stack parse_line new K (ts_data ts) (start (ts_syntax ts)) = of_res (ts_iter parse_line new start ts) /\
   forall it n, ts_iter parse_line new start ts = Ok (ROk it) ->
     u_steps (u_ti_next pstate scopeop stack parse_line apply brk K) n it
       = of_res (steps (ti_next pstate scopeop stack parse_line apply brk) n it)).
Proof.
  intros HK R. destruct (tokens_of_machine K brk w f HK R) as [T B]. split; [exact T|]. intros E. specialize (B _ E).
  exact (tokens_machine pstate scopeop stack parse_line apply new brk K (ts_data ts) (start (ts_syntax ts)) B).
Qed.

(** ** Enough memory *)

Lemma ev_buffer_new al : ev (fun K => u_buffer_new K al) (buffer_new al).
Proof. unfold u_buffer_new, buffer_new. apply ev_bind; [apply ev_new|]. intros g. apply ev_ok. Qed.
Lemma ev_from_file al f p : ev (fun K => u_from_file K al f p) (from_file al f p).
Proof.
  unfold u_from_file, from_file. destruct (read_to_string f p); [|apply ev_ok]. apply ev_bind; [apply ev_new|]. intros g.
  destruct (fs_canon f p); apply ev_ok.
Qed.
Lemma ev_select al w i : ev (fun K => u_select_buffer K al w i) (select_buffer al w i).
Proof.
  unfold u_select_buffer, select_buffer. apply ev_bind; [apply ev_const|]. intros w1.
  destruct (nth_error (w_buffers w1) i); [|apply ev_ok]. apply ev_bind; [apply ev_buffer_new|]. intros blank.
  apply ev_bind; [apply ev_const|]. intros bs. apply ev_ok.
Qed.
Lemma ev_add al w b : ev (fun K => u_add_buffer K al w b) (add_buffer al w b).
Proof.
  unfold u_add_buffer, add_buffer. eapply ev_bind_ok; [apply ev_uadd|]. cbv beta.
  apply (ev_bind_ok (fun K => match w_index w with Some i => uadd K i 1 | None => MOk 0 end)
    (match w_index w with Some i => i + 1 | None => 0 end) (fun K target_index => _)).
  { destruct (w_index w); [apply ev_uadd|apply ev_ok]. }
  apply ev_bind.
  { unfold u_vec_insert. destruct (vec_insert (w_buffers w) _ _) as [bs|]; [|now exists 0].
    exists (length bs). intros K H. cbn [of_res mbind]. now rewrite (proj2 (Nat.leb_le _ _) H). }
  intros bs. apply ev_bind; [apply ev_select|]. intros [k w2]. destruct (w_current w2) as [b2|]; [|apply ev_ok].
  destruct (b_syntax b2); apply ev_ok.
Qed.
Lemma ev_wexec brk al c w f : ev (fun K => u_wexec K brk al c w f) (wexec brk al c w f).
Proof.
  assert (S1 : forall w i, ev (fun K => let+ (_, w') := u_select_buffer K al w i in MOk w') (let* (_, w') := select_buffer al w i in Ok w')).
  { intros w1 i. apply ev_bind; [apply ev_select|]. intros [k w']. apply ev_ok. }
  destruct c; cbn [u_wexec wexec]; try apply ev_ok.
  - apply ev_bind; [apply ev_add|]. intros. apply ev_ok.
  - apply (ev_bind (fun K => u_open_buffer K al f w p) (open_buffer al f w p) (fun K x => let '(r, w') := x in MOk (WResult r, w', f))); [|intros [? ?]; apply ev_ok].
    unfold u_open_buffer, open_buffer.
    apply (ev_bind (fun K => u_select_buffer_by_path K al f w p) (select_buffer_by_path al f w p)).
    + unfold u_select_buffer_by_path, select_buffer_by_path. destruct (fs_canon f p); [|apply ev_ok].
      destruct (path_is _ _); [apply ev_ok|]. destruct (find_index _ _); [apply ev_select|apply ev_ok].
    + intros [found w1]. destruct found; [apply ev_ok|]. apply ev_bind; [apply ev_from_file|]. intros [b|e]; [|apply ev_ok].
      apply ev_bind; [apply ev_add|]. intros. apply ev_ok.
  - apply ev_bind; [|intros; apply ev_ok]. unfold u_close_current_buffer, close_current_buffer.
    destruct (w_index w); [|apply ev_ok]. apply ev_bind; [apply ev_const|]. intros [|b0 bs]; [apply ev_ok|apply S1].
  - apply ev_bind; [|intros; apply ev_ok]. unfold u_next_buffer, next_buffer.
    destruct (w_index w) as [i|]; [|apply ev_ok]. apply ev_bind; [apply ev_const|]. intros last. destruct (i =? last); [apply S1|].
    eapply ev_bind_ok; [apply ev_uadd|]. apply S1.
  - apply ev_bind; [|intros; apply ev_ok]. unfold u_previous_buffer, previous_buffer.
    destruct (w_index w) as [i|]; [|apply ev_ok]. destruct (0 <? i); [apply S1|].
    apply ev_bind; [apply ev_const|]. intros last. apply S1.
  - destruct (w_current w); [|apply ev_ok].
    apply (ev_bind (fun K => u_bexec K brk al c b f) (bexec brk al c b f) (fun K x => _)); [apply ev_bexec|]. intros [[o b'] f']. apply ev_ok.
  - destruct (update_current_syntax w). apply ev_ok.
Qed.
Lemma ev_wrun brk cs : forall w f, ev (fun K => u_wrun K brk cs w f) (wrun brk cs w f).
Proof.
  induction cs as [|[al c] cs IH]; intros w f; cbn [u_wrun wrun]; [apply ev_ok|].
  apply ev_bind; [apply ev_wexec|]. intros [[o w1] f1]. apply ev_bind; [apply IH|]. intros [[os w2] f2]. apply ev_ok.
Qed.

Lemma reached_eventually brk b f : reachable_buffer brk b f -> exists K0, forall K, K0 <= K -> u_reached K brk b f.
Proof.
  intros (b0 & f0 & cs & os & Fr & H & E). destruct (enough_memory brk cs b0 f0 Fr) as (K0 & HK). exists K0. intros K H0.
  destruct (HK K H0) as (F & W & X). exists b0, f0, cs, os. split; [assumption|]. split; [|now rewrite X, E].
  apply Forall_forall. intros ac Hin. pose proof (proj1 (Forall_forall _ _) H ac Hin) as [? ?].
  pose proof (proj1 (Forall_forall _ _) W ac Hin). auto.
Qed.
Lemma wcalls_eventually brk cs : Forall (fun ac => alloc_ok (fst ac) /\ wcall_ok brk (snd ac)) cs ->
  exists K0, forall K, K0 <= K -> Forall (fun ac => alloc_ok (fst ac) /\ u_wcall_ok K brk (snd ac)) cs.
Proof.
  induction 1 as [|[al c] cs [Ha Hc] _ (K0 & IH)]; [exists 0; constructor|]. cbn [fst snd] in *.
  assert (X : exists K1, forall K, K1 <= K -> u_wcall_ok K brk c).
  { destruct c as [b|p| | | |c| |p|ss|f']; try (now exists 0); cbn in *.
    - destruct Hc as (f & R). destruct (reached_eventually _ _ _ R) as (K1 & X). exists K1. eauto.
    - destruct (within_some [(al, c)]) as (K1 & X). exists K1. intros K HK. split; [assumption|].
      specialize (X K HK). now apply Forall_inv in X. }
  destruct X as (K1 & X). exists (Nat.max K0 K1). intros K HK. constructor; [split; [assumption|apply X; cbn; lia]|apply IH; lia].
Qed.
Lemma workspace_enough brk f0 p ss w0 cs : ws_new f0 p (Some ss) = ROk w0 ->
  Forall (fun ac => alloc_ok (fst ac) /\ wcall_ok brk (snd ac)) cs ->
  exists K0, forall K, K0 <= K ->
    Forall (fun ac => alloc_ok (fst ac) /\ u_wcall_ok K brk (snd ac)) cs /\ adding cs <= 2 * K + 1 /\
    u_wrun K brk cs w0 f0 = of_res (wrun brk cs w0 f0).
Proof.
  intros _ H. destruct (wcalls_eventually brk cs H) as (K1 & H1). destruct (ev_wrun brk cs w0 f0) as (K2 & H2).
  exists (Nat.max (adding cs) (Nat.max K1 K2)). intros K HK. split; [apply H1; lia|]. split; [lia|apply H2; lia].
Qed.

Lemma u_select_none K al f w s p : sim w s ->
  match fs_canon f p with
  | Some cp => Forall (fun b => has_path cp b = false) (s_buffers s)
  | None => True
  end -> u_select_buffer_by_path K al f w p = MOk (false, w).
Proof.
  intros S H. unfold u_select_buffer_by_path. destruct (fs_canon f p) as [cp|]; [|reflexivity].
  destruct S as [p0 n ss|p0 pre blank post n b ss Hb]; [reflexivity|].
  cbn [w_current w_buffers s_buffers] in *. rewrite path_is_has.
  apply Forall_app in H as [H1 H2]. inversion_clear H2 as [|? ? H3 H4]. rewrite H3, find_first.
  assert (X : first_with cp (pre ++ blank :: post) = None).
  { clear - Hb H1 H4. assert (Y : has_path cp blank = false) by (unfold has_path; destruct Hb as [-> _]; reflexivity).
    assert (Z : Forall (fun b => has_path cp b = false) (pre ++ blank :: post)).
    { apply Forall_app. split; [assumption|]. now constructor. }
    induction Z as [|x l Hx Z IH]; [reflexivity|]. cbn [first_with]. now rewrite Hx, IH. }
  now rewrite X.
Qed.
(** Opening a path gives out an id exactly if no open buffer has the path and the
    file is read. *)
Lemma open_when K brk al w f p : 1 <= K -> alloc_ok al -> u_reached_workspace K brk w f ->
  u_wexec K brk al (WOpen p) w f = MOverflow <->
  2 * K < w_next_id w /\ (forall cp, fs_canon f p = Some cp -> ~ In (Some cp) (map b_path (open_buffers w))) /\
  exists b, u_from_file K al f p = MOk (ROk b).
Proof.
  intros HK Ha R. destruct (reached_workspace K brk w f HK R) as [Rw W].
  destruct (reach_sim _ _ _ _ Rw) as (s & S & _). destruct (sim_shows _ _ S) as [_ Eo].
  assert (Hp : forall cp, ~ In (Some cp) (map b_path (open_buffers w)) <-> Forall (fun b => has_path cp b = false) (s_buffers s)).
  { intros cp. rewrite Eo, Forall_forall. split.
    - intros N b Hb. destruct (has_path cp b) eqn:Hh; [|reflexivity]. apply has_path_iff in Hh. exfalso. apply N. rewrite <- Hh. now apply in_map.
    - intros H I. apply in_map_iff in I as (b & E & I). specialize (H b I). apply has_path_iff in E. congruence. }
  cbn [u_wexec]. unfold u_open_buffer. split.
  - intros E. assert (N : 2 * K < w_next_id w).
    { apply (others_never K brk al (WOpen p) w f); [assumption|assumption|exact I|assumption|exact E]. }
    split; [assumption|]. destruct (u_by_path_ok K al f w p W) as [X|[X P]]; rewrite X in E; [discriminate|].
    destruct (select_buffer_by_path al f w p) as [[[] w1]|] eqn:Es; cbn [of_res mbind] in E; try discriminate.
    destruct (not_found al f w s p w1 S Es) as [-> F]. split.
    + intros cp Ec. apply Hp. now apply F.
    + destruct (u_from_file_ok K al f p) as [Xf|[Xf _]]; [now rewrite Xf in E|]. rewrite Xf in *.
      destruct (from_file al f p) as [[b|e]|]; cbn [of_res mbind] in *; try discriminate. now exists b.
  - intros (N & F & b & Eb).
    rewrite (u_select_none K al f w s p S).
    + cbn [mbind]. rewrite Eb. cbn [mbind]. now rewrite u_add_over.
    + destruct (fs_canon f p) as [cp|] eqn:Ec; [|exact I]. apply Hp. now apply F.
Qed.
