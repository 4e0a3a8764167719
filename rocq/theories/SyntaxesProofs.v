(** Proofs about sets of syntax definitions. *)
From Verif Require Import Base Utf8 Grapheme GraphemeProofs Position GapBuffer Cursor PathModel Buffer Spec CursorSpec Calls
  BufferCalls HalvesProofs Token Workspace WorkspaceSpec WorkspaceProofs WorkspaceProps Syntaxes SyntaxesSpec.

(** ** Lookups *)

Lemma find_last (P : definition -> Prop) (t : definition -> bool) ds : (forall d, t d = true <-> P d) ->
  match find t (rev ds) with
  | Some d => last_such P ds d
  | None => forall d, In d ds -> ~ P d
  end.
Proof.
  intros T. induction ds as [|x ds IH] using rev_ind; cbn [rev find]; [easy|]. rewrite rev_app_distr. cbn [rev app find].
  destruct (t x) eqn:X.
  - exists ds, []. split; [reflexivity|]. split; [now apply T|easy].
  - assert (N : ~ P x) by (intros H; apply T in H; congruence). destruct (find t (rev ds)) as [d|].
    + destruct IH as (u & v & -> & Pd & Nv). exists u, (v ++ [x]). split; [now rewrite <- app_assoc|]. split; [exact Pd|].
      intros y Hy. apply in_app_or in Hy. destruct Hy as [Hy|[<-|[]]]; [now apply Nv|exact N].
    + intros d Hd. apply in_app_or in Hd. destruct Hd as [Hd|[<-|[]]]; [now apply IH|exact N].
Qed.
Lemma last_unique P ds d d' : last_such P ds d -> last_such P ds d' -> d = d'.
Proof.
  intros (u & v & E & Pd & N) (u' & v' & E' & Pd' & N'). subst ds. revert u' v' E' N'.
  induction u as [|x u IH]; intros [|x' u'] v' E' N'; cbn in E'; injection E' as E1 E2.
  - easy.
  - subst. exfalso. apply (N d'); [|exact Pd']. apply in_or_app. right. now left.
  - subst. exfalso. apply (N' d); [|exact Pd]. apply in_or_app. right. now left.
  - now apply (IH u' v').
Qed.
Lemma last_in P ds d : last_such P ds d -> In d ds /\ P d.
Proof. intros (u & v & -> & Pd & _). split; [apply in_or_app; right; now left|exact Pd]. Qed.
Lemma last_app P ds us d : last_such P us d -> last_such P (ds ++ us) d.
Proof. intros (u & v & -> & Pd & N). exists (ds ++ u), v. now rewrite <- app_assoc. Qed.
Lemma last_none P ds us d : (forall x, In x us -> ~ P x) -> last_such P ds d -> last_such P (ds ++ us) d.
Proof.
  intros Nu (u & v & -> & Pd & N). exists u, (v ++ us). split; [now rewrite <- app_assoc|]. split; [exact Pd|].
  intros x Hx. apply in_app_or in Hx. destruct Hx; auto.
Qed.

Lemma is_for_test same e d : existsb (fun x => same x e) (def_exts d) = true <-> is_for same e d.
Proof. unfold is_for. apply existsb_exists. Qed.
Lemma plain_test d : text_eqb plain_text (def_name d) = true <-> is_plain d.
Proof. unfold text_eqb, is_plain. destruct (list_eq_dec N.eq_dec plain_text (def_name d)) as [E|E]; split; easy || congruence. Qed.
Lemma by_extension same ds e :
  match find_by_extension same ds e with
  | Some d => last_such (is_for same e) ds d
  | None => forall d, In d ds -> ~ is_for same e d
  end.
Proof. apply (find_last (is_for same e)). intros d. apply is_for_test. Qed.
Lemma by_plain ds :
  match find_plain_text ds with
  | Ok d => last_such is_plain ds d
  | Panic => ~ has_plain ds
  end.
Proof.
  unfold find_plain_text, find_by_name. pose proof (find_last is_plain (fun d => text_eqb plain_text (def_name d)) ds plain_test) as X.
  destruct (find _ (rev ds)); [exact X|]. intros (d & I & P). now apply (X d).
Qed.

(** The name that is looked up. *)
Definition asked (b : buffer) : option text := match buf_file_extension b with Some e => Some e | None => buf_file_name b end.
Lemma asked_asks b e : asked b = Some e <-> asks_for b e.
Proof.
  unfold asked, asks_for. destruct (buf_file_extension b) as [x|].
  - split; [auto|]. intros [H|[H _]]; [exact H|discriminate].
  - split; [auto|]. intros [H|[_ H]]; [discriminate|exact H].
Qed.
Definition lookup same ds b : res definition :=
  match match asked b with Some ex => find_by_extension same ds ex | None => None end with
  | Some d => Ok d | None => find_plain_text ds end.
Lemma lookup_due same ds b :
  match lookup same ds b with
  | Ok d => due same ds b d
  | Panic => ~ claimed same ds b /\ ~ has_plain ds
  end.
Proof.
  unfold lookup. pose proof (by_plain ds) as P. destruct (asked b) as [e|] eqn:A.
  - assert (Ae := proj1 (asked_asks b e) A). pose proof (by_extension same ds e) as X. destruct (find_by_extension same ds e) as [d|].
    + left. eauto.
    + assert (N : ~ claimed same ds b).
      { intros (e' & d & Ae' & I & F). apply asked_asks in Ae'. assert (e' = e) by congruence. subst e'. now apply (X d). }
      destruct (find_plain_text ds) as [d|]; [right|]; now split.
  - assert (N : ~ claimed same ds b) by (intros (e' & d & Ae' & _); apply asked_asks in Ae'; congruence).
    destruct (find_plain_text ds) as [d|]; [right|]; now split.
Qed.
Lemma due_unique same ds b d d' : due same ds b d -> due same ds b d' -> d = d'.
Proof.
  assert (C : forall e d, asks_for b e -> last_such (is_for same e) ds d -> claimed same ds b).
  { intros e x Ae L. destruct (last_in _ _ _ L) as [I F]. now exists e, x. }
  intros [(e & Ae & L)|[N L]] [(e' & Ae' & L')|[N' L']].
  - apply asked_asks in Ae, Ae'. assert (e' = e) by congruence. subst e'. eapply last_unique; eassumption.
  - destruct N'. eapply C; eassumption.
  - destruct N. eapply C; eassumption.
  - eapply last_unique; eassumption.
Qed.
Lemma lookup_ok same ds b d : lookup same ds b = Ok d <-> due same ds b d.
Proof.
  pose proof (lookup_due same ds b) as X. split; [intros E; now rewrite E in X|]. intros D.
  destruct (lookup same ds b) as [d'|] eqn:E.
  - f_equal. eapply due_unique; eassumption.
  - destruct X as [N P]. destruct D as [(e & Ae & L)|[_ L]].
    + destruct N. destruct (last_in _ _ _ L) as [I F]. now exists e, d.
    + destruct P. destruct (last_in _ _ _ L) as [I F]. now exists d.
Qed.
Lemma lookup_panic same ds b : lookup same ds b = Panic <-> ~ claimed same ds b /\ ~ has_plain ds.
Proof.
  pose proof (lookup_due same ds b) as X. split; [intros E; now rewrite E in X|]. intros [N P].
  destruct (lookup same ds b) as [d|]; [|reflexivity]. destruct X as [(e & Ae & L)|[_ L]].
  - destruct N. destruct (last_in _ _ _ L) as [I F]. now exists e, d.
  - destruct P. destruct (last_in _ _ _ L) as [I F]. now exists d.
Qed.

Definition with_syntax (w : workspace) (b : buffer) (y : syntax) : workspace :=
  WS (w_path w) (w_buffers w) (w_next_id w) (Some (set_syntax b (Some y))) (w_index w) (w_syntaxes w).
Lemma update_lookup same ds w : shop_update same ds w =
  match w_current w with
  | None => Ok (RErr EmptyWorkspace, w)
  | Some b => let* d := lookup same ds b in Ok (ROk tt, with_syntax w b (def_id d))
  end.
Proof. reflexivity. Qed.
Lemma update_total same ds w x : w_syntaxes w = set_of same ds -> shop_update same ds w = Ok x -> update_current_syntax w = x.
Proof.
  intros S. unfold shop_update, update_current_syntax. destruct (w_current w) as [b|]; [|now intros [= <-]]. rewrite S. cbn [set_of ss_find ss_plain].
  destruct (match buf_file_extension b with Some e => Some e | None => buf_file_name b end) as [e|].
  - destruct (find_by_extension same ds e) as [d|]; cbn [option_map bind]; [now intros [= <-]|].
    destruct (find_plain_text ds) as [d|]; cbn [bind]; [now intros [= <-]|discriminate].
  - destruct (find_plain_text ds) as [d|]; cbn [bind]; [now intros [= <-]|discriminate].
Qed.
Lemma update_panics same ds w : shop_update same ds w = Panic <->
  exists b, w_current w = Some b /\ ~ claimed same ds b /\ ~ has_plain ds.
Proof.
  rewrite update_lookup. destruct (w_current w) as [b|]; [|split; [discriminate|intros (b & E & _); discriminate]].
  pose proof (lookup_panic same ds b) as L. destruct (lookup same ds b) as [d|]; cbn [bind].
  - split; [discriminate|]. intros (x & [= <-] & H). now apply L in H.
  - split; [|reflexivity]. intros _. exists b. split; [reflexivity|]. now apply L.
Qed.

(** ** Adding and opening *)

Lemma upd_len {A} (l : list A) : forall i x l', upd l i x = Ok l' -> length l' = length l.
Proof. intros i x l' H. exact (upd_length l i x l' H). Qed.
Lemma upd_other {A} (v : list A) : forall i x v', upd v i x = Ok v' -> forall j, j <> i -> nth_error v' j = nth_error v j.
Proof.
  induction v as [|y v IH]; intros [|i] x v' E j J; cbn [upd] in E; try discriminate.
  - injection E as <-. destruct j; [now destruct J|reflexivity].
  - destruct (upd v i x) as [u|] eqn:U; [|discriminate]. cbn [bind] in E. injection E as <-. destruct j as [|j]; [reflexivity|].
    cbn [nth_error]. eapply IH; [eassumption|]. lia.
Qed.
Lemma select_keeps al w i b w' : select_buffer al w i = Ok (b, w') ->
  length (w_buffers w') = length (w_buffers w) /\ w_next_id w' = w_next_id w /\ w_syntaxes w' = w_syntaxes w.
Proof.
  unfold select_buffer. intros E.
  assert (X : forall w1, length (w_buffers w1) = length (w_buffers w) /\ w_next_id w1 = w_next_id w /\ w_syntaxes w1 = w_syntaxes w ->
    match nth_error (w_buffers w1) i with
    | Some target => let* blank := buffer_new al in let* bs := upd (w_buffers w1) i blank in
        Ok (true, WS (w_path w1) bs (w_next_id w1) (Some target) (Some i) (w_syntaxes w1))
    | None => Ok (false, w1) end = Ok (b, w') ->
    length (w_buffers w') = length (w_buffers w) /\ w_next_id w' = w_next_id w /\ w_syntaxes w' = w_syntaxes w).
  { intros w1 (A & B & C) H. destruct (nth_error (w_buffers w1) i); [|now injection H as <- <-].
    destruct (buffer_new al); [|discriminate]. cbn [bind] in H. destruct (upd (w_buffers w1) i a) as [bs|] eqn:U; [|discriminate].
    cbn [bind] in H. injection H as <- <-. cbn. apply upd_len in U. now rewrite U. }
  destruct (w_current w) as [c|]; cbn [bind] in E; [|apply (X w); auto].
  destruct (w_index w) as [k|]; [|discriminate]. destruct (get (w_buffers w) k) as [slot|]; [|discriminate]. cbn [bind] in E.
  destruct (upd (w_buffers w) k c) as [bs|] eqn:U; [|discriminate]. cbn [bind] in E.
  apply (X (WS (w_path w) bs (w_next_id w) (Some slot) (Some k) (w_syntaxes w))); [|exact E].
  cbn. apply upd_len in U. auto.
Qed.
Lemma select_takes al w i b w' x : select_buffer al w i = Ok (b, w') -> (forall k, w_current w <> None -> w_index w = Some k -> k <> i) ->
  nth_error (w_buffers w) i = Some x -> w_current w' = Some x.
Proof.
  unfold select_buffer. intros E Hk Hx.
  assert (X : forall w1, nth_error (w_buffers w1) i = Some x ->
    match nth_error (w_buffers w1) i with
    | Some target => let* blank := buffer_new al in let* bs := upd (w_buffers w1) i blank in
        Ok (true, WS (w_path w1) bs (w_next_id w1) (Some target) (Some i) (w_syntaxes w1))
    | None => Ok (false, w1) end = Ok (b, w') -> w_current w' = Some x).
  { intros w1 N H. rewrite N in H.
    destruct (buffer_new al); [|discriminate]. cbn [bind] in H. destruct (upd (w_buffers w1) i a) as [bs|]; [|discriminate].
    cbn [bind] in H. now injection H as <- <-. }
  destruct (w_current w) as [c|]; cbn [bind] in E; [|apply (X w); auto].
  destruct (w_index w) as [k|]; [|discriminate]. destruct (get (w_buffers w) k) as [slot|]; [|discriminate]. cbn [bind] in E.
  destruct (upd (w_buffers w) k c) as [bs|] eqn:U; [|discriminate]. cbn [bind] in E.
  apply (X (WS (w_path w) bs (w_next_id w) (Some slot) (Some k) (w_syntaxes w))); [|exact E].
  cbn. erewrite upd_other; [exact Hx|exact U|]. intros ->. now apply (Hk k).
Qed.
Lemma insert_at {A} (l : list A) i x l' : vec_insert l i x = Ok l' -> nth_error l' i = Some x /\ length l' = S (length l).
Proof.
  unfold vec_insert. destruct (Nat.leb_spec i (length l)) as [L|]; [|discriminate]. intros [= <-]. split.
  - rewrite nth_error_app2 by (rewrite firstn_length; lia). rewrite firstn_length, Nat.min_l, Nat.sub_diag by lia. reflexivity.
  - rewrite app_length, firstn_length. cbn. rewrite skipn_length. lia.
Qed.

Lemma asked_path b c : b_path c = b_path b -> asked c = asked b.
Proof. intros E. unfold asked, buf_file_extension, buf_file_name. now rewrite E. Qed.
Lemma claimed_path same ds b c : b_path c = b_path b -> claimed same ds c <-> claimed same ds b.
Proof.
  intros E. assert (X : forall e, asks_for c e <-> asks_for b e) by (intros e; rewrite <- !asked_asks; now rewrite (asked_path b c E)).
  split; intros (e & d & A & H); exists e, d; split; try apply X; assumption.
Qed.
Lemma due_path same ds b c d : b_path c = b_path b -> due same ds c d <-> due same ds b d.
Proof.
  intros E. rewrite <- !lookup_ok. unfold lookup. now rewrite (asked_path b c E).
Qed.

(** The buffer that is selected after it was added. *)
Lemma add_both same ds al w b w' : w_syntaxes w = set_of same ds -> add_buffer al w b = Ok w' ->
  (exists c, w_current w' = Some c /\ b_path c = b_path b) /\ length (w_buffers w') = S (length (w_buffers w)) /\
  w_syntaxes w' = w_syntaxes w /\
  (forall d, b_syntax b = None -> due same ds b d -> exists c, w_current w' = Some c /\ b_syntax c = Some (def_id d)) /\
  shop_add same ds al w b = match b_syntax b with Some _ => Ok w' | None => match lookup same ds b with Ok _ => Ok w' | Panic => Panic end end.
Proof.
  intros S. unfold add_buffer, shop_add. set (x := set_id b (Some (w_next_id w))). set (i := match w_index w with Some i => i + 1 | None => 0 end).
  destruct (vec_insert (w_buffers w) i x) as [bs|] eqn:I; [|discriminate]. cbn [bind]. destruct (insert_at _ _ _ _ I) as [Ix Il].
  set (w1 := WS (w_path w) bs (w_next_id w + 1) (w_current w) (w_index w) (w_syntaxes w)).
  destruct (select_buffer al w1 i) as [[r w2]|] eqn:X; [|discriminate]. cbn [bind].
  destruct (select_keeps _ _ _ _ _ X) as (Kl & Kn & Ks).
  assert (C : w_current w2 = Some x).
  { apply (select_takes _ _ _ _ _ _ X); [|exact Ix]. intros k _ Hk. cbn in Hk. subst i. rewrite Hk. lia. }
  rewrite C. cbn [x set_id b_syntax]. assert (S2 : w_syntaxes w2 = set_of same ds) by (rewrite Ks; exact S).
  destruct (b_syntax b) as [y|].
  - intros [= <-]. split; [now exists x|]. split; [cbn in Kl; lia|]. split; [now rewrite S2, S|]. split; [discriminate|reflexivity].
  - intros [= <-].
    assert (Lx : lookup same ds x = lookup same ds b) by (unfold lookup; now rewrite (asked_path b x eq_refl)).
    unfold update_current_syntax. rewrite C. cbn [snd].
    split; [eexists; split; [reflexivity|reflexivity]|]. split; [cbn in *; lia|]. split; [cbn; congruence|].
    assert (E : shop_update same ds w2 = let* d := lookup same ds x in Ok (ROk tt, with_syntax w2 x (def_id d))) by (rewrite update_lookup, C; reflexivity).
    rewrite Lx in E. split.
    + intros d _ D. apply lookup_ok in D. rewrite D in E. cbn [bind] in E.
      pose proof (update_total same ds w2 _ S2 E) as U. unfold update_current_syntax in U. rewrite C in U. injection U as U.
      eexists. split; [reflexivity|]. cbn [set_syntax b_syntax]. congruence.
    + destruct (lookup same ds b) as [d|]; cbn [bind] in E; rewrite E; [|reflexivity]. cbn [bind].
      pose proof (update_total same ds w2 _ S2 E) as U. unfold update_current_syntax in U. rewrite C in U. injection U as U.
      unfold with_syntax. now rewrite <- U.
Qed.
Lemma add_none same ds al w b : add_buffer al w b = Panic -> shop_add same ds al w b = Panic.
Proof.
  unfold add_buffer, shop_add. destruct (vec_insert _ _ _); [|reflexivity]. cbn [bind].
  destruct (select_buffer al _ _) as [[r w2]|]; [|reflexivity]. cbn [bind]. destruct (w_current w2) as [c|]; [|discriminate].
  destruct (b_syntax c); discriminate.
Qed.

Lemma by_path_keeps al f w p b w' : select_buffer_by_path al f w p = Ok (b, w') ->
  length (w_buffers w') = length (w_buffers w) /\ w_next_id w' = w_next_id w /\ w_syntaxes w' = w_syntaxes w.
Proof.
  unfold select_buffer_by_path. destruct (fs_canon f p) as [cp|]; [|now intros [= <- <-]].
  destruct (path_is _ cp); [now intros [= <- <-]|]. destruct (find_index _ _) as [i|]; [|now intros [= <- <-]]. apply select_keeps.
Qed.
Lemma open_both same ds al f w p r w' : w_syntaxes w = set_of same ds -> open_buffer al f w p = Ok (r, w') ->
  w_syntaxes w' = w_syntaxes w /\
  (length (w_buffers w') = length (w_buffers w) /\ shop_open same ds al f w p = Ok (r, w') \/
   length (w_buffers w') = S (length (w_buffers w)) /\ exists c, w_current w' = Some c /\
     (forall d, due same ds c d -> b_syntax c = Some (def_id d)) /\
     shop_open same ds al f w p = match lookup same ds c with Ok _ => Ok (r, w') | Panic => Panic end).
Proof.
  intros S. unfold open_buffer, shop_open. destruct (select_buffer_by_path al f w p) as [[fd w1]|] eqn:X; [|discriminate]. cbn [bind].
  destruct (by_path_keeps _ _ _ _ _ _ X) as (Kl & Kn & Ks). destruct fd.
  { intros [= <- <-]. auto. }
  destruct (from_file al f p) as [[b|e]|] eqn:F; cbn [bind]; [|intros [= <- <-]; auto|discriminate].
  destruct (add_buffer al w1 b) as [w2|] eqn:A; [|discriminate]. cbn [bind]. intros [= <- <-].
  assert (S1 : w_syntaxes w1 = set_of same ds) by congruence.
  destruct (add_both same ds al w1 b w2 S1 A) as ((c & Hc & Hp) & Hl & Hs & Hd & E). split; [congruence|]. right. split; [lia|].
  exists c. split; [exact Hc|]. assert (Lc : lookup same ds c = lookup same ds b) by (unfold lookup; now rewrite (asked_path b c Hp)).
  assert (N : b_syntax b = None).
  { revert F. unfold from_file. destruct (read_to_string f p) as [t|]; [|discriminate]. destruct (gb_new al t); [|discriminate].
    cbn [bind]. destruct (fs_canon f p) as [q|]; [|discriminate]. now intros [= <-]. }
  split.
  { intros d D. apply (due_path same ds b c d Hp) in D. destruct (Hd d N D) as (c' & Hc' & Y). assert (c' = c) by congruence. now subst c'. }
  rewrite E, Lc, N. destruct (lookup same ds b); reflexivity.
Qed.
Lemma open_none same ds al f w p : open_buffer al f w p = Panic -> shop_open same ds al f w p = Panic.
Proof.
  unfold open_buffer, shop_open. destruct (select_buffer_by_path al f w p) as [[[|] w1]|]; cbn [bind]; [discriminate| |reflexivity].
  destruct (from_file al f p) as [[b|e]|]; cbn [bind]; [|discriminate|reflexivity].
  intros H. destruct (add_buffer al w1 b) as [w2|] eqn:A; [discriminate|]. now rewrite (add_none same ds al w1 b A).
Qed.

(** ** Calls *)

Definition in_order (same : text -> text -> bool) (s : shop) : Prop := w_syntaxes (shop_ws s) = set_of same (shop_defs s).
Lemma wexec_keeps_set brk al c w f o w' f' : wexec brk al c w f = Ok (o, w', f') ->
  match c with WSetSyntaxes _ => True | _ => w_syntaxes w' = w_syntaxes w end.
Proof.
  assert (Sel : forall w i r w', select_buffer al w i = Ok (r, w') -> w_syntaxes w' = w_syntaxes w)
    by (intros w0 i r w0' H; now destruct (select_keeps _ _ _ _ _ H) as (_ & _ & H')).
  assert (Upd : forall w, w_syntaxes (snd (update_current_syntax w)) = w_syntaxes w)
    by (intros w0; unfold update_current_syntax; now destruct (w_current w0)).
  assert (Add : forall w b w', add_buffer al w b = Ok w' -> w_syntaxes w' = w_syntaxes w).
  { intros w0 b w0'. unfold add_buffer. destruct (vec_insert _ _ _) as [bs|]; [|discriminate]. cbn [bind].
    destruct (select_buffer al _ _) as [[r w2]|] eqn:X; [|discriminate]. cbn [bind]. apply Sel in X. cbn in X.
    destruct (w_current w2) as [x|]; [|intros [= <-]; exact X]. destruct (b_syntax x); intros [= <-]; [exact X|]. now rewrite Upd. }
  destruct c as [b|q| | | |c| |q|ss|g]; cbn [wexec]; intros E; [..|exact I|].
  - destruct (add_buffer al w b) eqn:X; [|discriminate]. cbn [bind] in E. injection E as _ <- _. eauto.
  - destruct (open_buffer al f w q) as [[r w1]|] eqn:X; [|discriminate]. cbn [bind] in E. injection E as _ <- _.
    revert X. unfold open_buffer. destruct (select_buffer_by_path al f w q) as [[fd w2]|] eqn:Y; [|discriminate]. cbn [bind].
    destruct (by_path_keeps _ _ _ _ _ _ Y) as (_ & _ & Z). destruct fd; [now intros [= _ <-]|].
    destruct (from_file al f q) as [[b|e]|]; cbn [bind]; [|now intros [= _ <-]|discriminate].
    destruct (add_buffer al w2 b) eqn:A; [|discriminate]. cbn [bind]. intros [= _ <-]. apply Add in A. congruence.
  - destruct (close_current_buffer al w) as [w1|] eqn:X; [|discriminate]. cbn [bind] in E. injection E as _ <- _.
    revert X. unfold close_current_buffer. destruct (w_index w); [|now intros [= <-]]. destruct (vec_remove _ _) as [[|x l]|]; cbn [bind]; [now intros [= <-]| |discriminate].
    destruct (select_buffer al _ _) as [[r w2]|] eqn:X; [|discriminate]. cbn [bind]. intros [= <-]. apply Sel in X. exact X.
  - destruct (next_buffer al w) as [w1|] eqn:X; [|discriminate]. cbn [bind] in E. injection E as _ <- _.
    revert X. unfold next_buffer. destruct (w_index w); [|now intros [= <-]]. destruct (usub _ _); [|discriminate]. cbn [bind].
    destruct (_ =? _); destruct (select_buffer al _ _) as [[r w2]|] eqn:X; cbn [bind]; try discriminate; intros [= <-]; apply Sel in X; exact X.
  - destruct (previous_buffer al w) as [w1|] eqn:X; [|discriminate]. cbn [bind] in E. injection E as _ <- _.
    revert X. unfold previous_buffer. destruct (w_index w); [|now intros [= <-]]. destruct (0 <? _); [|destruct (usub _ _); [|discriminate]; cbn [bind]];
      destruct (select_buffer al _ _) as [[r w2]|] eqn:X; cbn [bind]; try discriminate; intros [= <-]; apply Sel in X; exact X.
  - destruct (w_current w) as [b|]; [|now injection E as _ <- _]. destruct (bexec brk al c b f) as [[[bo b1] f1]|]; [|discriminate].
    cbn [bind] in E. now injection E as _ <- _.
  - destruct (update_current_syntax w) as [r w1] eqn:X. injection E as _ <- _. specialize (Upd w). now rewrite X in Upd.
  - now injection E as _ <- _.
  - now injection E as _ <- _.
Qed.

(** A call that does not panic does what the same call does when a set is a pair of lookups. *)
Lemma exec_same same brk al c s f o s' f' : in_order same s -> plain_call c -> shop_exec same brk al c s f = Ok (o, s', f') ->
  in_order same s' /\ wexec brk al (as_wcall same c) (shop_ws s) f = Ok (o, shop_ws s', f').
Proof.
  unfold in_order. intros S Pc. destruct s as [w ds]. cbn [shop_ws shop_defs] in *. destruct c as [c|ds'].
  2: { cbn. intros [= <- <- <-]. cbn. auto. }
  assert (G : (let* (o, w', f') := wexec brk al c w f in Ok (o, Shop w' ds, f')) = Ok (o, s', f') ->
    w_syntaxes (shop_ws s') = set_of same (shop_defs s') /\ wexec brk al (as_wcall same (SCall c)) w f = Ok (o, shop_ws s', f')).
  { intros E. destruct (wexec brk al c w f) as [[[o1 w1] f1]|] eqn:X; [|discriminate]. cbn [bind] in E. injection E as <- <- <-.
    cbn [shop_ws shop_defs as_wcall]. split; [|exact X]. apply wexec_keeps_set in X. rewrite <- S. destruct c; auto. destruct Pc. }
  destruct c as [b|q| | | |c| |q|ss|g]; try exact G; clear G; unfold shop_exec; cbn [shop_ws shop_defs as_wcall wexec].
  - destruct (add_buffer al w b) as [w1|] eqn:A; [|now rewrite (add_none same ds al w b A)].
    destruct (add_both same ds al w b w1 S A) as (_ & _ & Hs & _ & E). rewrite E.
    destruct (b_syntax b); [|destruct (lookup same ds b); [|discriminate]]; cbn [bind]; intros [= <- <- <-]; cbn [shop_ws shop_defs]; split; congruence.
  - destruct (open_buffer al f w q) as [[r w1]|] eqn:A; [|now rewrite (open_none same ds al f w q A)].
    destruct (open_both same ds al f w q r w1 S A) as (Hs & [(_ & E)|(_ & c & _ & _ & E)]); rewrite E; [|destruct (lookup same ds c); [|discriminate]];
      cbn [bind]; intros [= <- <- <-]; cbn [shop_ws shop_defs]; split; congruence.
  - destruct (shop_update same ds w) as [[r w1]|] eqn:U; [|discriminate]. cbn [bind]. intros [= <- <- <-]. cbn [shop_ws shop_defs].
    pose proof (update_total same ds w _ S U) as V. rewrite V. split; [|reflexivity].
    revert V. unfold update_current_syntax. destruct (w_current w); intros [= _ <-]; exact S.
Qed.
Lemma run_same same brk cs : forall s f os s' f', in_order same s -> Forall (fun ac => plain_call (snd ac)) cs ->
  shop_run same brk cs s f = Ok (os, s', f') ->
  in_order same s' /\ wrun brk (as_session same cs) (shop_ws s) f = Ok (os, shop_ws s', f').
Proof.
  induction cs as [|[al c] cs IH]; intros s f os s' f' S F E.
  { cbn in E. injection E as <- <- <-. now split. }
  inversion_clear F as [|? ? Pc F']. cbn [snd] in Pc. cbn [shop_run] in E.
  destruct (shop_exec same brk al c s f) as [[[o s1] f1]|] eqn:X; [|discriminate]. cbn [bind] in E.
  destruct (shop_run same brk cs s1 f1) as [[[os1 s2] f2]|] eqn:Y; [|discriminate]. cbn [bind] in E. injection E as <- <- <-.
  destruct (exec_same _ _ _ _ _ _ _ _ _ S Pc X) as [S1 X']. destruct (IH _ _ _ _ _ S1 F' Y) as [S2 Y'].
  split; [exact S2|]. cbn [as_session map wrun fst snd]. rewrite X'. cbn [bind]. unfold as_session in Y'. now rewrite Y'.
Qed.

Lemma sim_length w s : sim w s -> length (open_buffers w) = length (w_buffers w).
Proof. intros [p n ss|p pre blank post n b ss Hb]; [reflexivity|]. unfold open_buffers. cbn [w_index w_current w_buffers].
  rewrite firstn_pre, skipn_S_pre, !app_length. reflexivity. Qed.

(** When it does panic. *)
Lemma exec_panics same brk al c s f sh o w' f' : in_order same s -> sim (shop_ws s) sh -> plain_call (SCall c) ->
  wexec brk al c (shop_ws s) f = Ok (o, w', f') ->
  (shop_exec same brk al (SCall c) s f = Panic <->
   looks_up c (shop_ws s) w' /\ exists b, w_current w' = Some b /\ ~ claimed same (shop_defs s) b /\ ~ has_plain (shop_defs s)).
Proof.
  unfold in_order. intros S Sm Pc X. destruct s as [w ds]. cbn [shop_ws shop_defs] in *.
  assert (Sm' : exists sh', sim w' sh').
  { pose proof (wexec_sim brk al c w sh f Sm) as Y. destruct (spec_wcall brk al c sh f) as [[[o2 s2] f2]|].
    - destruct Y as (w2 & E2 & S2). rewrite X in E2. injection E2 as <- <- <-. eauto.
    - congruence. }
  destruct Sm' as (sh' & Sm'). apply sim_length in Sm, Sm'.
  destruct c as [b|q| | | |c| |q|ss|g]; unfold shop_exec; cbn [shop_ws shop_defs looks_up];
    try (rewrite X; cbn [bind]; split; [discriminate|intros [[] _]]).
  - cbn [wexec] in X. destruct (add_buffer al w b) as [w1|] eqn:A; [|discriminate]. cbn [bind] in X. injection X as <- <- <-.
    destruct (add_both same ds al w b w1 S A) as ((c & Hc & Hp) & _ & Hs & _ & E). rewrite E.
    pose proof (claimed_path same ds b c Hp) as Cl. pose proof (lookup_panic same ds b) as L.
    destruct (b_syntax b) as [y|]; [cbn [bind]; split; [discriminate|intros [H _]; discriminate]|].
    destruct (lookup same ds b); cbn [bind].
    + split; [discriminate|]. intros (_ & x & Hx & N & P). assert (x = c) by congruence. subst x.
      assert (Y : Ok a = Panic) by (apply L; split; [now rewrite <- Cl|exact P]). discriminate.
    + split; [|reflexivity]. intros _. split; [reflexivity|]. exists c. split; [exact Hc|]. rewrite Cl. now apply L.
  - cbn [wexec] in X. destruct (open_buffer al f w q) as [[r w1]|] eqn:A; [|discriminate]. cbn [bind] in X. injection X as <- <- <-.
    destruct (open_both same ds al f w q r w1 S A) as (Hs & [(Hl & E)|(Hl & c & Hc & _ & E)]); rewrite E.
    + cbn [bind]. split; [discriminate|]. intros [H _]. lia.
    + pose proof (lookup_panic same ds c) as L. destruct (lookup same ds c); cbn [bind].
      * split; [discriminate|]. intros (_ & x & Hx & H). assert (x = c) by congruence. subst x. apply L in H. discriminate.
      * split; [|reflexivity]. intros _. split; [lia|]. exists c. split; [exact Hc|]. now apply L.
  - cbn [wexec] in X. pose proof (update_panics same ds w) as L.
    assert (W : forall b, w_current w = Some b -> exists c, w_current w' = Some c /\ b_path c = b_path b).
    { intros b Hb. unfold update_current_syntax in X. rewrite Hb in X. injection X as _ <- _. eexists. split; reflexivity. }
    assert (W0 : w_current w = None -> w_current w' = None).
    { intros Hb. unfold update_current_syntax in X. rewrite Hb in X. now injection X as _ <- _. }
    assert (T : (let* (r, w') := shop_update same ds w in Ok (WResult r, Shop w' ds, f)) = Panic <-> shop_update same ds w = Panic).
    { destruct (shop_update same ds w) as [[r w1]|]; cbn [bind]; split; easy. }
    rewrite T, L. split.
    + intros (b & Hb & N & P). split; [exact I|]. destruct (W b Hb) as (c & Hc & Hp). exists c. rewrite (claimed_path same ds b c Hp). auto.
    + intros (_ & c & Hc & N & P). destruct (w_current w) as [b|] eqn:Hb; [|rewrite (W0 eq_refl) in Hc; discriminate].
      destruct (W b eq_refl) as (c' & Hc' & Hp). assert (c' = c) by congruence. subst c'. exists b.
      rewrite (claimed_path same ds b c Hp) in N. auto.
Qed.

(** ** Sessions *)

Lemma new_in_order same defaults folder f p s : shop_new same defaults folder f p = inl s ->
  in_order same s /\ exists ss, ws_new f p (Some ss) = ROk (shop_ws s).
Proof.
  unfold shop_new, in_order. destruct (match folder with None => _ | _ => _ end) as [ds|]; [|discriminate]. unfold ws_new.
  destruct (fs_canon f p) as [cp|]; [|discriminate]. intros [= <-]. cbn. split; [reflexivity|]. now exists (set_of same ds).
Qed.
Lemma reach_shop same brk s f : reachable_shop same brk s f -> in_order same s /\ reachable_workspace brk any (shop_ws s) f.
Proof.
  intros (defaults & folder & f0 & p & s0 & cs & os & E & F & R). destruct (new_in_order _ _ _ _ _ _ E) as [S0 (ss & W0)].
  destruct (run_same same brk cs s0 f0 os s f S0) as [S X]; [|exact R|].
  { eapply Forall_impl; [|exact F]. intros a (_ & H & _). exact H. }
  split; [exact S|]. exists f0, p, ss, (shop_ws s0), (as_session same cs), os. split; [exact W0|]. split; [|exact X].
  unfold as_session. rewrite Forall_map. eapply Forall_impl; [|exact F]. intros [al c] (A & _ & H). cbn in *. repeat split; assumption.
Qed.

Lemma shop_panics_exactly same cls s f al c : cls LF = GC_LF -> reachable_shop same (uax29 cls) s f ->
  alloc_ok al -> wcall_ok (uax29 cls) c -> plain_call (SCall c) ->
  exists o w' f', wexec (uax29 cls) al c (shop_ws s) f = Ok (o, w', f') /\
    (shop_exec same (uax29 cls) al (SCall c) s f = Panic <->
     looks_up c (shop_ws s) w' /\ exists b, w_current w' = Some b /\ ~ claimed same (shop_defs s) b /\ ~ has_plain (shop_defs s)) /\
    (shop_exec same (uax29 cls) al (SCall c) s f = Panic \/
     shop_exec same (uax29 cls) al (SCall c) s f = Ok (o, Shop w' (shop_defs s), f')).
Proof.
  intros HL R A C P. destruct (reach_shop _ _ _ _ R) as [S Rw]. destruct (reach_sim _ _ _ _ Rw) as (sh & Sm & W).
  destruct (spec_wcall_total cls al c sh f HL A C W) as (o & sh' & f' & E).
  pose proof (wexec_sim (uax29 cls) al c _ sh f Sm) as X. rewrite E in X. destruct X as (w' & X & _).
  exists o, w', f'. split; [exact X|]. split; [eapply exec_panics; eassumption|].
  destruct (shop_exec same (uax29 cls) al (SCall c) s f) as [[[o1 s1] f1]|] eqn:Y; [right|now left].
  destruct (exec_same _ _ _ _ _ _ _ _ _ S P Y) as [_ Z]. cbn [as_wcall] in Z. rewrite X in Z. injection Z as <- -> <-.
  assert (D : shop_defs s1 = shop_defs s).
  { revert Y. unfold shop_exec. destruct c; try (destruct P);
      match goal with |- context [bind ?m _] => destruct m as [x|]; [|discriminate] end; cbn [bind]; repeat (destruct x as [x ?]); now intros [= <- <- <-]. }
  destruct s1. cbn in D. now subst.
Qed.

(** What the buffer gets. *)
Lemma shop_definition same brk s f al c o s' f' : reachable_shop same brk s f -> plain_call (SCall c) ->
  shop_exec same brk al (SCall c) s f = Ok (o, s', f') -> looks_up c (shop_ws s) (shop_ws s') ->
  forall b, w_current (shop_ws s') = Some b -> exists d, due same (shop_defs s) b d /\ b_syntax b = Some (def_id d).
Proof.
  intros R P X L b Hb. destruct (reach_shop _ _ _ _ R) as [S Rw]. destruct (reach_sim _ _ _ _ Rw) as (sh & Sm & _).
  assert (Sm' : exists sh', sim (shop_ws s') sh').
  { destruct (exec_same _ _ _ _ _ _ _ _ _ S P X) as [_ Z]. cbn [as_wcall] in Z.
    pose proof (wexec_sim brk al c _ sh f Sm) as Y. destruct (spec_wcall brk al c sh f) as [[[o2 s2] f2]|].
    - destruct Y as (w2 & E2 & S2). rewrite Z in E2. injection E2 as <- <- <-. eauto.
    - congruence. }
  destruct Sm' as (sh' & Sm'). apply sim_length in Sm, Sm'.
  unfold in_order in S. destruct s as [w ds]. cbn [shop_ws shop_defs] in *.
  destruct c as [x|q| | | |c| |q|ss|g]; cbn [looks_up] in L; try contradiction; unfold shop_exec in X; cbn [shop_ws shop_defs] in X.
  - destruct (add_buffer al w x) as [w1|] eqn:A; [|now rewrite (add_none same ds al w x A) in X].
    destruct (add_both same ds al w x w1 S A) as ((c & Hc & Hp) & _ & _ & Hd & E). rewrite E, L in X.
    pose proof (lookup_ok same ds x) as K. destruct (lookup same ds x) as [d|]; [|discriminate]. cbn [bind] in X. injection X as <- <- <-. cbn [shop_ws] in *.
    assert (D : due same ds x d) by now apply K. destruct (Hd d L D) as (c' & Hc' & Y). exists d.
    assert (c = b) by congruence. assert (c' = b) by congruence. subst. split; [now apply (due_path same ds x b d Hp)|exact Y].
  - destruct (open_buffer al f w q) as [[r w1]|] eqn:A; [|now rewrite (open_none same ds al f w q A) in X].
    destruct (open_both same ds al f w q r w1 S A) as (Hs & [(Hl & E)|(Hl & c & Hc & Hd & E)]); rewrite E in X.
    + cbn [bind] in X. injection X as <- <- <-. cbn [shop_ws] in *. lia.
    + pose proof (lookup_ok same ds c) as K. destruct (lookup same ds c) as [d|]; [|discriminate]. cbn [bind] in X. injection X as <- <- <-. cbn [shop_ws] in *.
      assert (c = b) by congruence. subst c. exists d. split; [now apply K|]. apply Hd. now apply K.
  - rewrite update_lookup in X. destruct (w_current w) as [x|] eqn:Hx.
    + pose proof (lookup_ok same ds x) as K. destruct (lookup same ds x) as [d|]; [|discriminate]. cbn [bind] in X. injection X as <- <- <-.
      cbn [shop_ws with_syntax w_current] in Hb. injection Hb as <-. exists d. split; [|reflexivity].
      apply (due_path same ds x); [reflexivity|]. now apply K.
    + cbn [bind] in X. injection X as <- <- <-. cbn [shop_ws] in Hb. congruence.
Qed.

Lemma run_app same brk cs1 cs2 s f : shop_run same brk (cs1 ++ cs2) s f =
  let* (os1, s1, f1) := shop_run same brk cs1 s f in let* (os2, s2, f2) := shop_run same brk cs2 s1 f1 in Ok (os1 ++ os2, s2, f2).
Proof.
  revert s f. induction cs1 as [|[al c] cs1 IH]; intros s f; cbn [app shop_run bind].
  - destruct (shop_run same brk cs2 s f) as [[[os s1] f1]|]; reflexivity.
  - destruct (shop_exec same brk al c s f) as [[[o s1] f1]|]; [|reflexivity]. cbn [bind]. rewrite IH.
    destruct (shop_run same brk cs1 s1 f1) as [[[os1 s2] f2]|]; [|reflexivity]. cbn [bind].
    destruct (shop_run same brk cs2 s2 f2) as [[[os2 s3] f3]|]; reflexivity.
Qed.
Lemma exec_defs same brk al c s f o s' f' : plain_call c -> shop_exec same brk al c s f = Ok (o, s', f') ->
  shop_defs s' = match c with SAssign ds => ds | SCall _ => shop_defs s end.
Proof.
  intros P. unfold shop_exec. destruct c as [c|ds]; [|now intros [= <- <- <-]].
  destruct c; try (destruct P); match goal with |- context [bind ?m _] => destruct m as [x|]; [|discriminate] end; cbn [bind];
    repeat (destruct x as [x ?]); now intros [= <- <- <-].
Qed.
Lemma run_defs same brk cs : forall s f os s' f', Forall (fun ac => exists c, snd ac = SCall c /\ plain_call (snd ac)) cs ->
  shop_run same brk cs s f = Ok (os, s', f') -> shop_defs s' = shop_defs s.
Proof.
  induction cs as [|[al c] cs IH]; intros s f os s' f' F E; [now injection E as <- <- <-|]. inversion_clear F as [|? ? (c' & Ec & Pc) F'].
  cbn [snd] in *. subst c. cbn [shop_run] in E. destruct (shop_exec same brk al (SCall c') s f) as [[[o s1] f1]|] eqn:X; [|discriminate]. cbn [bind] in E.
  destruct (shop_run same brk cs s1 f1) as [[[os1 s2] f2]|] eqn:Y; [|discriminate]. cbn [bind] in E. injection E as <- <- <-.
  rewrite (IH _ _ _ _ _ F' Y). apply (exec_defs _ _ _ _ _ _ _ _ _ Pc X).
Qed.

Lemma shop_no_panic same cls defaults folder f0 p s0 cs : cls LF = GC_LF ->
  shop_new same defaults folder f0 p = inl s0 -> has_plain defaults ->
  Forall (fun ac => alloc_ok (fst ac) /\ plain_call (snd ac) /\ wcall_ok (uax29 cls) (as_wcall same (snd ac))) cs ->
  Forall (fun ac => assigns_plain (snd ac)) cs ->
  exists os s f, shop_run same (uax29 cls) cs s0 f0 = Ok (os, s, f) /\ has_plain (shop_defs s).
Proof.
  intros HL E H F A. induction cs as [|[al c] cs IH] using rev_ind.
  - exists [], s0, f0. split; [reflexivity|]. revert E. unfold shop_new.
    destruct H as (d & I & Pd). destruct folder as [[ds|]|]; [|discriminate|]; (destruct (fs_canon f0 p); [|discriminate]); intros [= <-]; exists d;
      (split; [|exact Pd]); cbn; [apply in_or_app; now left|exact I].
  - apply Forall_app in F, A. destruct F as [F Fc], A as [A Ac]. destruct (IH F A) as (os & s & f & R & Hp).
    inversion_clear Fc as [|? ? (Al & Pc & Wc) _]. inversion_clear Ac as [|? ? Asg _]. cbn [fst snd] in *.
    rewrite run_app, R. cbn [bind shop_run].
    assert (X : exists o s' f', shop_exec same (uax29 cls) al c s f = Ok (o, s', f')).
    { destruct c as [c|ds]; [|cbn; eauto].
      destruct (shop_panics_exactly same cls s f al c HL) as (o & w' & f' & _ & Q & [Y|Y]); try assumption.
      - exists defaults, folder, f0, p, s0, cs, os. auto.
      - exfalso. apply Q in Y. destruct Y as (_ & b & _ & _ & N). exact (N Hp).
      - eauto. }
    destruct X as (o & s' & f' & X). rewrite X. cbn [bind]. do 3 eexists. split; [reflexivity|].
    rewrite (exec_defs _ _ _ _ _ _ _ _ _ Pc X). destruct c; assumption.
Qed.

(** ** The user's definitions *)

Lemma due_user same defaults users b : claimed same users b -> forall d, due same (defaults ++ users) b d <-> due same users b d.
Proof.
  intros C. assert (U : exists d, due same users b d).
  { pose proof (lookup_due same users b) as X. destruct (lookup same users b) as [d|]; [eauto|]. now destruct X. }
  destruct U as (u & Du).
  assert (Da : due same (defaults ++ users) b u).
  { destruct Du as [(e & Ae & L)|[N _]]; [|contradiction]. left. exists e. split; [exact Ae|]. now apply last_app. }
  intros d. split; intros D; [rewrite (due_unique _ _ _ _ _ D Da)|rewrite (due_unique _ _ _ _ _ D Du)]; assumption.
Qed.
Lemma due_default same defaults users b : ~ claimed same users b -> claimed same defaults b ->
  forall d, due same (defaults ++ users) b d <-> due same defaults b d.
Proof.
  intros N C. assert (U : exists d, due same defaults b d).
  { pose proof (lookup_due same defaults b) as X. destruct (lookup same defaults b) as [d|]; [eauto|]. now destruct X. }
  destruct U as (u & Du).
  assert (Da : due same (defaults ++ users) b u).
  { destruct Du as [(e & Ae & L)|[N' _]]; [|contradiction]. left. exists e. split; [exact Ae|]. apply last_none; [|exact L].
    intros x I F. apply N. now exists e, x. }
  intros d. split; intros D; [rewrite (due_unique _ _ _ _ _ D Da)|rewrite (due_unique _ _ _ _ _ D Du)]; assumption.
Qed.
Lemma due_plain same defaults users b : ~ claimed same users b -> ~ claimed same defaults b ->
  forall d, due same (defaults ++ users) b d <->
    last_such is_plain users d \/ ~ has_plain users /\ last_such is_plain defaults d.
Proof.
  intros N N' d. assert (M : ~ claimed same (defaults ++ users) b).
  { intros (e & x & Ae & I & F). apply in_app_or in I. destruct I as [I|I]; [apply N'|apply N]; now exists e, x. }
  split.
  - intros [(e & Ae & L)|[_ L]].
    + destruct M. destruct (last_in _ _ _ L). now exists e, d.
    + pose proof (by_plain users) as X. destruct (find_plain_text users) as [u|].
      * left. assert (d = u) by (eapply last_unique; [exact L|now apply last_app]). now subst u.
      * right. split; [exact X|]. pose proof (by_plain defaults) as Y. destruct (find_plain_text defaults) as [u|].
        -- assert (d = u); [|now subst u]. eapply last_unique; [exact L|]. apply last_none; [|exact Y]. intros x I P. apply X. now exists x.
        -- exfalso. destruct (last_in _ _ _ L) as [I P]. apply in_app_or in I. destruct I as [I|I]; [apply Y|apply X]; now exists d.
  - intros H. right. split; [exact M|]. destruct H as [H|[X H]]; [now apply last_app|]. apply last_none; [|exact H]. intros x I P. apply X. now exists x.
Qed.

(** ** A new workspace *)

Lemma new_exactly same defaults folder f p :
  (shop_new same defaults folder f p = inr SyntaxLoadingError <-> folder = Some None) /\
  (shop_new same defaults folder f p = inr Io <-> folder <> Some None /\ fs_canon f p = None) /\
  (forall s, shop_new same defaults folder f p = inl s <->
     folder <> Some None /\ fs_canon f p = Some (w_path (shop_ws s)) /\
     open_buffers (shop_ws s) = [] /\ w_current (shop_ws s) = None /\ current_buffer_index (shop_ws s) = None /\
     w_next_id (shop_ws s) = 0 /\ w_syntaxes (shop_ws s) = set_of same (shop_defs s) /\
     shop_defs s = defaults ++ match folder with Some (Some users) => users | _ => [] end).
Proof.
  assert (K : forall ds s, (match fs_canon f p with None => inr Io | Some cp => inl (Shop (WS cp [] 0 None None (set_of same ds)) ds) end = inl s <->
     fs_canon f p = Some (w_path (shop_ws s)) /\ open_buffers (shop_ws s) = [] /\ w_current (shop_ws s) = None /\
     current_buffer_index (shop_ws s) = None /\ w_next_id (shop_ws s) = 0 /\ w_syntaxes (shop_ws s) = set_of same (shop_defs s) /\ shop_defs s = ds)).
  { intros ds [[q bs n c i y] ds']. unfold current_buffer_index. cbn [shop_ws shop_defs w_path w_current w_next_id w_syntaxes w_index].
    destruct (fs_canon f p) as [cp|]; [|easy]. split.
    - intros [= <- <- <- <- <- <- <-]. easy.
    - intros (E2 & E3 & -> & -> & -> & -> & ->). cbn in E3. congruence. }
  unfold shop_new. split; [|split].
  - destruct folder as [[us|]|]; [..|]; try easy; (destruct (fs_canon f p); easy).
  - destruct folder as [[us|]|]; [| |]; try easy; (destruct (fs_canon f p); easy).
  - intros s. destruct folder as [[us|]|]; [rewrite (K (defaults ++ us) s)|easy|rewrite app_nil_r, (K defaults s)]; easy.
Qed.
