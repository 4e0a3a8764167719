(** Workspaces whose public field [current_buffer] is assigned: Bench.v. *)
From Verif Require Import Base Utf8 Utf8Proofs Grapheme GraphemeProofs Position GapBuffer
  GapBufferProofs Cursor PathModel Buffer Spec CursorSpec Calls CursorCalls TextProofs UaxProofs HalvesProofs TextFacts
  GapProps CursorProofs OpProofs BufferCalls Timeline TimelineProofs AnyTextProofs BufferProps
  BufferIoProps BufferFacts Token Workspace WorkspaceSpec WorkspaceProofs WorkspaceProps Bench.

Inductive bsim : workspace -> bench -> Prop :=
| bsim_kept w s : sim w s -> bsim w (Bench s Kept)
| bsim_taken p pre blank post n ss : is_blank blank ->
  bsim (WS p (pre ++ blank :: post) n None (Some (length pre)) ss)
       (Bench (Shelf p (pre ++ blank :: post) (Some (length pre)) n ss) Taken)
| bsim_stray p n b ss : bsim (WS p [] n (Some b) None ss) (Bench (Shelf p [] None n ss) (Stray b)).

(** A taken place behaves as if the new buffer had been checked out. *)
Section Taken.
  Variables (al : allocator) (p : path) (pre post : list buffer) (blank : buffer) (n : nat) (ss : syntax_set).
  Hypothesis Hb : is_blank blank.
  Let w := WS p (pre ++ blank :: post) n None (Some (length pre)) ss.
  Let w1 := WS p (pre ++ blank :: post) n (Some blank) (Some (length pre)) ss.
  Let s := Shelf p (pre ++ blank :: post) (Some (length pre)) n ss.

  Lemma taken_sim : sim w1 s.
  Proof. now constructor. Qed.
  Lemma taken_select j bs m pre' post' : bs = pre' ++ blank :: post' -> length pre' = length pre -> j < length bs ->
    select_buffer al (WS p bs m None (Some (length pre)) ss) j
    = select_buffer al (WS p bs m (Some blank) (Some (length pre)) ss) j.
  Proof.
    intros -> L Hj. unfold select_buffer at 2. cbn [w_current w_index w_buffers w_path w_next_id w_syntaxes].
    rewrite <- L, get_app, upd_app by auto. cbn [bind w_current w_index w_buffers w_path w_next_id w_syntaxes].
    unfold select_buffer. cbn [w_current w_index w_buffers w_path w_next_id w_syntaxes bind].
    destruct (nth_error (pre' ++ blank :: post') j) eqn:X; [reflexivity|]. apply nth_error_None in X. lia.
  Qed.
  Lemma taken_add b : add_buffer al w b = add_buffer al w1 b.
  Proof.
    unfold add_buffer, w, w1. cbn [w_current w_index w_buffers w_path w_next_id w_syntaxes].
    unfold vec_insert. rewrite Nat.add_1_r, firstn_S_pre, skipn_S_pre.
    destruct (Nat.leb_spec (S (length pre)) (length (pre ++ blank :: post))) as [_|L]; [|reflexivity].
    cbn [bind]. rewrite <- app_assoc. cbn [app].
    rewrite (taken_select (S (length pre)) _ (n + 1) pre (set_id b (Some n) :: post)); [reflexivity|reflexivity|reflexivity|].
    rewrite app_length. cbn. lia.
  Qed.
  Lemma taken_close : close_current_buffer al w = close_current_buffer al w1.
  Proof. reflexivity. Qed.
  Lemma taken_len : length pre < length (pre ++ blank :: post).
  Proof. rewrite app_length. cbn. lia. Qed.
  Lemma taken_next : next_buffer al w = next_buffer al w1.
  Proof.
    unfold next_buffer, w, w1. cbn [w_index w_buffers]. unfold usub. pose proof taken_len as L.
    destruct (Nat.leb_spec 1 (length (pre ++ blank :: post))) as [_|?]; [|lia]. cbn [bind].
    destruct (Nat.eqb_spec (length pre) (length (pre ++ blank :: post) - 1)) as [E|E];
      rewrite (taken_select _ _ n pre post); auto; lia.
  Qed.
  Lemma taken_previous : previous_buffer al w = previous_buffer al w1.
  Proof.
    unfold previous_buffer, w, w1. cbn [w_index w_buffers]. unfold usub. pose proof taken_len as L.
    destruct (Nat.ltb_spec 0 (length pre)).
    - rewrite (taken_select _ _ n pre post); auto; lia.
    - destruct (Nat.leb_spec 1 (length (pre ++ blank :: post))) as [_|?]; [|lia]. cbn [bind].
      rewrite (taken_select _ _ n pre post); auto; lia.
  Qed.
  (** Opening: if it fails nothing happens, else it is as above. *)
  Lemma taken_open f q : exists r w', open_buffer al f w1 q = Ok (r, w') /\
    match r with
    | ROk _ => open_buffer al f w q = Ok (r, w')
    | RErr _ => open_buffer al f w q = Ok (r, w) /\ w' = w1
    end.
  Proof.
    unfold open_buffer, select_buffer_by_path.
    assert (Load : exists r w', (let* r := from_file al f q in
        match r with RErr e => Ok (RErr e, w1) | ROk b => let* w2 := add_buffer al w1 b in Ok (ROk tt, w2) end) = Ok (r, w') /\
      match r with
      | ROk _ => (let* r := from_file al f q in
          match r with RErr e => Ok (RErr e, w) | ROk b => let* w2 := add_buffer al w b in Ok (ROk tt, w2) end) = Ok (r, w')
      | RErr _ => (let* r := from_file al f q in
          match r with RErr e => Ok (RErr e, w) | ROk b => let* w2 := add_buffer al w b in Ok (ROk tt, w2) end) = Ok (r, w) /\ w' = w1
      end).
    { destruct (from_file_total al f q) as ([b|e] & E); rewrite E; cbn [bind].
      - destruct (add_sim al w1 s b taken_sim) as (w' & Ea & _). exists (ROk tt), w'. rewrite taken_add, Ea. now split.
      - exists (RErr e), w1. now split. }
    destruct (fs_canon f q) as [cp|]; [|exact Load].
    destruct Hb as (Hp & _). unfold w, w1. cbn [w_current w_buffers path_is]. rewrite Hp. cbn [path_is].
    destruct (find_index (fun b => path_is (b_path b) cp) (pre ++ blank :: post)) as [i|] eqn:Ei; [|exact Load].
    rewrite find_first in Ei. destruct (first_bound _ _ _ Ei) as (x & Hx & _).
    assert (Li : i < length (pre ++ blank :: post)) by (apply nth_error_Some; congruence).
    destruct (select_sim al w1 s i taken_sim) as (w' & E & _); [discriminate|exact Li|].
    rewrite (taken_select i _ n pre post); auto. unfold w1 in E. rewrite E. cbn [bind]. exists (ROk tt), w'. now split.
  Qed.
End Taken.

(** The buffers that the workspace holds. *)
Definition bench_wf (t : bench) : Prop :=
  Forall wfb (s_buffers (be_list t)) /\ match be_field t with Stray b => wfb b | _ => True end.

Lemma new_wfb al b : buffer_new al = Ok b -> wfb b.
Proof.
  intros E. apply (fresh_wfb (FS (fun _ => None) (fun _ => None))). left. now exists al.
Qed.

Lemma step_sim cls al c w t f : cls LF = GC_LF -> alloc_ok al -> fcall_ok (uax29 cls) c -> bsim w t -> bench_wf t ->
  (exists o w' f' t', fexec (uax29 cls) al c w f = Ok (o, w', f') /\ bench_step (uax29 cls) al c t f o t' f' /\
     bsim w' t' /\ bench_wf t' /\ ~ strays al w f c) \/
  (fexec (uax29 cls) al c w f = Panic /\ strays al w f c).
Proof.
  intros HL Ha Hc S W. destruct c as [c|b]; cbn [fcall_ok] in Hc.
  - destruct S as [w s S|p pre blank post n ss Hb|p n b ss].
    + left. destruct W as [W _]. cbn [be_list] in W.
      destruct (spec_wcall_total cls al c s f HL Ha Hc W) as (o & s' & f' & E).
      pose proof (wexec_sim (uax29 cls) al c w s f S) as X. rewrite E in X. destruct X as (w' & X & S').
      exists o, w', f', (Bench s' Kept). cbn [fexec bench_step be_field be_list]. split; [assumption|]. split; [eauto|].
      split; [now constructor|]. split.
      * split; [|exact I]. cbn [be_list]. eapply wfb_changed; try eassumption. eapply spec_changed; [|eassumption].
        now apply (sim_sel_ok w).
      * intros (Hi & b & Hb & _). destruct S; cbn in *; discriminate.
    + left. destruct W as [W _]. cbn [be_list] in W.
      pose (w := WS p (pre ++ blank :: post) n None (Some (length pre)) ss).
      pose (w1 := WS p (pre ++ blank :: post) n (Some blank) (Some (length pre)) ss).
      pose (s := Shelf p (pre ++ blank :: post) (Some (length pre)) n ss).
      assert (S1 : sim w1 s) by now apply taken_sim.
      assert (NS : forall c', ~ strays al w f c') by (intros c' (Hi & _); discriminate).
      destruct (spec_wcall_total cls al c s f HL Ha Hc W) as (o & s' & f' & E).
      assert (W' : Forall wfb (s_buffers s')).
      { eapply wfb_changed; try eassumption. eapply spec_changed; [|eassumption]. now apply (sim_sel_ok w1). }
      pose proof (wexec_sim (uax29 cls) al c w1 s f S1) as X. rewrite E in X. destruct X as (w' & X & S').
      fold w s. destruct c as [b|q| | | |c| |q|ss'|g];
        cbn [fexec bench_step be_field be_list after_taking].
      * exists o, w', f', (Bench s' Kept). cbn [wexec] in X |- *. unfold w. rewrite taken_add by assumption. fold w1.
        split; [assumption|]. split; [eauto|]. split; [now constructor|]. split; [now split|apply NS].
      * destruct (taken_open al p pre post blank n ss Hb f q) as (r & w2 & E1 & E2). fold w1 in E1.
        cbn [wexec] in X |- *. rewrite E1 in X. cbn [bind] in X. injection X as <- <- <-. fold w1 w in E2.
        destruct r as [[]|e].
        -- rewrite E2. cbn [bind]. do 3 eexists. exists (Bench s' Kept). split; [reflexivity|]. split; [exists s'; now split|].
           split; [now constructor|]. split; [now split|apply NS].
        -- destruct E2 as [E2 ->]. rewrite E2. cbn [bind]. do 3 eexists. exists (Bench s' Taken). split; [reflexivity|].
           split; [exists s'; now split|].
           assert (s' = s) as ->.
           { cbn [spec_wcall] in E. destruct (spec_open al f s q) as [[o1 s1]|] eqn:Es; [|discriminate]. cbn [bind] in E.
             injection E as -> -> . unfold spec_open, load in Es.
             destruct (from_file_total al f q) as (r & Er). rewrite Er in Es. cbn [bind] in Es.
             destruct (fs_canon f q) as [cp|].
             - destruct (match selected s with Some b => has_path cp b | None => false end); [discriminate|].
               destruct (first_with cp (s_buffers s)); [discriminate|]. destruct r; [discriminate|]. now injection Es.
             - destruct r; [discriminate|]. now injection Es. }
           split; [now apply bsim_taken|]. split; [now split|apply NS].
      * exists o, w', f', (Bench s' Kept). cbn [wexec] in X |- *. unfold w. rewrite taken_close. fold w1.
        split; [assumption|]. split; [eauto|]. split; [now constructor|]. split; [now split|apply NS].
      * exists o, w', f', (Bench s' Kept). cbn [wexec] in X |- *. unfold w. rewrite taken_next by assumption. fold w1.
        split; [assumption|]. split; [eauto|]. split; [now constructor|]. split; [now split|apply NS].
      * exists o, w', f', (Bench s' Kept). cbn [wexec] in X |- *. unfold w. rewrite taken_previous by assumption. fold w1.
        split; [assumption|]. split; [eauto|]. split; [now constructor|]. split; [now split|apply NS].
      * exists (WEdited None), w, f, (Bench s Taken). repeat (split; [reflexivity|]). split; [now split|].
        split; [now apply bsim_taken|]. split; [now split|apply NS].
      * exists (WResult (RErr EmptyWorkspace)), w, f, (Bench s Taken). split; [reflexivity|]. split; [now split|].
        split; [now apply bsim_taken|]. split; [now split|apply NS].
      * cbn [spec_wcall] in E. injection E as <- <- <-. do 3 eexists. eexists. split; [reflexivity|].
        split; [eexists; split; reflexivity|]. split; [now apply bsim_taken|]. split; [now split|apply NS].
      * cbn [spec_wcall] in E. injection E as <- <- <-. do 3 eexists. eexists. split; [reflexivity|].
        split; [eexists; split; reflexivity|]. split; [now apply bsim_taken|]. split; [now split|apply NS].
      * cbn [spec_wcall] in E. injection E as <- <- <-. do 3 eexists. eexists. split; [reflexivity|].
        split; [eexists; split; reflexivity|]. split; [now apply bsim_taken|]. split; [now split|apply NS].
    + destruct W as [_ Wb]. cbn [be_field] in Wb.
      pose (t := Bench (Shelf p [] None n ss) (Stray b)).
      destruct c as [b'|q| | | |c| |q|ss'|g]; cbn [fexec bench_step be_field be_list].
      * right. split; [reflexivity|]. split; [reflexivity|]. exists b. split; [reflexivity|]. left. eauto.
      * destruct (from_file_total al f q) as (r & Er).
        assert (P : match fs_canon f q with Some cp => has_path cp b = true | None => False end \/
                    match fs_canon f q with Some cp => has_path cp b = false | None => True end).
        { destruct (fs_canon f q); [destruct (has_path _ b)|]; auto. }
        assert (Open : open_buffer al f (WS p [] n (Some b) None ss) q =
          match fs_canon f q with
          | Some cp => if has_path cp b then Ok (ROk tt, WS p [] n (Some b) None ss)
                       else match r with RErr e => Ok (RErr e, WS p [] n (Some b) None ss) | ROk _ => Panic end
          | None => match r with RErr e => Ok (RErr e, WS p [] n (Some b) None ss) | ROk _ => Panic end
          end).
        { unfold open_buffer, select_buffer_by_path. destruct (fs_canon f q) as [cp|].
          - cbn [w_current w_buffers find_index]. rewrite path_is_has. destruct (has_path cp b); [reflexivity|].
            cbn [bind]. rewrite Er. cbn [bind]. now destruct r.
          - cbn [bind]. rewrite Er. cbn [bind]. now destruct r. }
        assert (Path : forall b', r = ROk b' -> b_path b' = fs_canon f q /\ fs_canon f q <> None).
        { intros b' ->. unfold from_file in Er. destruct (read_to_string f q) as [tx|]; [|discriminate].
          destruct (gb_new al tx); [|discriminate]. cbn [bind] in Er. destruct (fs_canon f q); [|discriminate].
          injection Er as <-. now split. }
        cbn [wexec]. rewrite Open.
        destruct (fs_canon f q) as [cp|] eqn:Ec.
        -- destruct (has_path cp b) eqn:Hp.
           ++ left. exists (WResult (ROk tt)), (WS p [] n (Some b) None ss), f, t. split; [reflexivity|].
              split; [split; [reflexivity|split; [reflexivity|]]; reflexivity|]. split; [constructor|].
              split; [split; [constructor|exact Wb]|].
              intros (_ & b0 & [= <-] & [(? & [=])|(q' & b' & [= <-] & E & N)]). rewrite Er in E. injection E as ->.
              destruct (Path b' eq_refl) as [Hb' _]. rewrite Hb' in N. unfold has_path in Hp.
              destruct (b_path b) as [x|]; [|discriminate]. destruct (path_eq_dec x cp); [|discriminate]. congruence.
           ++ destruct r as [b'|e].
              ** right. split; [reflexivity|]. split; [reflexivity|]. exists b. split; [reflexivity|]. right.
                 exists q, b'. split; [reflexivity|]. split; [assumption|]. destruct (Path b' eq_refl) as [-> _].
                 unfold has_path in Hp. intros Hx. rewrite Hx in Hp. now destruct (path_eq_dec cp cp).
              ** left. exists (WResult (RErr e)), (WS p [] n (Some b) None ss), f, t. split; [reflexivity|].
                 split; [split; [reflexivity|split; [reflexivity|]]; eauto|]. split; [constructor|].
                 split; [split; [constructor|exact Wb]|].
                 intros (_ & b0 & [= <-] & [(? & [=])|(q' & b' & [= <-] & E & N)]). congruence.
        -- destruct r as [b'|e]; [now destruct (Path b' eq_refl)|].
           left. exists (WResult (RErr e)), (WS p [] n (Some b) None ss), f, t. split; [reflexivity|].
           split; [split; [reflexivity|split; [reflexivity|]]; eauto|]. split; [constructor|].
           split; [split; [constructor|exact Wb]|].
           intros (_ & b0 & [= <-] & [(? & [=])|(q' & b' & [= <-] & E & N)]). congruence.
      * left. do 3 eexists. eexists. split; [reflexivity|]. split; [repeat split|]. split; [constructor; constructor|].
        split; [split; constructor|]. intros (_ & ? & _ & [(? & [=])|(? & ? & [=] & _)]).
      * left. do 3 eexists. eexists. split; [reflexivity|]. split; [repeat split|]. split; [constructor|].
        split; [split; [constructor|exact Wb]|]. intros (_ & ? & _ & [(? & [=])|(? & ? & [=] & _)]).
      * left. do 3 eexists. eexists. split; [reflexivity|]. split; [repeat split|]. split; [constructor|].
        split; [split; [constructor|exact Wb]|]. intros (_ & ? & _ & [(? & [=])|(? & ? & [=] & _)]).
      * left. cbn [wexec w_current]. pose proof (bexec_any (uax29 cls) al c b f Ha Hc Wb) as Y.
        destruct (bexec (uax29 cls) al c b f) as [[[o b'] f']|]; [|now destruct (Y (uax29_order_safe cls HL))].
        cbn [bind]. do 3 eexists. eexists. split; [reflexivity|].
        split; [do 2 eexists; split; [reflexivity|split; reflexivity]|]. split; [constructor|].
        split; [split; [constructor|apply Y]|]. intros (_ & ? & _ & [(? & [=])|(? & ? & [=] & _)]).
      * left. cbn [wexec]. unfold update_current_syntax. cbn [w_current w_syntaxes w_path w_buffers w_next_id w_index].
        assert (E : (match (match (match buf_file_extension b with Some e => Some e | None => buf_file_name b end) with
              | Some ex => ss_find ss ex | None => None end) with
              | Some s => Some s | None => Some (ss_plain ss) end) = Some (syntax_for ss b)).
        { unfold syntax_for. destruct (buf_file_extension b) as [e|]; [now destruct (ss_find ss e)|].
          destruct (buf_file_name b) as [m|]; [now destruct (ss_find ss m)|reflexivity]. }
        rewrite E. do 3 eexists. eexists. split; [reflexivity|]. split; [repeat split|]. split; [constructor|].
        split; [split; [constructor|now apply wfb_set_syntax]|]. intros (_ & ? & _ & [(? & [=])|(? & ? & [=] & _)]).
      * left. do 3 eexists. eexists. split; [reflexivity|]. split; [eexists; split; reflexivity|]. split; [constructor|].
        split; [split; [constructor|exact Wb]|]. intros (_ & ? & _ & [(? & [=])|(? & ? & [=] & _)]).
      * left. do 3 eexists. eexists. split; [reflexivity|]. split; [eexists; split; reflexivity|]. split; [constructor|].
        split; [split; [constructor|exact Wb]|]. intros (_ & ? & _ & [(? & [=])|(? & ? & [=] & _)]).
      * left. do 3 eexists. eexists. split; [reflexivity|]. split; [eexists; split; reflexivity|]. split; [constructor|].
        split; [split; [constructor|exact Wb]|]. intros (_ & ? & _ & [(? & [=])|(? & ? & [=] & _)]).
  - left. cbn [fexec].
    assert (NS : ~ strays al w f (FAssign b)) by (intros (_ & ? & _ & [(? & [=])|(? & ? & [=] & _)])).
    assert (Wn : match b with Some b => wfb b | None => True end).
    { destruct b as [b|]; [|exact I]. destruct Hc as (g & R). now apply (reachable_wfb (uax29 cls) b g). }
    assert (Mid : forall p pre x blank post n ss x', is_blank blank ->
       Forall wfb (pre ++ x :: post) ->
       exists t', assigned (Bench (Shelf p (pre ++ x :: post) (Some (length pre)) n ss) x') b t' /\
         bsim (WS p (pre ++ blank :: post) n b (Some (length pre)) ss) t' /\ bench_wf t').
    { intros p pre x blank post n ss x' Hb Wx. unfold assigned. cbn [be_list s_selected replace_selected s_buffers s_path s_given s_syntaxes].
      rewrite firstn_pre, skipn_S_pre. apply Forall_app in Wx as [W1 W2]. inversion_clear W2 as [|? ? W2' W3]. destruct b as [b|].
      - eexists. split; [reflexivity|]. split; [constructor; now constructor|]. split; [|exact I].
        apply Forall_app. split; [assumption|]. now constructor.
      - eexists. split; [exists blank; split; [apply Hb|reflexivity]|]. split; [now constructor|]. split; [|exact I].
        apply Forall_app. split; [assumption|]. constructor; [|assumption]. destruct Hb as (_ & _ & _ & al0 & E). now apply (new_wfb al0). }
    destruct W as [W W2]. destruct S as [w s S|p pre blank post n ss Hb|p n b0 ss].
    + destruct S as [p n ss|p pre blank post n b0 ss Hb]; cbn [be_list s_buffers] in W.
      * destruct b as [b|]; do 3 eexists; eexists; (split; [reflexivity|]); (split; [repeat split|]); (split; [constructor; try constructor|]);
          (split; [split; [constructor|assumption]|exact NS]).
      * destruct (Mid p pre b0 blank post n ss Kept Hb W) as (t' & T1 & T2 & T3).
        exists WUnit, (WS p (pre ++ blank :: post) n b (Some (length pre)) ss), f, t'. repeat (split; [now auto|]). exact NS.
    + destruct (Mid p pre blank blank post n ss Taken Hb W) as (t' & T1 & T2 & T3).
      exists WUnit, (WS p (pre ++ blank :: post) n b (Some (length pre)) ss), f, t'. repeat (split; [now auto|]). exact NS.
    + destruct b as [b|]; do 3 eexists; eexists; (split; [reflexivity|]); (split; [repeat split|]); (split; [constructor; try constructor|]);
        (split; [split; [constructor|assumption]|exact NS]).
Qed.

(** ** What is seen *)

Lemma bsim_shows w t : bsim w t -> bench_shows w t.
Proof.
  intros [w' s S|p pre blank post n ss Hb|p n b ss].
  - destruct (sim_shows _ _ S) as [Sh _]. exact Sh.
  - assert (S1 : sim (WS p (pre ++ blank :: post) n (Some blank) (Some (length pre)) ss)
                     (Shelf p (pre ++ blank :: post) (Some (length pre)) n ss)) by now constructor.
    destruct (sim_shows _ _ S1) as [(_ & _ & _ & _ & _ & P) _]. destruct Hb as (Hp & _).
    unfold bench_shows. cbn [be_list field_value be_field s_path s_syntaxes s_buffers s_selected] in *.
    repeat (split; [reflexivity|]).
    assert (E : buffer_paths (WS p (pre ++ blank :: post) n (Some blank) (Some (length pre)) ss)
              = buffer_paths (WS p (pre ++ blank :: post) n None (Some (length pre)) ss)).
    { unfold buffer_paths, current_buffer_path. cbn [w_buffers w_index w_current]. apply map_ext. intros [i b].
      destruct (length pre =? i); [|reflexivity]. unfold relative_path. now rewrite Hp. }
    rewrite <- E. exact P.
  - unfold bench_shows. cbn. repeat (split; [reflexivity|]). split; [|constructor].
    apply (relative_shown (WS p [] n (Some b) None ss) b).
Qed.

Lemma frun_app brk cs1 : forall cs2 w f, frun brk (cs1 ++ cs2) w f =
  let* (os1, w1, f1) := frun brk cs1 w f in
  let* (os2, w2, f2) := frun brk cs2 w1 f1 in Ok (os1 ++ os2, w2, f2).
Proof.
  induction cs1 as [|[al c] cs1 IH]; intros cs2 w f; cbn [app frun].
  - cbn [bind]. now destruct (frun brk cs2 w f) as [[[os w1] f1]|].
  - destruct (fexec brk al c w f) as [[[o w1] f1]|]; cbn [bind]; [|reflexivity]. rewrite IH.
    destruct (frun brk cs1 w1 f1) as [[[os1 w2] f2]|]; cbn [bind]; [|reflexivity].
    now destruct (frun brk cs2 w2 f2) as [[[os2 w3] f3]|].
Qed.

Lemma frun_sim cls cs : cls LF = GC_LF -> Forall (fun ac => alloc_ok (fst ac) /\ fcall_ok (uax29 cls) (snd ac)) cs ->
  forall w t f, bsim w t -> bench_wf t ->
  (exists os w' f' t', frun (uax29 cls) cs w f = Ok (os, w', f') /\ bench_run (uax29 cls) cs t f os t' f' /\ bsim w' t' /\ bench_wf t') \/
  (frun (uax29 cls) cs w f = Panic /\ exists cs1 al c cs2 os w1 f1, cs = cs1 ++ (al, c) :: cs2 /\
     frun (uax29 cls) cs1 w f = Ok (os, w1, f1) /\ strays al w1 f1 c).
Proof.
  intros HL. induction cs as [|[al c] cs IH]; intros F w t f S W.
  - left. exists [], w, f, t. split; [reflexivity|]. split; [constructor|]. now split.
  - inversion_clear F as [|? ? (Ha & Hc) F']. cbn [fst snd] in *.
    destruct (step_sim cls al c w t f HL Ha Hc S W) as [(o & w1 & f1 & t1 & E & B & S1 & W1 & _)|(E & X)].
    + destruct (IH F' w1 t1 f1 S1 W1) as [(os & w2 & f2 & t2 & E2 & B2 & S2 & W2)|(E2 & cs1 & al' & c' & cs2 & os & w2 & f2 & -> & E3 & X)].
      * left. exists (o :: os), w2, f2, t2. cbn [frun]. rewrite E. cbn [bind]. rewrite E2. cbn [bind].
        split; [reflexivity|]. split; [econstructor; eassumption|]. now split.
      * right. cbn [frun]. rewrite E. cbn [bind]. rewrite E2. split; [reflexivity|].
        exists ((al, c) :: cs1), al', c', cs2, (o :: os), w2, f2. split; [reflexivity|].
        cbn [frun]. rewrite E. cbn [bind]. rewrite E3. now split.
    + right. cbn [frun]. rewrite E. split; [reflexivity|]. exists [], al, c, cs, [], w, f. split; [reflexivity|]. split; [reflexivity|exact X].
Qed.

Lemma new_bsim f p ss w : ws_new f p (Some ss) = ROk w ->
  exists cp, fs_canon f p = Some cp /\ bsim w (Bench (Shelf cp [] None 0 ss) Kept) /\ bench_wf (Bench (Shelf cp [] None 0 ss) Kept).
Proof.
  intros E. destruct (new_sim _ _ _ _ E) as (cp & Hc & S). exists cp. split; [assumption|]. split; [now constructor|].
  split; constructor.
Qed.

(** Any session with assignments. *)
Lemma field_sessions cls f0 p ss w0 cs : cls LF = GC_LF -> ws_new f0 p (Some ss) = ROk w0 ->
  Forall (fun ac => alloc_ok (fst ac) /\ fcall_ok (uax29 cls) (snd ac)) cs ->
  exists cp, fs_canon f0 p = Some cp /\
  match frun (uax29 cls) cs w0 f0 with
  | Ok (os, w, f) => exists t, bench_run (uax29 cls) cs (Bench (Shelf cp [] None 0 ss) Kept) f0 os t f /\ bench_shows w t
  | Panic => exists cs1 al c cs2 os w f, cs = cs1 ++ (al, c) :: cs2 /\
      frun (uax29 cls) cs1 w0 f0 = Ok (os, w, f) /\ strays al w f c
  end.
Proof.
  intros HL En F. destruct (new_bsim _ _ _ _ En) as (cp & Hc & S & W). exists cp. split; [assumption|].
  destruct (frun_sim cls cs HL F _ _ f0 S W) as [(os & w & f & t & E & B & S' & _)|(E & X)]; rewrite E; [|exact X].
  exists t. split; [assumption|]. now apply bsim_shows.
Qed.

(** Such a call always panics. *)
Lemma strays_panic cls f0 p ss w0 cs os w f al c : cls LF = GC_LF -> ws_new f0 p (Some ss) = ROk w0 ->
  Forall (fun ac => alloc_ok (fst ac) /\ fcall_ok (uax29 cls) (snd ac)) cs ->
  frun (uax29 cls) cs w0 f0 = Ok (os, w, f) -> alloc_ok al -> fcall_ok (uax29 cls) c ->
  fexec (uax29 cls) al c w f = Panic <-> strays al w f c.
Proof.
  intros HL En F E Ha Hc. destruct (new_bsim _ _ _ _ En) as (cp & _ & S & W).
  destruct (frun_sim cls cs HL F _ _ f0 S W) as [(os' & w' & f' & t & E' & B & S' & W')|(E' & X)]; [|congruence].
  rewrite E in E'. injection E' as <- <- <-.
  destruct (step_sim cls al c w t f HL Ha Hc S' W') as [(o & w1 & f1 & t1 & E1 & _ & _ & _ & N)|(E1 & X)].
  - split; [congruence|contradiction].
  - now split.
Qed.

(** Assigning only while a buffer is selected is safe. *)
Lemma in_place_safe cls f0 p ss w0 : cls LF = GC_LF -> ws_new f0 p (Some ss) = ROk w0 ->
  forall cs, Forall (fun ac => alloc_ok (fst ac) /\ fcall_ok (uax29 cls) (snd ac)) cs ->
  (forall cs1 al c cs2 os w f, cs = cs1 ++ (al, c) :: cs2 -> frun (uax29 cls) cs1 w0 f0 = Ok (os, w, f) -> assigns_in_place w c) ->
  exists os w f, frun (uax29 cls) cs w0 f0 = Ok (os, w, f).
Proof.
  intros HL En cs F. destruct (new_bsim _ _ _ _ En) as (cp & _ & S & W). clear En.
  assert (N : match be_field (Bench (Shelf cp [] None 0 ss) Kept) with Stray _ => False | _ => True end) by exact I.
  revert S W N. generalize (Bench (Shelf cp [] None 0 ss) Kept). revert w0 f0 F.
  induction cs as [|[al c] cs IH]; intros w0 f0 F t S W N A; [cbn; eauto|].
  inversion_clear F as [|? ? (Ha & Hc) F']. cbn [fst snd] in *.
  pose proof (A [] al c cs [] w0 f0 eq_refl eq_refl) as A0.
  destruct (step_sim cls al c w0 t f0 HL Ha Hc S W) as [(o & w1 & f1 & t1 & E & B & S1 & W1 & _)|(E & X)].
  - destruct (IH w1 f1 F' t1 S1 W1) as (os & w2 & f2 & E2).
    + destruct c as [c|b]; cbn [bench_step] in B.
      * destruct (be_field t) as [| |b] eqn:Ef; [| |contradiction].
        -- destruct B as (s & _ & ->). exact I.
        -- destruct c as [b|q| | | |c| |q|ss'|g]; cbn [after_taking] in B;
             try (destruct B as (s & _ & ->); exact I); try (destruct B as (_ & -> & _); now rewrite Ef).
           destruct B as (s & _ & ->). cbn [be_field]. now destruct o as [|[|]|].
      * destruct B as (_ & _ & B). unfold assigned in B. pose proof (bsim_shows _ _ S) as (_ & _ & _ & Hi & _).
        cbn [assigns_in_place] in A0. destruct b as [b|].
        -- rewrite Hi in A0. destruct (s_selected (be_list t)); [|congruence]. now rewrite B.
        -- destruct (s_selected (be_list t)); [destruct B as (? & _ & ->)|rewrite B]; exact I.
    + intros cs1 al' c' cs2 os' w f -> E'. refine (A ((al, c) :: cs1) al' c' cs2 (o :: os') w f eq_refl _).
      cbn [frun]. rewrite E. cbn [bind]. now rewrite E'.
    + cbn [frun]. rewrite E. cbn [bind]. rewrite E2. cbn [bind]. eauto.
  - exfalso. destruct X as (Hi & b & Hb & _). destruct S as [w s S|p' pre blank post n ss' Hb'|]; [|discriminate|contradiction].
    destruct S; discriminate.
Qed.
