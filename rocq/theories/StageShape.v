(** What the events output by a stage look like. *)
From Coq Require Import List Arith NArith ZArith Bool Lia.
From Verif Require Import Base Key Match Stage MatchProofs MatchMore StageFrame StageTerm StageSpec StageSafe StageOut.
Import ListNotations.
Local Open Scope N_scope.

Section Shape.
(** The keys which may occur. *)
Variable K : key -> Prop.
Hypothesis K_timeout : K k_timeout.

(** Presses and releases without a value, except that requested timeouts carry their
    duration and wheel presses their step. *)
Definition ok_out (e : event) : Prop :=
  K (ek e) /\ (es e = Down \/ es e = Up \/ ek e = k_timeout) /\
  (ev e = 0 \/ ek e = k_timeout \/ (is_mouse_wheel (ek e) = true /\ es e = Down)).

(** An event of a configured output; the marker ^ is not sent. *)
Definition wf_out (e : event) : Prop :=
  (K (ek e) \/ ek e = k_any \/ es e = OutputOnRelease) /\ (ev e = 0 \/ ek e = k_timeout).
Definition wf_outputs (cs : list context) : Prop :=
  Forall (fun c => Forall (Forall wf_out) (cx_outputs c) /\
                   Forall (fun m => Forall wf_out (cm_out m)) (cx_commands c)) cs.

(** An event held in the sequence. *)
Definition ok_seq (e : event) : Prop :=
  K (ek e) /\ (es e = Down -> ev e = 0 \/ is_mouse_wheel (ek e) = true).

Record shp (s : state) : Prop := Shp {
  p_buf : Forall ok_out (s_buf s);
  p_down : Forall (fun o => K (od_key o)) (s_down s);
  p_any : Forall K (s_any s);
  p_onrel : Forall (fun o => Forall wf_out (or_seq o)) (s_onrel s);
  p_seq : Forall ok_seq (s_seq s);
  p_hist : Forall (fun e => K (ek e)) (s_hist s)
}.

Ltac shp_same H := destruct H; constructor; cbn; auto.

Lemma shp_emit : forall e s, ok_out e -> shp s -> shp (emit e s).
Proof.
  intros e s He []. constructor; auto. cbn. apply Forall_app. split; [assumption|].
  constructor; [exact He|constructor].
Qed.
Lemma shp_down : forall d s, Forall (fun o => K (od_key o)) d -> shp s -> shp (set_down d s).
Proof. intros d s Hd []. constructor; auto. Qed.
Lemma shp_buf : forall b s, Forall ok_out b -> shp s -> shp (set_buf b s).
Proof. intros b s Hb []. constructor; auto. Qed.
Lemma shp_seq : forall q s, Forall ok_seq q -> shp s -> shp (set_seq q s).
Proof. intros b s Hb []. constructor; auto. Qed.

Lemma Forall_update_at : forall A (P : A -> Prop) f i l,
  (forall x, P x -> P (f x)) -> Forall P l -> Forall P (update_at i f l).
Proof.
  intros A P f. induction i as [|i IH]; intros [|x l] Hf H; cbn; auto; inversion_clear H; constructor; auto.
Qed.

Lemma ok_ev0 : forall k st, K k -> st = Down \/ st = Up -> ok_out (ev0 k st).
Proof. intros k st Hk Hs. split; [exact Hk|]. split; [cbn; tauto|]. left. reflexivity. Qed.

Lemma pop_back_Forall : forall A (P : A -> Prop) l, Forall P l -> Forall P (pop_back l).
Proof.
  intros A P l H. unfold pop_back. induction l as [|x l IH]; [constructor|].
  inversion_clear H. cbn. destruct l; [constructor|]. constructor; auto.
Qed.

Lemma reapply_shape : forall k l buf rea l' buf' rea' ret,
  reapply_loop k l buf rea = (l', buf', rea', ret) ->
  Forall (fun o => K (od_key o)) l -> Forall ok_out buf ->
  Forall (fun o => K (od_key o)) l' /\ Forall ok_out buf'.
Proof.
  intros k. induction l as [|o l IH]; intros buf rea l' buf' rea' ret H Hl Hb; cbn [reapply_loop] in H.
  - injection H as <- <- <- <-. auto.
  - inversion_clear Hl.
    assert (Hb' : Forall ok_out (buf ++ [ev0 (od_key o) Down])).
    { apply Forall_app. split; [exact Hb|]. constructor; [apply ok_ev0; auto|constructor]. }
    destruct (od_temp o && negb (od_suppressed o)).
    + destruct (od_key o =? k).
      * injection H as <- <- <- <-. split; [constructor; auto|exact Hb'].
      * destruct (reapply_loop k l _ true) as [[[r b] re] rt] eqn:E. injection H as <- <- <- <-.
        destruct (IH _ _ _ _ _ _ E) as [H2 H3]; [assumption|assumption|].
        split; [constructor; assumption|assumption].
    + match type of H with context [if ?c then _ else _] => destruct c end.
      * injection H as <- <- <- <-. split; [constructor; auto|apply pop_back_Forall; auto].
      * destruct (reapply_loop k l buf rea) as [[[r b] re] rt] eqn:E. injection H as <- <- <- <-.
        destruct (IH _ _ _ _ _ _ E) as [H2 H3]; [assumption|assumption|].
        split; [constructor; assumption|assumption].
Qed.

(** An event given to update_output. *)
Definition ok_arg (e : event) : Prop :=
  K (ek e) /\ (es e = Down -> ev e = 0 \/ ek e = k_timeout \/ is_mouse_wheel (ek e) = true) /\
  (es e = Up -> ev e = 0 \/ ek e = k_timeout).

Lemma ok_arg_ev0 : forall k st, K k -> ok_arg (ev0 k st).
Proof. intros k st H. split; [exact H|]. cbn. auto. Qed.

Lemma update_output_shape : forall e t ci s, ok_arg e -> shp s -> shp (update_output e t ci s).
Proof.
  intros e t ci s (HK & Hd & Hu) H. unfold update_output.
  destruct (es e) eqn:Ee; try exact H.
  - assert (He : ok_out e).
    { split; [exact HK|]. split; [auto|]. destruct (Hu eq_refl); auto. }
    destruct (find_index _ (s_down s)) as [i|]; [|exact H].
    destruct (nth_error (s_down s) i) as [o|]; [|exact H].
    assert (Hup : forall f, (forall x, od_key (f x) = od_key x) ->
              Forall (fun o => K (od_key o)) (update_at i f (s_down s))).
    { intros f Hf. apply Forall_update_at; [intros x; rewrite Hf; auto|apply H]. }
    destruct (od_twice o && is_virtual_key (ek e));
      [apply shp_emit; [exact He|]; apply shp_down; [apply Hup; reflexivity|exact H]|].
    destruct (od_twice o && negb (od_suppressed o)).
    + destruct (rfind_key (s_buf s) (ek e)) as [j|];
        (apply shp_down; [apply Hup; reflexivity|]); [|exact H].
      apply shp_buf; [apply Forall_remove_at; apply H|exact H].
    + apply shp_emit; [exact He|]. apply shp_down; [|exact H].
      destruct (_ =? _); [apply Forall_remove_at; apply H|apply Hup; reflexivity].
  - assert (He : ok_out e).
    { split; [exact HK|]. split; [auto|]. destruct (Hd eq_refl) as [?|[?|?]]; auto. }
    destruct (reapply_loop (ek e) (s_down s) (s_buf s) (s_reapplied s)) as [[[d b] rea] ret] eqn:Er.
    destruct (reapply_shape _ _ _ _ _ _ _ _ Er (p_down _ H) (p_buf _ H)) as [H1 H2].
    assert (H3 : shp (set_reapplied rea (set_buf b (set_down d s)))) by (shp_same H).
    set (s1 := set_reapplied rea (set_buf b (set_down d s))) in *.
    destruct ret; [exact H3|]. apply shp_emit; [exact He|].
    destruct (find_index _ (s_down s)) as [i|].
    + assert (H4 : shp (if s_reapplied s1 then emit (ev0 (ek e) Up) s1 else s1)).
      { destruct (s_reapplied s1); [apply shp_emit; [apply ok_ev0; auto|exact H3]|exact H3]. }
      apply shp_down; [|exact H4]. apply Forall_update_at; [auto|apply H4].
    + destruct (ek e =? k_timeout); [exact H3|]. apply shp_down; [|exact H3].
      apply Forall_app. split; [apply H3|constructor; [exact HK|constructor]].
  - destruct (find_index _ (s_down s)) as [i|]; [|exact H].
    destruct (_ || _); [exact H|]. destruct (nth_error (s_down s) i) as [o|]; [|exact H].
    assert (H4 : shp (if od_temp o then s else emit (ev0 (ek e) Up) s)).
    { destruct (od_temp o); [exact H|apply shp_emit; [apply ok_ev0; auto|exact H]]. }
    apply shp_down; [|exact H4]. apply Forall_update_at; [auto|apply H4].
Qed.

Lemma fold_shape : forall st t ci ks s, Forall K ks -> shp s ->
  shp (fold_left (fun s k => update_output (ev0 k st) t ci s) ks s).
Proof.
  intros st t ci. induction ks as [|k ks IH]; intros s Hk H; [exact H|]. inversion_clear Hk.
  cbn [fold_left]. apply IH; [assumption|]. apply update_output_shape; [apply ok_arg_ev0; assumption|exact H].
Qed.

Lemma apply_output_shape : forall t ci sq s, Forall wf_out sq -> shp s -> shp (apply_output sq t ci s).
Proof.
  intros t ci. induction sq as [|e r IH]; intros s Hq H; [exact H|]. inversion_clear Hq. rename H0 into He, H1 into Hr.
  cbn [apply_output]. destruct (N.eqb_spec (ek e) k_any) as [Ek|Ek].
  - apply IH; [exact Hr|].
    assert (G : forall st, shp (fold_left (fun s k => update_output (ev0 k st) t ci s) (s_any s) s)).
    { intros st. apply fold_shape; [apply H|exact H]. }
    destruct (es e); try apply G. apply fold_shape; [|exact H].
    rewrite Forall_map. apply H.
  - destruct He as [[HK|[?|Hm]] Hv]; [|contradiction|].
    2:{ rewrite Hm. destruct (es (get_trigger_event t)); try (apply IH; assumption).
        destruct H. constructor; auto. cbn. apply Forall_app. split; [assumption|].
        constructor; [exact Hr|constructor]. }
    assert (Ha : ok_arg e).
    { split; [exact HK|]. split; intros _; destruct Hv; auto. }
    assert (G : shp (apply_output r t ci (update_output e t ci s))).
    { apply IH; [exact Hr|apply update_output_shape; assumption]. }
    destruct (es e); try exact G.
    + destruct (is_virtual_key (ek e)); [|exact G]. apply IH; [exact Hr|].
      destruct (existsb _ (s_seq s)); [|exact H]. apply update_output_shape; [apply ok_arg_ev0; exact HK|exact H].
    + destruct (es (get_trigger_event t)); try (apply IH; assumption).
      destruct H. constructor; auto. cbn. apply Forall_app. split; [assumption|].
      constructor; [exact Hr|constructor].
Qed.

Lemma release_shape : forall k ci s, shp s -> shp (release_triggered k ci s).
Proof.
  intros k ci s H. destruct (release_down k ci s) as (E1 & E2 & E3).
  pose proof (release_frame k ci s) as F. unfold same_rel in F.
  destruct F as (_ & _ & _ & E4 & _ & _ & _ & E5 & E6 & _).
  destruct H as [H1 H2 H3 H4 H5 H6].
  constructor; rewrite ?E1, ?E2, ?E3, ?E4, ?E5, ?E6; auto.
  - apply Forall_app. split; [exact H1|]. rewrite Forall_map, Forall_map.
    apply Forall_filter. apply Forall_rev. apply Forall_filter.
    eapply Forall_impl; [|exact H2]. intros o Ho. apply ok_ev0; auto.
  - apply Forall_filter. exact H2.
Qed.

Lemma continue_shape : forall e ci s, shp s -> shp (fst (continue_output_on_release e ci s)).
Proof.
  intros e ci s H. unfold continue_output_on_release.
  destruct (find_index _ (s_onrel s)) as [i|]; [|exact H].
  assert (G : shp (fst match nth_error (s_onrel s) i with
             | Some o => let s0 := apply_output (or_seq o) (TEvent e) (or_ctx o) s in
                         (set_onrel (remove_at i (s_onrel s0)) s0, true)
             | None => (s, true) end)).
  { destruct (nth_error (s_onrel s) i) as [o|] eqn:En; [|exact H]. cbn zeta. cbn [fst].
    assert (Ho : Forall wf_out (or_seq o)).
    { pose proof (p_onrel _ H) as Ho. rewrite Forall_forall in Ho. apply Ho. eapply nth_error_In; eauto. }
    pose proof (apply_output_shape (TEvent e) (or_ctx o) _ s Ho H) as [].
    constructor; auto. cbn. apply Forall_remove_at. assumption. }
  destruct (es e); try exact G. exact H.
Qed.

Lemma forward_shape : forall l pre s, Forall ok_seq pre -> Forall ok_seq l -> shp s -> shp (forward_loop pre l s).
Proof.
  induction l as [|e r IH]; intros pre s Hp Hl H; [exact H|]. inversion_clear Hl. rename H0 into He, H1 into Hr.
  cbn [forward_loop].
  assert (Hpr : Forall ok_seq (pre ++ r)) by (apply Forall_app; auto).
  assert (Hd : forall st, st <> Down -> ok_seq (set_es st e)).
  { intros st Hst. split; [exact (proj1 He)|]. cbn. congruence. }
  assert (Hrel : shp (set_seq (pre ++ r) (release_triggered (ek e) None s))).
  { apply shp_seq; [exact Hpr|apply release_shape; exact H]. }
  assert (Hu : es e <> Up -> shp (update_output e (TKey (ek e)) None s)).
  { intros Hne. apply update_output_shape; [|exact H]. destruct He as [HK Hv]. split; [exact HK|].
    split; [intros E; destruct (Hv E); auto|contradiction]. }
  destruct (es e) eqn:Ee; try exact Hrel.
  - destruct (contains_ev _ _); [apply shp_seq; [exact Hpr|apply Hu; discriminate]|].
    apply shp_seq; [apply Forall_app; split; [exact Hp|constructor; [apply Hd; discriminate|exact Hr]]|].
    destruct (s_timeout s) as [c|]; [destruct (ct_output c)|]; [exact H|apply Hu; discriminate|apply Hu; discriminate].
  - destruct (contains_ev _ _); [apply shp_seq; [exact Hpr|apply Hu; discriminate]|].
    apply IH; [apply Forall_app; split; [exact Hp|constructor; [exact He|constructor]]|exact Hr|exact H].
Qed.

Lemma finish_loop_ok : forall n l, Forall ok_seq l -> Forall ok_seq (finish_loop n l).
Proof.
  induction n as [|n IH]; intros l H; [destruct l; exact H|].
  destruct l as [|e r]; [constructor|]. inversion_clear H. rename H0 into He, H1 into Hr.
  cbn [finish_loop].
  assert (Hd : forall st, st <> Down -> ok_seq (set_es st e)).
  { intros st Hst. split; [exact (proj1 He)|]. cbn. congruence. }
  destruct (es e); repeat match goal with |- context [if ?c then _ else _] => destruct c end;
    try (apply IH; exact Hr); (constructor; [apply Hd; discriminate|apply IH; exact Hr]).
Qed.

Lemma finish_shape : forall n s, shp s -> shp (finish_sequence n s).
Proof. intros n s H. apply shp_seq; [apply finish_loop_ok; apply H|exact H]. Qed.

(** * Matching *)

Lemma step_any_from : forall ee se b m ae as_ m', match_step ee se b m = MGo ae as_ m' ->
  ms_any m' = ms_any m \/ (ms_any m' = ms_any m ++ [ek se] /\ es se = Down).
Proof.
  intros ee se b m ae as_ m' H. unfold match_step in H.
  cbn [ms_any ms_not ms_async ms_nmm ms_ign ms_e ms_down] in H.
  repeat match type of H with
  | context [if ?c then _ else _] =>
      match c with (ek ee =? k_any) && kstate_eqb (es se) Down => fail 1 | _ => destruct c eqn:? end
  | context [match find_index ?f ?l with _ => _ end] => destruct (find_index f l) eqn:?
  end; try discriminate H; injection H as <- <- <-; cbn [ms_any]; auto.
  destruct ((ek ee =? k_any) && kstate_eqb (es se) Down) eqn:C; auto.
  apply andb_prop in C. destruct C as [_ C]. destruct (es se); try discriminate. auto.
Qed.

Lemma event_dec : forall a b : event, {a = b} + {a <> b}.
Proof. intros a b. repeat decide equality. Defined.

Lemma match_loop_from : forall fuel ex sq m r anys t,
  Forall (fun e => K (ek e)) sq -> Forall K (ms_any m) ->
  match_loop fuel ex sq m = Some (r, anys, t) -> Forall K anys.
Proof.
  induction fuel as [|f IH]; intros ex sq m r anys t Hs Hm H.
  - destruct ex, sq; try discriminate. injection H as _ <- _. exact Hm.
  - assert (G : forall e q, Forall K (match match_step (hd matches_none e) (hd matches_none q) (match q with [] => true | _ => false end) m with
                MRet _ _ => ms_any m | MGo _ _ m' => ms_any m' end) \/ q <> sq).
    { intros e q. assert (Dq : q = sq \/ q <> sq) by (destruct (list_eq_dec event_dec q sq); auto).
      destruct Dq as [->|]; [left|auto].
      destruct (match_step _ _ _ m) as [|ae as_ m'] eqn:E; [exact Hm|].
      destruct (step_any_from _ _ _ _ _ _ _ E) as [->|[-> D]]; [exact Hm|].
      apply Forall_app. split; [exact Hm|]. constructor; [|constructor].
      destruct sq; [discriminate D|]. inversion_clear Hs. assumption. }
    assert (Ht : forall b, Forall (fun e => K (ek e)) (tl_if b sq)).
    { intros []; [|exact Hs]. destruct sq; [constructor|inversion_clear Hs; assumption]. }
    cbn [match_loop] in H. destruct ex as [|e ex], sq as [|x sq]; [injection H as _ <- _; exact Hm|..];
    match type of H with
    | context [match_step (hd _ ?E) (hd _ ?Q) _ _] => destruct (G E Q) as [G'|G']; [|contradiction]
    end;
    (destruct (match_step _ _ _ m) as [r' t'|ae as_ m'] eqn:Es;
     [injection H as _ <- _; exact G'|eapply IH; [|exact G'|exact H]; apply Ht]).
Qed.

Lemma match_keys_from : forall ex sq r anys t,
  Forall (fun e => K (ek e)) sq -> match_keys ex sq = Some (r, anys, t) -> Forall K anys.
Proof. intros. eapply match_loop_from; [eassumption| |eassumption]. constructor. Qed.

Lemma ok_timeout : forall e, ek e = k_timeout -> ok_out e.
Proof. intros e H. split; [rewrite H; exact K_timeout|]. auto. Qed.

Lemma on_might_match_shape : forall t sq u s,
  (forall e, t = Some e -> ek e = k_timeout) -> shp s -> shp (on_might_match t sq u s).
Proof.
  intros [te|] sq u s Ht H; [|exact H]. unfold on_might_match.
  assert (He := shp_emit te s (ok_timeout te (Ht te eq_refl)) H).
  destruct (find_last_down_event sq) as [tr|]; [|exact He].
  match goal with |- context [if ?c then _ else _] => destruct c end; [shp_same He|].
  destruct u; [|exact He]. apply shp_buf; [apply pop_back_Forall; apply He|exact He].
Qed.

Section WithContexts.
Variable cs : list context.
Hypothesis Hout : wf_outputs cs.

Lemma find_output_wf : forall act ci c idx r o,
  nth_error cs ci = Some c -> find_output cs act ci c idx = LFound r o -> Forall wf_out o.
Proof.
  intros act ci c idx r o Hc H. unfold find_output in H.
  assert (Hcs : forall i c, nth_error cs i = Some c -> Forall (Forall wf_out) (cx_outputs c) /\
                 Forall (fun m => Forall wf_out (cm_out m)) (cx_commands c)).
  { intros i c' Hi. unfold wf_outputs in Hout. rewrite Forall_forall in Hout. apply Hout.
    eapply nth_error_In; eauto. }
  destruct (0 <=? idx)%Z.
  - destruct (nth_error (cx_outputs c) (Z.to_nat idx)) as [o'|] eqn:En; [|discriminate].
    injection H as _ <-. destruct (Hcs _ _ Hc) as [H1 _]. rewrite Forall_forall in H1. apply H1.
    eapply nth_error_In; eauto.
  - induction (rev act) as [|a l IH]; [discriminate|]. cbn [find_command_output] in H.
    destruct (fallthrough_context cs a) as [f|]; [|discriminate].
    destruct (nth_error cs f) as [cf|] eqn:Ef; [|discriminate].
    destruct (find_command (cx_commands cf) idx) as [i|]; [|auto].
    destruct (nth_error (cx_commands cf) i) as [cm|] eqn:Em; [|discriminate].
    injection H as _ <-. destruct (Hcs _ _ Ef) as [_ H2]. rewrite Forall_forall in H2.
    apply H2. eapply nth_error_In; eauto.
Qed.

Definition wf_result (r : min_result) : Prop :=
  match r with RMatch _ o _ _ => Forall wf_out o | _ => True end.

Lemma ok_seq_K : forall q, Forall ok_seq q -> Forall (fun e => K (ek e)) q.
Proof. intros q H. eapply Forall_impl; [|exact H]. intros e [He _]. exact He. Qed.

Lemma match_inputs_shape : forall first sq dev u ci c l s,
  nth_error cs ci = Some c -> Forall (fun e => K (ek e)) sq -> shp s ->
  let '(s', r) := match_inputs cs first sq dev u ci c l s in
  shp s' /\ match r with Some r => wf_result r | None => True end.
Proof.
  intros first sq dev u ci c l. induction l as [|i l IH]; intros s Hc Hq H; [split; auto|].
  cbn [match_inputs].
  destruct (_ && (_ || _)); [apply IH; auto|]. destruct (_ && (_ =? _)%Z); [apply IH; auto|].
  destruct (match_keys (in_seq i) _) as [[[res anys] t]|] eqn:Em; [|split; [shp_same H|exact I]].
  set (s1 := ub_unless _ (set_any anys s)).
  assert (Hany : Forall K anys).
  { eapply match_keys_from; [|exact Em]. destruct (is_nmm_mapping _); [apply H|exact Hq]. }
  assert (H1 : shp s1).
  { unfold s1, ub_unless. destruct (in_seq i); shp_same H. }
  destruct res; [apply IH; auto| |].
  - destruct (first && _); [|apply IH; auto]. split; [|exact I].
    apply on_might_match_shape; [|exact H1]. intros e ->.
    eapply match_loop_timeout. exact Em.
  - destruct (find_output cs (s_active s1) ci c (in_out i)) as [r o| |] eqn:Ef; [|apply IH; auto|split; [shp_same H1|exact I]].
    split; [exact H1|]. cbn. eapply find_output_wf; eauto.
Qed.

Lemma match_contexts_shape : forall first sq dev u act s,
  Forall (fun e => K (ek e)) sq -> shp s ->
  let '(s', r) := match_contexts cs first sq dev u act s in shp s' /\ wf_result r.
Proof.
  intros first sq dev u. induction act as [|ci act IH]; intros s Hq H; [split; [exact H|exact I]|].
  cbn [match_contexts]. destruct (nth_error cs ci) as [c|] eqn:Ec; [|split; [shp_same H|exact I]].
  destruct (device_matches_filter c dev); [|apply IH; assumption].
  pose proof (match_inputs_shape first sq dev u ci c (cx_inputs c) s Ec Hq H) as Hm.
  destruct (match_inputs _ _ _ _ _ _ _ _ _) as [s1 [r|]]; [exact Hm|apply IH; [exact Hq|apply Hm]].
Qed.

Lemma match_input_shape : forall first sq dev u s,
  Forall (fun e => K (ek e)) sq -> shp s ->
  let '(s', r) := match_input cs first sq dev u s in shp s' /\ wf_result r.
Proof.
  intros. unfold match_input. apply match_contexts_shape; [assumption|].
  unfold ub_unless. destruct (valid_device dev); [assumption|shp_same H0].
Qed.

Lemma match_prefixes_shape : forall n dev u s,
  shp s -> let '(s', r) := match_prefixes cs n dev u s in
  shp s' /\ match r with Some (_, r) => wf_result r | None => True end.
Proof.
  intros n dev u. induction n as [|n IH]; intros s H; [split; auto|].
  cbn [match_prefixes]. destruct (Nat.ltb 1 (S n)); [|split; auto].
  destruct (negb _); [split; auto|].
  assert (Hq : Forall (fun e => K (ek e)) (firstn n (s_seq s))).
  { apply ok_seq_K. pose proof (p_seq _ H) as Hs. rewrite Forall_forall in Hs |- *.
    intros x Hx. apply Hs. rewrite <- (firstn_skipn n (s_seq s)). apply in_or_app. left. exact Hx. }
  pose proof (match_input_shape false (firstn n (s_seq s)) dev u s Hq H) as Hm.
  destruct (match_input _ _ _ _ _ _) as [s1 r]. destruct Hm as [H1 H2].
  destruct r; try (apply IH; exact H1). split; [exact H1|exact H2].
Qed.

Lemma round_shape : forall e dev s, shp s -> shp (fst (apply_round cs e dev s)).
Proof.
  intros e dev s H. unfold apply_round.
  set (u := _ && _).
  pose proof (match_input_shape true (s_seq s) dev u s (ok_seq_K _ (p_seq _ H)) H) as Hm.
  destruct (match_input cs true (s_seq s) dev u s) as [s1 res]. destruct Hm as [H1 Hb].
  destruct (is_virtual_key (ek e) && _); [apply finish_shape; exact H1|].
  assert (Hgo : forall s len res so, shp s -> wf_result res ->
    shp (fst (let '(s, res) := timeout_after_match e so res s in
        let s := not_timeout_after_match res s in
        match res with
        | RMatch _ o inp ci =>
            let t := select_trigger e inp o s in
            let s := apply_output o t (Some ci) s in
            let s := finish_sequence len s in
            ((if so then s else set_might false s), false)
        | _ =>
            let s := forward_from_sequence s in
            ((if s_might s && negb (has_non_optional (s_seq s)) then set_might false s else s),
             false)
        end))).
  { clear -K_timeout. intros s len res so H Hb.
    destruct (timeout_after_match_frame e so res s) as (Ft & _ & _ & Fb & Fa & Fr).
    assert (Ht : shp (fst (timeout_after_match e so res s)) /\ wf_result (snd (timeout_after_match e so res s))).
    { unfold same_match in Ft. destruct Ft as (_ & _ & _ & F1 & _ & _ & _ & F2 & F3 & F4 & _). destruct H.
      split; [constructor; congruence|]. destruct Fr as [->| ->]; [exact Hb|exact I]. }
    destruct (timeout_after_match e so res s) as [s1 r1]. cbn [fst snd] in Ht. destruct Ht as [H1 Hb1].
    assert (H2 : shp (not_timeout_after_match r1 s1)).
    { unfold not_timeout_after_match. destruct (s_timeout s1) as [c|]; [|exact H1].
      destruct (is_not_timeout _); [|exact H1]. destruct r1; [shp_same H1|exact H1|exact H1]. }
    cbn zeta. set (s2 := not_timeout_after_match r1 s1) in *. clearbody s2.
    assert (Hf : shp (fst ((if s_might (forward_from_sequence s2) && negb (has_non_optional (s_seq (forward_from_sequence s2)))
        then set_might false (forward_from_sequence s2) else forward_from_sequence s2), false))).
    { pose proof (forward_shape (s_seq s2) [] s2 (Forall_nil _) (p_seq _ H2) H2) as Hf.
      fold (forward_from_sequence s2) in Hf. destruct (_ && _); [shp_same Hf|exact Hf]. }
    destruct r1 as [| |r o inp ci]; try exact Hf.
    pose proof (finish_shape len _ (apply_output_shape (select_trigger e inp o s2) (Some ci) o s2 Hb1 H2)) as Ha.
    destruct so; [exact Ha|]. cbn [fst]. shp_same Ha. }
  destruct res as [|inp ci|r o inp ci].
  - cbn [negb]. destruct (s_might s1); cbn [andb].
    + pose proof (match_prefixes_shape (length (s_seq s)) dev u s1 H1) as Hp.
      destruct (match_prefixes cs (length (s_seq s)) dev u s1) as [s2 [[len r]|]]; destruct Hp as [Hp1 Hp2]; [apply (Hgo s2 len r true Hp1 Hp2)|apply (Hgo s2 _ RNo false Hp1 I)].
    + apply (Hgo s1 _ RNo false H1 I).
  - cbn [fst]. shp_same H1.
  - cbn [negb andb]. apply (Hgo s1 _ (RMatch r o inp ci) false H1 Hb).
Qed.

Lemma loop_shape : forall fuel e dev s, shp s -> shp (apply_loop cs fuel e dev s).
Proof.
  induction fuel as [|f IH]; intros e dev s H; cbn [apply_loop];
    (destruct (has_non_optional (s_seq s)); [|exact H]); [shp_same H|].
  pose proof (round_shape e dev s H) as H1. destruct (apply_round cs e dev s) as [s1 b].
  destruct b; [exact H1|apply IH; exact H1].
Qed.

Lemma on_context_shape : forall e ci s, shp s -> shp (on_context_active_event cs e ci s).
Proof.
  intros e ci s H. unfold on_context_active_event.
  destruct (nth_error cs ci) as [c|] eqn:Ec; [|shp_same H].
  set (s1 := ub_unless _ s). assert (H1 : shp s1) by (unfold s1, ub_unless; destruct (forallb _ _); [exact H|shp_same H]).
  clearbody s1. destruct (find _ (cx_inputs c)) as [i|]; [|exact H1].
  assert (Hr : shp (let '(s0, _) := continue_output_on_release e (Some ci) s1 in
                     release_triggered (ek e) (Some ci) s0)).
  { pose proof (continue_shape e (Some ci) s1 H1) as Hc.
    destruct (continue_output_on_release e (Some ci) s1) as [s2 b]. apply release_shape. exact Hc. }
  destruct (es e); try exact Hr.
  destruct (find_output cs (s_active s1) ci c (in_out i)) as [r o| |] eqn:Ef; [|exact H1|shp_same H1].
  apply apply_output_shape; [|exact H1]. eapply find_output_wf; eauto.
Qed.

Lemma update_active_shape : forall s, shp s -> shp (update_active_contexts cs s).
Proof.
  intros s H. unfold update_active_contexts.
  destruct (eval_active cs (s_seq s) (s_client s) []) as [curr|]; [|shp_same H].
  assert (G : forall e l s, shp s -> shp (fold_left (fun s p => on_context_active_event cs e p s) l s)).
  { intros e. induction l as [|x l IH]; intros s' Hs; [exact Hs|]. cbn [fold_left].
    apply IH. apply on_context_shape. exact Hs. }
  apply G. apply G. shp_same H.
Qed.

Lemma clean_up_shape : forall fuel s, shp s -> shp (clean_up_history cs fuel s).
Proof.
  induction fuel as [|f IH]; intros s H; cbn [clean_up_history];
    (destruct (s_hist s) as [|x h] eqn:Eh; [exact H|]); [shp_same H|].
  destruct (negb _); [exact H|]. destruct (history_might_match cs s); [exact H|].
  destruct (remove_first_ev _ _) as [h'|] eqn:Er; [apply IH|shp_same H].
  assert (Hh := p_hist _ H). rewrite Eh in Hh. inversion_clear Hh.
  shp_same H. eapply remove_first_ev_incl; eauto.
Qed.

Lemma process_shape : forall e dev s, ok_seq e -> shp s -> shp (process_input cs e dev s).
Proof.
  intros e dev s He H. unfold process_input. cbn zeta.
  set (s0 := set_seq _ s).
  assert (H0 : shp s0).
  { apply shp_seq; [|exact H]. apply Forall_app. split; [apply H|constructor; [exact He|constructor]]. }
  clearbody s0. set (s1 := add_to_history cs e s0).
  assert (H1 : shp s1).
  { unfold s1, add_to_history. destruct (_ && _ && _); [|exact H0].
    assert (Hh : shp (set_hist (s_hist s0 ++ [e]) s0)).
    { shp_same H0. apply Forall_app. split; [assumption|constructor; [apply He|constructor]]. }
    destruct (es e); match goal with |- context [if ?c then _ else _] => destruct c end; first [exact H0|exact Hh]. }
  clearbody s1. assert (H2 := update_active_shape s1 H1).
  set (s2 := update_active_contexts cs s1) in *. clearbody s2.
  assert (H3 : shp (prepare_up e s2)).
  { unfold prepare_up. destruct (kstate_eqb (es e) Up); [|exact H2].
    cbn zeta. set (s3 := match s_timeout s2 with Some _ => _ | None => _ end).
    assert (H3 : shp s3).
    { unfold s3. destruct (s_timeout s2) as [c|]; [destruct (ct_output c)|]; try exact H2.
      apply shp_seq; [|exact H2]. rewrite Forall_map. eapply Forall_impl; [|apply (p_seq _ H2)].
      intros x [Hx1 Hx2]. destruct (kstate_eqb (es x) Down); split; cbn; auto. discriminate. }
    clearbody s3. destruct (s_might s3); [exact H3|].
    destruct (find_key (s_seq s3) (ek e)) as [i|]; [|shp_same H3].
    destruct (nth_error (s_seq s3) i) as [x|]; [|exact H3].
    destruct (kstate_eqb (es x) DownMatched); [|exact H3].
    apply shp_seq; [apply Forall_remove_at; apply H3|exact H3]. }
  set (s3 := prepare_up e s2) in *. clearbody s3.
  assert (H4 : shp (unsuppress s3)).
  { apply shp_down; [|exact H3]. rewrite Forall_map. cbn. apply H3. }
  set (s4 := unsuppress s3) in *. clearbody s4.
  assert (H5 := loop_shape (weight (s_seq s4)) e dev s4 H4).
  set (s5 := apply_loop cs _ e dev s4) in *. clearbody s5.
  unfold finish_input. cbn zeta.
  assert (H6 : shp (if kstate_eqb (es e) Up then release_triggered (ek e) None s5 else s5)).
  { destruct (kstate_eqb (es e) Up); [apply release_shape|]; exact H5. }
  set (s6 := if kstate_eqb (es e) Up then _ else _) in *. clearbody s6.
  assert (H7 := update_active_shape s6 H6).
  set (s7 := update_active_contexts cs s6) in *. clearbody s7.
  apply clean_up_shape.
  assert (H8 : shp (set_seq (drop_up_matched (s_seq s7)) s7)).
  { apply shp_seq; [apply drop_up_matched_Forall; apply H7|exact H7]. }
  set (s8 := set_seq _ s7) in *. clearbody s8.
  destruct (s_seq s8) eqn:E8; [|shp_same H8]. shp_same H8.
Qed.

Lemma apply_input_shape : forall e dev s, ok_seq e -> shp s -> shp (apply_input cs e dev s).
Proof.
  intros e dev s He H. unfold apply_input.
  pose proof (continue_shape e None s H) as H1.
  destruct (continue_output_on_release e None s) as [s1 go1]. cbn [fst] in H1.
  destruct (negb go1); [exact H1|].
  assert (H2 : shp (fst (suppress_not_timeout e s1))).
  { unfold suppress_not_timeout. destruct (s_timeout s1) as [c|]; [|exact H1].
    repeat match goal with |- context [if ?c then _ else _] => destruct c end; cbn [fst]; first [exact H1|shp_same H1]. }
  destruct (suppress_not_timeout e s1) as [s2 go2]. cbn [fst] in H2.
  destruct (negb go2); [exact H2|].
  pose proof (merge_repeat_frame e dev s2) as Hm. cbn zeta in Hm.
  assert (H3 : shp (fst (merge_repeat e dev s2))).
  { destruct Hm as (_ & _ & _ & _ & M1 & M2 & M3 & _ & M4 & _ & M5 & _ & _ & M6). destruct H2.
    constructor; rewrite ?M1, ?M2, ?M3, ?M4, ?M5; try assumption.
    destruct M6 as [->|[i ->]]; [assumption|]. apply Forall_remove_at; assumption. }
  destruct (merge_repeat e dev s2) as [s3 go3]. cbn [fst] in H3.
  destruct (negb go3); [exact H3|]. apply process_shape; [exact He|exact H3].
Qed.

(** One event: the state keeps its shape and the output has the expected one. *)
Theorem update_shape : forall e dev s, ok_seq e -> shp s ->
  shp (fst (update cs e dev s)) /\ Forall ok_out (snd (update cs e dev s)).
Proof.
  intros e dev s He H. unfold update. cbn zeta. cbn [fst snd].
  assert (H0 : shp (set_exit (advance_exit e (s_exit s)) s)) by (shp_same H).
  pose proof (apply_input_shape e dev _ He H0) as H1.
  split; [apply shp_buf; [constructor|exact H1]|apply H1].
Qed.

Theorem set_contexts_shape : forall l s, shp s ->
  shp (fst (set_active_client_contexts cs l s)) /\ Forall ok_out (snd (set_active_client_contexts cs l s)).
Proof.
  intros l s H. unfold set_active_client_contexts. cbn zeta. cbn [fst snd].
  assert (H0 : shp (set_client l s)) by (shp_same H).
  pose proof (update_active_shape _ H0) as H1. set (s1 := update_active_contexts _ _) in *. clearbody s1.
  assert (H2 : shp (cancel_inactive_output_on_release cs s1)).
  { unfold cancel_inactive_output_on_release. shp_same H1. apply Forall_filter. assumption. }
  split; [apply shp_buf; [constructor|exact H2]|apply H2].
Qed.

Theorem validate_shape : forall f s, shp s -> shp (validate_state f s).
Proof.
  intros f s H. unfold validate_state. cbn zeta. shp_same H; apply Forall_filter; assumption.
Qed.

Theorem init_shape : shp init_state.
Proof. constructor; constructor. Qed.

End WithContexts.
End Shape.
