(** Translating input in the server: termination and what is fed to the stages (C31),
    timeouts (C29) and next key requests (C30). *)
From Coq Require Import List Arith NArith ZArith Bool Lia SpecFloat.
From Verif Require Import Base Key Match Stage StageSpec MultiStage
  Server ServerLoop ServerSpec ServerProofs ServerQueue ServerFlush ServerVirtual ServerLift.
Import ListNotations.
Local Open Scope N_scope.

Section Input.
Variable clock : nat -> Z.
Variable send_ok : nat -> bool.

(** * The recursion is never too short *)

Lemma feed_fields : forall e dev s, sv_oof (feed clock e dev s) = sv_oof s /\ sv_last (feed clock e dev s) = sv_last s /\
  sv_next (feed clock e dev s) = sv_next s.
Proof.
  assert (G : forall l s, sv_oof (send_key_sequence l s) = sv_oof s /\ sv_last (send_key_sequence l s) = sv_last s /\
    sv_next (send_key_sequence l s) = sv_next s).
  { induction l as [|e l IH]; intros s; [repeat split|]. unfold send_key_sequence in *. cbn [fold_left].
    destruct (IH (push e s)) as (A & B & C). rewrite A, B, C. repeat split. }
  intros e dev s. unfold feed. destruct (m_update e dev (sv_stage s)) as [m out].
  destruct (back out) as [r|]; [destruct (ek r =? k_timeout)|];
    match goal with |- context[send_key_sequence ?l ?x] => destruct (G l x) as (A & B & C) end;
    cbn [put_stage sv_oof sv_last sv_next]; rewrite A, B, C; repeat split.
Qed.

Definition oof_keep (s s' : server) : Prop := sv_oof s' = sv_oof s.

Lemma oof_core : forall reset, (forall s, oof_keep s (reset s)) -> forall e dev s,
  oof_keep s (fst (translate_core clock reset e dev s)).
Proof.
  intros reset Hr e dev s. rewrite core_cases. set (s0 := if _ =? _ then s else _).
  assert (H0 : sv_oof s0 = sv_oof s) by (unfold s0; destruct (_ =? _); reflexivity).
  unfold oof_keep in *. destruct (m_should_exit _); cbn [fst].
  - cbn [log sv_oof]. rewrite Hr. exact H0.
  - destruct (feed_fields e dev s0) as (-> & _). exact H0.
Qed.

(** A timeout without a pending one, an event which is no wheel step, any event. *)
Lemma oof_translate : forall reset, (forall s, oof_keep s (reset s)) -> forall fuel e dev s,
  (ek e = k_timeout /\ sv_start s = None /\ (1 <= fuel)%nat) \/
  (is_mouse_wheel (ek e) && kstate_eqb (es e) Up = false /\ (2 <= fuel)%nat) \/ (3 <= fuel)%nat ->
  oof_keep s (fst (translate_with clock reset fuel e dev s)).
Proof.
  intros reset Hr. induction fuel as [|fuel IH]; intros e dev s H; [lia|]. cbn [translate_with].
  destruct (event_eqb e (sv_last s) && _); [reflexivity|].
  destruct (sv_next s && _ && _ && _); [reflexivity|].
  match goal with |- oof_keep _ (fst (translate_core _ _ _ _ ?x)) => set (s2 := x) end.
  assert (H2 : oof_keep s s2).
  { unfold s2. clear s2. set (s1 := match sv_start s with Some _ => _ | None => _ end).
    assert (H1 : oof_keep s s1).
    { unfold s1. destruct (sv_start s) as [t|] eqn:Es; [|reflexivity].
      destruct (kstate_eqb (es e) Down || sv_on_up s); [|reflexivity].
      unfold oof_keep. rewrite IH; [reflexivity|]. left. split; [reflexivity|]. split; [reflexivity|].
      destruct H as [(_ & H & _)|[H|H]]; [discriminate|lia|lia]. }
    destruct (is_mouse_wheel (ek e) && kstate_eqb (es e) Up) eqn:Ew; [|exact H1].
    unfold oof_keep in *. rewrite IH; [exact H1|]. right. left. cbn [es]. split; [apply andb_false_r|].
    destruct H as [(H & _)|[(H & _)|H]]; [rewrite H in Ew; discriminate|discriminate|lia]. }
  unfold oof_keep in *. rewrite oof_core by exact Hr. exact H2.
Qed.

Lemma oof_pushes : forall l s, sv_oof (send_key_sequence l s) = sv_oof s.
Proof.
  induction l as [|e l IH]; intros s; [reflexivity|]. unfold send_key_sequence in *. cbn [fold_left]. rewrite IH. reflexivity.
Qed.
Lemma oof_lifts : lifts clock oof_keep (fun _ _ => True) (fun _ => True) (fun _ => True) (fun _ => True) True.
Proof.
  constructor; try (intros; reflexivity); try (intros; exact I); unfold oof_keep.
  - intros. congruence.
  - intros. apply oof_translate; [assumption|]. right. right. apply le_n.
  - intros reset Hr s _. rewrite (oof_translate reset Hr); [reflexivity|]. right. right. apply le_n.
  - intros s. apply oof_pushes.
  - intros v s. unfold schedule_flush. destruct (sv_flush s); reflexivity.
  - intros l m out s _. cbn [put_stage sv_oof]. apply oof_pushes.
  - intros l s _. apply oof_pushes.
Qed.
Theorem run_complete : forall l s, sv_oof (server_run clock send_ok l s) = sv_oof s.
Proof.
  intros l s. apply (li_run clock send_ok _ _ _ _ _ _ oof_lifts). apply Forall_forall.
  intros [e dev| | |ds|[[m|]|l'|k st|f| |l'|l']| ] _; cbn; auto. apply Forall_forall. auto.
Qed.

(** * What is fed *)

Lemma fed_app : forall a b, fed (a ++ b) = fed b ++ fed a.
Proof. intros. unfold fed. rewrite rev_app_distr. apply flat_map_app. Qed.
Lemma fed_queue : forall l, fed (rev (map EQueue l)) = [].
Proof. intros l. unfold fed. rewrite rev_involutive. induction l; [reflexivity|assumption]. Qed.
Lemma fed_feed : forall e dev s, fed (sv_trace (feed clock e dev s)) = fed (sv_trace s) ++ [e].
Proof.
  intros e dev s. destruct (m_update e dev (sv_stage s)) as [m out] eqn:E.
  destruct (feed_spec clock _ _ _ _ _ E) as (_ & _ & _ & _ & Et & _). rewrite Et.
  rewrite fed_app, fed_queue, app_nil_r, fed_app.
  replace (fed (request out)) with (@nil event); [rewrite app_nil_r; apply (fed_app [EFeed e dev])|].
  unfold request. destruct (back out) as [r|]; [destruct (_ =? _)|]; reflexivity.
Qed.

(** The last key is never a timeout. *)
Definition last_ok (s : server) : Prop := ek (sv_last s) <> k_timeout.

(** The timeout which a key ends early. *)
Definition ended (e : event) (s : server) : sequence :=
  match sv_start s with
  | Some t => if kstate_eqb (es e) Down || sv_on_up s then [elapsed_event (clock (sv_ticks s) - t)] else []
  | None => []
  end.

Lemma event_eqb_key : forall a b, event_eqb a b = true -> ek a = ek b.
Proof.
  intros a b H. unfold event_eqb in H. apply andb_prop in H as [H _]. apply andb_prop in H as [H _]. apply N.eqb_eq. exact H.
Qed.
Lemma repeated_timeout : forall e s, last_ok s -> ek e = k_timeout -> repeated e s = false.
Proof.
  intros e s Hl He. unfold repeated. destruct (event_eqb e (sv_last s)) eqn:E; [|reflexivity].
  exfalso. apply Hl. rewrite <- (event_eqb_key _ _ E). exact He.
Qed.

(** Translating without exit. *)
Lemma core_fed : forall reset, (forall s, grows s (reset s)) -> forall e dev s,
  exits s (fst (translate_core clock reset e dev s)) \/
  (calm s (fst (translate_core clock reset e dev s)) /\
   fed (sv_trace (fst (translate_core clock reset e dev s))) = fed (sv_trace s) ++ [e] /\
   sv_last (fst (translate_core clock reset e dev s)) = (if ek e =? k_timeout then sv_last s else e)).
Proof.
  intros reset Hr e dev s.
  pose proof (core_either clock reset e dev s Hr) as [H|H]; [|left; exact H].
  rewrite core_cases in *. set (s0 := if ek e =? k_timeout then s else put_last e s) in *.
  assert (H0 : sv_trace s0 = sv_trace s /\ sv_last s0 = if ek e =? k_timeout then sv_last s else e).
  { unfold s0. destruct (_ =? _); split; reflexivity. }
  destruct (m_should_exit _); cbn [fst] in *.
  - exfalso. destruct (q_trace _ _ H) as (new & E & F).
    pose proof (Hr (put_stage (fst (m_update e dev (sv_stage s0))) (log (EFeed e dev) s0))) as [n2 E2].
    cbn [log sv_trace put_stage] in E, E2. rewrite E2 in E. destruct H0 as [H0 _]. rewrite H0 in E.
    destruct new as [|x new]; [apply (f_equal (@length _)) in E; cbn in E; rewrite app_length in E; cbn in E; lia|].
    injection E as <- _. inversion_clear F. contradiction.
  - right. split; [exact H|]. rewrite fed_feed. destruct H0 as [-> H0]. split; [reflexivity|].
    destruct (feed_fields e dev s0) as (_ & -> & _). exact H0.
Qed.

(** ** A timeout event with nothing pending *)
Lemma translate_timeout : forall reset, (forall s, grows s (reset s)) -> forall fuel e dev s,
  (1 <= fuel)%nat -> ek e = k_timeout -> es e = Up -> sv_start s = None -> last_ok s ->
  exits s (fst (translate_with clock reset fuel e dev s)) \/
  (calm s (fst (translate_with clock reset fuel e dev s)) /\
   fed (sv_trace (fst (translate_with clock reset fuel e dev s))) = fed (sv_trace s) ++ [e] /\
   sv_last (fst (translate_with clock reset fuel e dev s)) = sv_last s).
Proof.
  intros reset Hr [|fuel] e dev s Hf Hk Hu Hs Hl; [lia|]. cbn [translate_with].
  pose proof (repeated_timeout e s Hl Hk) as Hrep. unfold repeated, pending in Hrep. rewrite Hrep.
  rewrite Hu, Hs. cbn [kstate_eqb]. rewrite !andb_false_r, andb_true_r, Hk.
  change (is_mouse_wheel k_timeout) with false. cbv iota.
  destruct (core_fed reset Hr e dev s) as [H|(H1 & H2 & H3)]; [left; exact H|right].
  rewrite Hk in H3. auto.
Qed.

Lemma timeout_event : forall v, ek (make_input_timeout_event v) = k_timeout /\ es (make_input_timeout_event v) = Up.
Proof. intros. split; reflexivity. Qed.

(** ** An event which is no wheel step *)
Lemma translate_plain : forall reset, (forall s, grows s (reset s)) -> forall fuel e dev s,
  (2 <= fuel)%nat -> is_mouse_wheel (ek e) && kstate_eqb (es e) Up = false -> last_ok s ->
  let s' := fst (translate_with clock reset fuel e dev s) in
  exits s s' \/
  (calm s s' /\
   fed (sv_trace s') = fed (sv_trace s) ++ (if repeated e s || asked e s then [] else ended e s ++ [e]) /\
   sv_last s' = (if repeated e s || asked e s then sv_last s else if ek e =? k_timeout then sv_last s else e)).
Proof.
  intros reset Hr fuel e dev s Hf Hw Hl. cbn zeta. destruct fuel as [|fuel]; [lia|]. cbn [translate_with].
  fold (pending s). fold (repeated e s).
  destruct (repeated e s) eqn:Erep.
  { cbn [orb fst]. right. split; [apply calm_refl|]. rewrite app_nil_r. split; reflexivity. }
  fold (asked e s). destruct (asked e s).
  { cbn [orb fst]. right. split; [|split; [|reflexivity]].
    - constructor; try reflexivity; [eexists [_]; split; [reflexivity|repeat constructor]|]. exists []. rewrite app_nil_r. reflexivity.
    - cbn [put_next log sv_trace]. unfold fed. cbn [rev]. rewrite flat_map_app. reflexivity. }
  cbn [orb]. rewrite Hw.
  set (s1 := match sv_start s with Some _ => _ | None => _ end).
  assert (H1 : exits s s1 \/ (calm s s1 /\ fed (sv_trace s1) = fed (sv_trace s) ++ ended e s /\ sv_last s1 = sv_last s)).
  { unfold s1, ended. destruct (sv_start s) as [t|]; [|right; split; [apply calm_refl|]; rewrite app_nil_r; auto].
    destruct (kstate_eqb (es e) Down || sv_on_up s); [|right; split; [apply calm_refl|]; rewrite app_nil_r; auto].
    set (sc := cancel_timeout (tick s)).
    assert (Hc : calm s sc).
    { constructor; try reflexivity; [exists [ECancel]; split; [reflexivity|repeat constructor]|]. exists []. rewrite app_nil_r. reflexivity. }
    destruct (translate_timeout reset Hr fuel (elapsed_event (clock (sv_ticks s) - t)) dev sc) as [H|(A & B & C)];
      try reflexivity; [lia|exact Hl| |].
    - left. eapply exits_after; [apply calm_grows; exact Hc|exact H].
    - right. split; [eapply calm_trans; eassumption|]. split; [|exact C]. rewrite B.
      f_equal. unfold sc, cancel_timeout, log, tick, put_start, fed. cbn [sv_trace rev]. rewrite flat_map_app, app_nil_r. reflexivity. }
  destruct (core_fed reset Hr e dev s1) as [H|(A & B & C)].
  - left. eapply exits_after; [|exact H]. destruct H1 as [H1|[H1 _]]; [apply exits_grows|apply calm_grows]; exact H1.
  - destruct H1 as [H1|(A1 & B1 & C1)]; [left; eapply exits_before; [exact H1|apply calm_grows; exact A]|].
    right. split; [eapply calm_trans; eassumption|]. rewrite B, B1, app_assoc, C, C1. split; reflexivity.
Qed.

(** ** Any event *)
Lemma plain_last_ok : forall reset, (forall s, grows s (reset s)) -> forall fuel e dev s,
  (2 <= fuel)%nat -> is_mouse_wheel (ek e) && kstate_eqb (es e) Up = false -> last_ok s ->
  let s' := fst (translate_with clock reset fuel e dev s) in exits s s' \/ last_ok s'.
Proof.
  intros reset Hr fuel e dev s Hf Hw Hl. cbn zeta.
  destruct (translate_plain reset Hr fuel e dev s Hf Hw Hl) as [H|(_ & _ & H)]; [left; exact H|right].
  unfold last_ok. rewrite H. destruct (_ || _); [exact Hl|]. destruct (ek e =? k_timeout) eqn:E; [exact Hl|].
  apply N.eqb_neq. exact E.
Qed.

Lemma wheel_no_timeout : forall k, is_mouse_wheel k = true -> k <> k_timeout.
Proof. intros k H E. rewrite E in H. discriminate. Qed.

(** What may be fed for a press: nothing, itself, or a timeout and itself. *)
Definition preceded (e : event) (F : sequence) : Prop :=
  F = [] \/ F = [e] \/ exists t, ek t = k_timeout /\ F = [t; e].

Lemma preceded_ended : forall e s, preceded e (ended e s ++ [e]).
Proof.
  intros e s. unfold ended. destruct (sv_start s) as [t|]; [|right; left; reflexivity].
  destruct (kstate_eqb (es e) Down || sv_on_up s); [|right; left; reflexivity].
  right. right. eexists. split; [|reflexivity]. reflexivity.
Qed.

Lemma translate_fed_depth : forall reset, (forall s, grows s (reset s)) -> forall fuel, (2 <= fuel)%nat -> forall e dev s, last_ok s ->
  let s' := fst (translate_with clock reset (S fuel) e dev s) in
  exits s s' \/
  (calm s s' /\ last_ok s' /\
   exists P, (is_mouse_wheel (ek e) && kstate_eqb (es e) Up = false -> P = []) /\
             preceded (Ev (ek e) Down (ev e)) P /\
   fed (sv_trace s') = fed (sv_trace s) ++ (if repeated e s || asked e s then [] else ended e s ++ P ++ [e])).
Proof.
  intros reset Hr fuel Hf e dev s Hl. cbn zeta.
  destruct (is_mouse_wheel (ek e) && kstate_eqb (es e) Up) eqn:Hw.
  2:{ destruct (translate_plain reset Hr (S fuel) e dev s ltac:(lia) Hw Hl) as [H|(A & B & _)]; [left; exact H|].
      destruct (plain_last_ok reset Hr (S fuel) e dev s ltac:(lia) Hw Hl) as [H|C]; [left; exact H|].
      right. split; [exact A|]. split; [exact C|]. exists []. split; [reflexivity|]. split; [left; reflexivity|exact B]. }
  apply andb_prop in Hw as [Hwk Hwu].
  assert (Eu : es e = Up) by (destruct (es e); try discriminate; reflexivity).
  cbn [translate_with]. fold (pending s). fold (repeated e s).
  destruct (repeated e s) eqn:Erep.
  { cbn [orb fst]. right. split; [apply calm_refl|]. split; [exact Hl|]. exists []. split; [reflexivity|].
    split; [left; reflexivity|]. rewrite app_nil_r. reflexivity. }
  fold (asked e s). assert (Ea : asked e s = false) by (unfold asked; rewrite Eu; apply andb_false_r). rewrite Ea.
  cbn [orb]. rewrite Hwk, Hwu. cbn [andb].
  set (s1 := match sv_start s with Some _ => _ | None => _ end).
  assert (H1 : exits s s1 \/ (calm s s1 /\ fed (sv_trace s1) = fed (sv_trace s) ++ ended e s /\ last_ok s1)).
  { unfold s1, ended. destruct (sv_start s) as [t|]; [|right; split; [apply calm_refl|]; rewrite app_nil_r; auto].
    destruct (kstate_eqb (es e) Down || sv_on_up s); [|right; split; [apply calm_refl|]; rewrite app_nil_r; auto].
    set (sc := cancel_timeout (tick s)).
    assert (Hc : calm s sc).
    { constructor; try reflexivity; [exists [ECancel]; split; [reflexivity|repeat constructor]|]. exists []. rewrite app_nil_r. reflexivity. }
    destruct (translate_timeout reset Hr fuel (elapsed_event (clock (sv_ticks s) - t)) dev sc) as [H|(A & B & C)];
      try reflexivity; [lia|exact Hl| |].
    - left. eapply exits_after; [apply calm_grows; exact Hc|exact H].
    - right. split; [eapply calm_trans; eassumption|]. split; [|unfold last_ok; rewrite C; exact Hl]. rewrite B.
      f_equal. unfold sc, cancel_timeout, log, tick, put_start, fed. cbn [sv_trace rev]. rewrite flat_map_app, app_nil_r. reflexivity. }
  set (s2 := fst (translate_with clock reset fuel (Ev (ek e) Down (ev e)) dev s1)).
  assert (H2 : exits s s2 \/ (calm s s2 /\ last_ok s2 /\
     exists P, preceded (Ev (ek e) Down (ev e)) P /\ fed (sv_trace s2) = fed (sv_trace s) ++ ended e s ++ P)).
  { assert (Hpl : is_mouse_wheel (ek (Ev (ek e) Down (ev e))) && kstate_eqb (es (Ev (ek e) Down (ev e))) Up = false)
      by apply andb_false_r.
    assert (G : grows s1 s2) by apply (translate_either clock reset Hr).
    destruct H1 as [H1|(A1 & B1 & C1)]; [left; eapply exits_before; eassumption|].
    destruct (translate_plain reset Hr fuel (Ev (ek e) Down (ev e)) dev s1 ltac:(lia) Hpl C1) as [H|(A & B & C)].
    { left. eapply exits_after; [apply calm_grows; exact A1|exact H]. }
    destruct (plain_last_ok reset Hr fuel (Ev (ek e) Down (ev e)) dev s1 ltac:(lia) Hpl C1) as [H|C'].
    { left. eapply exits_after; [apply calm_grows; exact A1|exact H]. }
    right. split; [eapply calm_trans; eassumption|]. split; [exact C'|].
    eexists. split; [|rewrite app_assoc, <- B1; exact B].
    destruct (repeated _ s1 || asked _ s1); [left; reflexivity|apply preceded_ended]. }
  clearbody s2. clear s1 H1.
  destruct (core_fed reset Hr e dev s2) as [H|(A & B & C)].
  - left. eapply exits_after; [|exact H]. destruct H2 as [H2|[H2 _]]; [apply exits_grows|apply calm_grows]; exact H2.
  - destruct H2 as [H2|(A2 & L2 & P & HP & F2)]; [left; eapply exits_before; [exact H2|apply calm_grows; exact A]|].
    right. split; [eapply calm_trans; eassumption|]. split.
    + unfold last_ok. rewrite C. destruct (ek e =? k_timeout) eqn:E; [exact L2|]. apply N.eqb_neq. exact E.
    + exists P. split; [discriminate|]. split; [exact HP|]. rewrite B, F2. rewrite <- !app_assoc. reflexivity.
Qed.
Theorem translate_fed : forall reset, (forall s, grows s (reset s)) -> forall e dev s, last_ok s ->
  let s' := fst (translate_with clock reset translate_depth e dev s) in
  exits s s' \/
  (calm s s' /\ last_ok s' /\
   exists P, (is_mouse_wheel (ek e) && kstate_eqb (es e) Up = false -> P = []) /\
             preceded (Ev (ek e) Down (ev e)) P /\
   fed (sv_trace s') = fed (sv_trace s) ++ (if repeated e s || asked e s then [] else ended e s ++ P ++ [e])).
Proof. intros reset Hr. exact (translate_fed_depth reset Hr 2 (le_n 2)). Qed.

(** The last event is never a timeout. *)
Lemma core_last : forall reset, (forall s, last_ok s -> last_ok (reset s)) -> forall e dev s, last_ok s ->
  last_ok (fst (translate_core clock reset e dev s)).
Proof.
  intros reset Hr e dev s Hl. rewrite core_cases. set (s0 := if _ =? _ then s else _).
  assert (H0 : last_ok s0).
  { unfold s0, last_ok. destruct (ek e =? k_timeout) eqn:E; [exact Hl|]. apply N.eqb_neq. exact E. }
  destruct (m_should_exit _); cbn [fst].
  - apply (Hr (put_stage _ (log _ s0))). exact H0.
  - unfold last_ok. rewrite (proj1 (proj2 (feed_fields e dev s0))). exact H0.
Qed.
Lemma translate_last : forall reset, (forall s, last_ok s -> last_ok (reset s)) -> forall fuel e dev s, last_ok s ->
  last_ok (fst (translate_with clock reset fuel e dev s)).
Proof.
  intros reset Hr. induction fuel as [|fuel IH]; intros e dev s Hl; cbn [translate_with fst]; [exact Hl|].
  destruct (event_eqb e (sv_last s) && _); [exact Hl|]. destruct (sv_next s && _ && _ && _); [exact Hl|].
  apply core_last; [exact Hr|]. set (s1 := match sv_start s with Some _ => _ | None => _ end).
  assert (H1 : last_ok s1).
  { unfold s1. destruct (sv_start s); [|exact Hl]. destruct (_ || _); [|exact Hl]. apply IH. exact Hl. }
  destruct (is_mouse_wheel (ek e) && _); [apply IH|]; exact H1.
Qed.
Lemma pushes_last : forall l s, sv_last (send_key_sequence l s) = sv_last s.
Proof.
  induction l as [|e l IH]; intros s; [reflexivity|]. unfold send_key_sequence in *. cbn [fold_left]. rewrite IH. reflexivity.
Qed.
Lemma last_lifts : lifts clock (fun s s' => last_ok s -> last_ok s') (fun _ _ => True) (fun _ => True) (fun _ => True) (fun _ => True) True.
Proof.
  constructor; try (intros; exact I); try (intros; assumption); try (intros; auto; fail).
  - intros reset Hr e dev s _. apply translate_last. exact Hr.
  - intros reset Hr s _ Hl. apply translate_last; [exact Hr|exact Hl].
  - intros s Hl. unfold last_ok, release_all_keys. rewrite pushes_last. exact Hl.
  - intros v s Hl. unfold schedule_flush. destruct (sv_flush s); exact Hl.
  - intros l m out s _ Hl. unfold last_ok. cbn [put_stage sv_last]. rewrite pushes_last. exact Hl.
  - intros l s _ Hl. unfold last_ok. rewrite pushes_last. exact Hl.
Qed.
Theorem run_last : forall l s, last_ok s -> last_ok (server_run clock send_ok l s).
Proof.
  intros l s. apply (li_run clock send_ok _ _ _ _ _ _ last_lifts). apply Forall_forall.
  intros [e dev| | |ds|[[m|]|l'|k st|f| |l'|l']| ] _; cbn; auto. apply Forall_forall. auto.
Qed.

(** * One timeout event per request *)

(** Nothing but the feeding of a timeout event and the request of one matters. *)
Definition plain (x : effect) : bool :=
  match x with EFeed e _ => negb (ek e =? k_timeout) | ETimeout _ _ => false | _ => true end.
Lemma plain_cons : forall x tr, plain x = true ->
  requested (x :: tr) = requested tr /\ (timeouts_answer tr -> timeouts_answer (x :: tr)).
Proof.
  intros x tr H. destruct x; cbn in *; try discriminate; auto. destruct (ek e =? k_timeout) eqn:E; [discriminate|].
  split; [reflexivity|]. intros Ht. split; [|exact Ht]. intros Hk. apply N.eqb_neq in E. contradiction.
Qed.
Lemma plain_app : forall l tr, forallb plain l = true ->
  requested (l ++ tr) = requested tr /\ (timeouts_answer tr -> timeouts_answer (l ++ tr)).
Proof.
  induction l as [|x l IH]; intros tr H; [auto|]. cbn [forallb] in H. apply andb_prop in H as [H1 H2].
  destruct (IH tr H2) as [A B]. destruct (plain_cons x (l ++ tr) H1) as [C D]. cbn [app]. rewrite C. auto.
Qed.
Lemma plain_queue : forall l, forallb plain (rev (map EQueue l)) = true.
Proof.
  intros l. apply forallb_forall. intros x Hx. apply in_rev, in_map_iff in Hx as (e & <- & _). reflexivity.
Qed.

(** A pending timeout answers the latest request, and so does [o]. *)
Definition room (o : option event) (s : server) : Prop :=
  timeouts_answer (sv_trace s) /\
  (sv_start s <> None -> exists v, requested (sv_trace s) = Some v /\ sv_timeout s = duration_of_ms v) /\
  (forall e, o = Some e -> exists v, requested (sv_trace s) = Some v /\ fits v e).
Definition tkeep (s s' : server) : Prop := room None s -> room None s'.

Lemma room_trace : forall o l s s', forallb plain l = true -> sv_trace s' = l ++ sv_trace s ->
  (sv_start s' = sv_start s /\ sv_timeout s' = sv_timeout s \/ sv_start s' = None) -> room o s -> room o s'.
Proof.
  intros o l s s' Hl E1 E2 (A & B & C). unfold room. rewrite E1. destruct (plain_app l (sv_trace s) Hl) as [D F].
  rewrite D. split; [auto|]. split; [|exact C]. destruct E2 as [[-> ->]| ->]; [exact B|]. intros H. contradiction.
Qed.
Lemma room_same : forall o s s', sv_trace s' = sv_trace s ->
  (sv_start s' = sv_start s /\ sv_timeout s' = sv_timeout s \/ sv_start s' = None) -> room o s -> room o s'.
Proof. intros o s s' E1 E2. apply (room_trace o []); auto. Qed.
Lemma room_log : forall o x s, plain x = true -> room o s -> room o (log x s).
Proof. intros o x s Hx. apply (room_trace o [x]); [cbn; rewrite Hx; reflexivity|reflexivity|left; auto]. Qed.
Lemma start_pushes : forall l s, sv_start (send_key_sequence l s) = sv_start s /\
  sv_timeout (send_key_sequence l s) = sv_timeout s.
Proof.
  induction l as [|e l IH]; intros s; [auto|]. unfold send_key_sequence in *. cbn [fold_left].
  destruct (IH (push e s)) as [-> ->]. auto.
Qed.
Lemma room_pushes : forall o l s, room o s -> room o (send_key_sequence l s).
Proof.
  intros o l s. destruct (push_all l s) as (_ & _ & _ & _ & Et & _).
  apply (room_trace o (rev (map EQueue l))); [apply plain_queue|exact Et|left; apply start_pushes].
Qed.
Lemma room_weak : forall o s, room o s -> room None s.
Proof. intros o s (A & B & _). split; [exact A|]. split; [exact B|]. discriminate. Qed.

(** Feeding an event, which the pending timeout must not survive when it is a timeout. *)
Lemma room_fed : forall e dev m s, (ek e = k_timeout -> room (Some e) s /\ sv_start s = None) -> room None s ->
  room None (put_stage m (log (EFeed e dev) s)).
Proof.
  intros e dev m s H1 (A & B & _). unfold room. cbn [put_stage log sv_trace sv_start sv_timeout timeouts_answer requested].
  destruct (ek e =? k_timeout) eqn:E.
  - apply N.eqb_eq in E. destruct (H1 E) as [(_ & _ & C) D]. split; [split; [intros _; exact (C e eq_refl)|exact A]|].
    rewrite D. split; [contradiction|discriminate].
  - apply N.eqb_neq in E. split; [split; [contradiction|exact A]|]. split; [exact B|discriminate].
Qed.
Lemma room_request : forall v on_up s, room None s -> room None (schedule_timeout clock v on_up s).
Proof.
  intros v on_up s (A & _ & _). unfold room. cbn [schedule_timeout log tick put_start sv_trace sv_start sv_timeout timeouts_answer requested].
  split; [exact A|]. split; [|discriminate]. intros _. exists v. auto.
Qed.

Lemma room_feed : forall e dev s, (ek e = k_timeout -> room (Some e) s /\ sv_start s = None) -> room None s ->
  room None (feed clock e dev s).
Proof.
  intros e dev s H1 H0. unfold feed. destruct (m_update e dev (sv_stage s)) as [m out].
  pose proof (room_fed e dev m s H1 H0) as Hs1. set (s1 := put_stage m (log (EFeed e dev) s)) in *.
  assert (G : forall o s2, room None s2 -> room None (let s := send_key_sequence (copy_delta e o) s2 in
                                               put_stage (m_reuse_buffer (sv_stage s)) s)).
  { intros o s2 H. cbn zeta. eapply room_same; [| |apply (room_pushes None (copy_delta e o) s2 H)]; [reflexivity|left; auto]. }
  destruct (back out) as [r|]; [|apply G; exact Hs1]. destruct (ek r =? k_timeout); [|apply G; exact Hs1].
  apply G. apply room_request. exact Hs1.
Qed.

Lemma room_core : forall reset, (forall s, tkeep s (reset s)) -> forall e dev s,
  (ek e = k_timeout -> room (Some e) s /\ sv_start s = None) -> room None s ->
  room None (fst (translate_core clock reset e dev s)).
Proof.
  intros reset Hr e dev s H1 H0. rewrite core_cases. set (s0 := if _ =? _ then s else _).
  assert (E0 : forall o, room o s -> room o s0).
  { intros o H. eapply room_same; [| |exact H]; unfold s0; destruct (_ =? _); auto. }
  assert (E1 : ek e = k_timeout -> room (Some e) s0 /\ sv_start s0 = None).
  { intros H. destruct (H1 H) as [A B]. split; [auto|]. unfold s0. destruct (_ =? _); exact B. }
  destruct (m_should_exit _); cbn [fst].
  - apply room_log; [reflexivity|]. apply Hr. apply room_fed; auto.
  - apply room_feed; auto.
Qed.

Lemma room_cancel : forall s e, sv_start s <> None -> (forall v, sv_timeout s = duration_of_ms v -> fits v e) ->
  room None s -> room (Some e) (cancel_timeout s) /\ sv_start (cancel_timeout s) = None.
Proof.
  intros s e Hs He (A & B & _). split; [|reflexivity]. unfold room.
  cbn [cancel_timeout log put_start sv_trace sv_start timeouts_answer requested].
  split; [exact A|]. split; [contradiction|]. intros e' [= <-]. destruct (B Hs) as (v & C & D). exists v. auto.
Qed.

Lemma room_timeout : forall reset, (forall s, tkeep s (reset s)) -> forall fuel e dev s,
  ek e = k_timeout -> sv_start s = None -> room (Some e) s -> room None (fst (translate_with clock reset fuel e dev s)).
Proof.
  intros reset Hr [|fuel] e dev s Hk Hs H; cbn [translate_with fst].
  - exact (room_weak _ _ H).
  - destruct (event_eqb e (sv_last s) && _); [exact (room_weak _ _ H)|].
    destruct (sv_next s && _ && _ && _).
    { eapply room_same; [| |apply room_log; [|exact (room_weak _ _ H)]]; [reflexivity|left; auto|reflexivity]. }
    rewrite Hs, Hk. change (is_mouse_wheel k_timeout) with false. cbn [andb].
    apply room_core; [exact Hr|auto|exact (room_weak _ _ H)].
Qed.

Lemma room_translate : forall reset, (forall s, tkeep s (reset s)) -> forall fuel e dev s,
  ek e <> k_timeout -> room None s -> room None (fst (translate_with clock reset fuel e dev s)).
Proof.
  intros reset Hr. induction fuel as [|fuel IH]; intros e dev s Hk H; cbn [translate_with fst]; [exact H|].
  destruct (event_eqb e (sv_last s) && _); [exact H|].
  destruct (sv_next s && _ && _ && _).
  { eapply room_same; [| |apply room_log; [|exact H]]; [reflexivity|left; auto|reflexivity]. }
  apply room_core; [exact Hr|intros; contradiction|].
  set (s1 := match sv_start s with Some _ => _ | None => _ end).
  assert (H1 : room None s1).
  { unfold s1. destruct (sv_start s) as [t|] eqn:Es; [|exact H].
    destruct (_ || _); [|exact H].
    assert (Hc : room (Some (elapsed_event (clock (sv_ticks s) - t))) (cancel_timeout (tick s)) /\
                 sv_start (cancel_timeout (tick s)) = None).
    { apply room_cancel; [cbn [tick sv_start]; rewrite Es; discriminate|right; eauto|].
      eapply room_same; [| |exact H]; [reflexivity|left; auto]. }
    apply room_timeout; [exact Hr|reflexivity|apply Hc|apply Hc]. }
  destruct (is_mouse_wheel (ek e) && _); [|exact H1]. apply IH; assumption.
Qed.

Definition no_timeout_key (e : event) (dev : Z) : Prop := ek e <> k_timeout.
Lemma room_lifts : lifts clock tkeep no_timeout_key (fun _ => True) (fun _ => True) (fun _ => True) True.
Proof.
  assert (Same : forall s s', sv_trace s' = sv_trace s ->
    (sv_start s' = sv_start s /\ sv_timeout s' = sv_timeout s \/ sv_start s' = None) -> tkeep s s').
  { intros s s' E1 E2 H. eapply room_same; eassumption. }
  constructor; try (intros; exact I); try (intros; apply Same; [reflexivity|]; auto; fail).
  - intros a b c H1 H2 H. auto.
  - intros reset Hr e dev s He H. apply room_translate; assumption.
  - intros reset Hr s Hs H. destruct (room_cancel s (expired_event (sv_timeout s)) Hs) as [H1 H2].
    { intros v E. left. rewrite E. reflexivity. }
    { exact H. }
    apply room_timeout; [exact Hr|reflexivity|exact H2|exact H1].
  - intros k st Hk _ E. cbn in E. rewrite E in Hk. discriminate.
  - intros s H. apply room_pushes. exact H.
  - intros k st s H. apply room_log; [reflexivity|exact H].
  - intros n s H. apply room_log; [reflexivity|exact H].
  - intros e b s H. apply room_log; [reflexivity|]. eapply room_same; [| |exact H]; [reflexivity|left; auto].
  - intros v s H. unfold schedule_flush. destruct (sv_flush s); [exact H|]. apply room_log; [reflexivity|].
    eapply room_same; [| |exact H]; [reflexivity|left; auto].
  - intros l m out s _ H. eapply room_same; [| |apply (room_pushes None out s H)]; [reflexivity|left; auto].
  - intros l s _ H. apply room_pushes. exact H.
Qed.

Theorem timeouts_answered : forall l s, Forall from_keys l -> room None s ->
  room None (server_run clock send_ok l s).
Proof.
  intros l s Hl H. apply (li_run clock send_ok _ _ _ _ _ _ room_lifts); [|exact H].
  eapply Forall_impl; [|exact Hl].
  intros [e dev| | |ds|[[m|]|l'|k st|f| |l'|l']| ] Hx; cbn in *; auto.
  apply Forall_forall. intros e _ _ Hd E. unfold no_timeout_key in *. rewrite E in Hd. discriminate.
Qed.

(** * Requests for the next key *)


Lemma nx_push : forall b l s, send_key_sequence l (put_next b s) = put_next b (send_key_sequence l s).
Proof.
  intros b. induction l as [|e l IH]; intros s; [reflexivity|]. unfold send_key_sequence in *. cbn [fold_left].
  rewrite <- IH. reflexivity.
Qed.
Lemma nx_schedule : forall b v s, schedule_flush clock v (put_next b s) = put_next b (schedule_flush clock v s).
Proof.
  intros b v s. unfold schedule_flush. change (sv_flush (put_next b s)) with (sv_flush s).
  destruct (sv_flush s); reflexivity.
Qed.
Lemma nx_feed : forall b e dev s, feed clock e dev (put_next b s) = put_next b (feed clock e dev s).
Proof.
  intros b e dev s. unfold feed. change (sv_stage (put_next b s)) with (sv_stage s).
  destruct (m_update e dev (sv_stage s)) as [m out].
  assert (G : forall o s2, (let s := send_key_sequence (copy_delta e o) (put_next b s2) in
        put_stage (m_reuse_buffer (sv_stage s)) s) =
      put_next b (let s := send_key_sequence (copy_delta e o) s2 in put_stage (m_reuse_buffer (sv_stage s)) s)).
  { intros o s2. cbn zeta. rewrite nx_push. reflexivity. }
  destruct (back out) as [r|]; [destruct (ek r =? k_timeout)|].
  - exact (G (pop_back out) (schedule_timeout clock (ev r) (cancel_timeout_on_up (es r)) (put_stage m (log (EFeed e dev) s)))).
  - exact (G out (put_stage m (log (EFeed e dev) s))).
  - exact (G out (put_stage m (log (EFeed e dev) s))).
Qed.
Definition nx_commutes (b : bool) (f : server -> server) : Prop := forall s, f (put_next b s) = put_next b (f s).

Lemma nx_core : forall b reset, nx_commutes b reset -> forall e dev,
  nx_commutes b (fun s => fst (translate_core clock reset e dev s)).
Proof.
  intros b reset Hr e dev s. rewrite !core_cases.
  assert (E : (if ek e =? k_timeout then put_next b s else put_last e (put_next b s)) =
              put_next b (if ek e =? k_timeout then s else put_last e s)) by (destruct (_ =? _); reflexivity).
  rewrite E. set (s0 := if ek e =? k_timeout then s else put_last e s).
  change (sv_stage (put_next b s0)) with (sv_stage s0). destruct (m_should_exit _); cbn [fst].
  - change (put_stage ?m (log ?x (put_next b s0))) with (put_next b (put_stage m (log x s0))). rewrite Hr. reflexivity.
  - apply nx_feed.
Qed.

Lemma nx_translate : forall b reset, nx_commutes b reset -> forall fuel e dev,
  answers e = false -> wheel_step e = false ->
  nx_commutes b (fun s => fst (translate_with clock reset fuel e dev s)).
Proof.
  intros b reset Hr. induction fuel as [|fuel IH]; intros e dev Ha Hw s; [reflexivity|]. cbn [translate_with].
  change (sv_last (put_next b s)) with (sv_last s). change (sv_flush (put_next b s)) with (sv_flush s).
  change (sv_start (put_next b s)) with (sv_start s). change (sv_on_up (put_next b s)) with (sv_on_up s).
  change (sv_ticks (put_next b s)) with (sv_ticks s).
  destruct (event_eqb e (sv_last s) && _); [reflexivity|].
  assert (Ha' : forall n, n && is_device_key (ek e) && negb (ek e =? ButtonLeft) && kstate_eqb (es e) Down = false).
  { intros n. unfold answers in Ha. rewrite <- !andb_assoc in *. rewrite Ha. apply andb_false_r. }
  rewrite !Ha'. unfold wheel_step in Hw. rewrite Hw.
  match goal with |- fst (translate_core _ _ _ _ ?x) = put_next b (fst (translate_core _ _ _ _ ?y)) =>
    assert (E : x = put_next b y); [|rewrite E; apply (nx_core b reset Hr e dev y)] end.
  destruct (sv_start s) as [t|]; [|reflexivity]. destruct (_ || _); [|reflexivity].
  change (cancel_timeout (tick (put_next b s))) with (put_next b (cancel_timeout (tick s))).
  apply (IH (elapsed_event (clock (sv_ticks s) - t)) dev); reflexivity.
Qed.

Lemma nx_set_virtual : forall b translate k st,
  (forall st, (st = Down \/ st = Up) -> nx_commutes b (fun s => fst (translate (ev0 k st) any_device s))) ->
  nx_commutes b (set_virtual_with translate k st).
Proof.
  intros b translate k st Ht s. unfold set_virtual_with. cbn zeta.
  change (sv_virtual (put_next b s)) with (sv_virtual s).
  destruct (find_index _ _); (destruct (negb _); [|reflexivity]);
    match goal with |- context[put_virtual ?l (put_next b s)] =>
      change (put_virtual l (put_next b s)) with (put_next b (put_virtual l s)) end;
    destruct (is_virtual_key k);
    first [rewrite (Ht Down (or_introl eq_refl))|rewrite (Ht Up (or_intror eq_refl))]; reflexivity.
Qed.
Lemma nx_release : forall b, nx_commutes b release_all_keys.
Proof. intros b s. apply nx_push. Qed.
Lemma nx_reset_sending : forall b, nx_commutes b reset_while_sending.
Proof. intros b s. unfold reset_while_sending. rewrite nx_release. reflexivity. Qed.
Lemma virtual_no_answer : forall k st, is_virtual_key k = true -> answers (ev0 k st) = false /\ wheel_step (ev0 k st) = false.
Proof.
  intros k st H. unfold answers, wheel_step. cbn [ev0 ek es]. unfold is_virtual_key, in_range in H. apply andb_prop in H as [H1 H2].
  apply N.leb_le in H1. split.
  - assert (E : is_device_key k = false); [|rewrite E; reflexivity].
    assert (G : forall a c, c < first_virtual -> in_range a c k = false).
    { intros a c Hc. unfold in_range. apply andb_false_iff. right. apply N.leb_gt. eapply N.lt_le_trans; eassumption. }
    unfold is_device_key, is_keyboard_key, is_mouse_button, is_mouse_wheel. rewrite !G by reflexivity.
    assert (E : k <=? last_keyboard_key = false) by (apply N.leb_gt; eapply N.lt_le_trans; [|exact H1]; reflexivity).
    rewrite E, andb_false_r. reflexivity.
  - assert (E : is_mouse_wheel k = false); [|rewrite E; reflexivity].
    unfold is_mouse_wheel, in_range. apply andb_false_iff. right. apply N.leb_gt. eapply N.lt_le_trans; [|exact H1]. reflexivity.
Qed.
Lemma nx_toggle : forall b k, is_virtual_key k = true -> nx_commutes b (toggle_virtual_key clock k).
Proof.
  intros b k Hk. apply nx_set_virtual. intros st _.
  destruct (virtual_no_answer k st Hk) as [H1 H2]. apply nx_translate; [apply nx_reset_sending|exact H1|exact H2].
Qed.
Definition nx3 (b : bool) (x : server * nat * bool) : server * nat * bool :=
  let '(s, i, ok) := x in (put_next b s, i, ok).
Lemma nx_scan : forall b left again,
  (left <> 0%nat -> forall i s, again i (put_next b s) = nx3 b (again i s)) ->
  forall rest i s, scan clock send_ok left again rest i (put_next b s) = nx3 b (scan clock send_ok left again rest i s).
Proof.
  intros b left again Hag. induction rest as [|e r IH]; intros i s; cbn [scan]; [reflexivity|].
  destruct (is_mouse_wheel (ek e) && kstate_eqb (es e) Down); [apply IH|].
  destruct (is_action_key (ek e)).
  { destruct (kstate_eqb (es e) Down); [|apply IH].
    exact (IH (S i) (log (EAction (ek e - first_action)) s)). }
  destruct (is_virtual_key (ek e)) eqn:V.
  { destruct (kstate_eqb (es e) Down); [|apply IH]. destruct left as [|left]; [apply IH|].
    rewrite (nx_toggle b _ V). apply Hag. discriminate. }
  destruct (ek e =? k_timeout).
  { cbn [nx3]. rewrite nx_schedule. reflexivity. }
  change (sv_sends (put_next b s)) with (sv_sends s). destruct (send_ok (sv_sends s)); [|reflexivity].
  exact (IH (S i) (log (ESend e true) (count_send s))).
Qed.
Lemma nx_loop : forall b left i s, flush_loop clock send_ok left i (put_next b s) = nx3 b (flush_loop clock send_ok left i s).
Proof.
  intros b. induction left as [|left IH]; intros i s; rewrite !flush_loop_scan;
    change (sv_buf (put_next b s)) with (sv_buf s); apply nx_scan; [intros H; contradiction|].
  intros _. exact IH.
Qed.
Lemma nx_flush : forall b, nx_commutes b (fun s => fst (flush_send_buffer clock send_ok s)).
Proof.
  intros b s. unfold flush_send_buffer. change (sv_sending (put_next b s)) with (sv_sending s).
  destruct (sv_sending s); [reflexivity|].
  change (put_flush None (put_sending true (put_next b s))) with (put_next b (put_flush None (put_sending true s))).
  rewrite nx_loop. destruct (flush_loop _ _ _ _ _) as [[s' i] ok]. reflexivity.
Qed.
Lemma nx_flush_unless : forall b, nx_commutes b (flush_unless_scheduled clock send_ok).
Proof.
  intros b s. unfold flush_unless_scheduled. change (sv_flush (put_next b s)) with (sv_flush s).
  destruct (sv_flush s); [reflexivity|apply nx_flush].
Qed.
Lemma nx_contexts : forall b l, nx_commutes b (set_active_contexts clock send_ok l).
Proof.
  intros b l s. unfold set_active_contexts. change (sv_stage (put_next b s)) with (sv_stage s).
  destruct (m_set_active_client_contexts l (sv_stage s)) as [m out].
  change (put_stage m (put_next b s)) with (put_next b (put_stage m s)). rewrite nx_push.
  rewrite <- nx_flush_unless. reflexivity.
Qed.
Lemma nx_filters : forall b, nx_commutes b (evaluate_filters clock send_ok).
Proof.
  intros b s. unfold evaluate_filters. change (sv_stage (put_next b s)) with (sv_stage s).
  change (sv_devices (put_next b s)) with (sv_devices s). destruct (_ || _); [reflexivity|].
  rewrite <- nx_contexts. reflexivity.
Qed.
Lemma nx_reset : forall b m, nx_commutes b (reset_configuration clock send_ok m).
Proof.
  intros b m s. unfold reset_configuration. rewrite nx_release, (nx_flush b). rewrite <- nx_filters. reflexivity.
Qed.
Lemma nx_input : forall b e dev, answers e = false -> wheel_step e = false ->
  nx_commutes b (fun s => fst (translate_input clock send_ok e dev s)).
Proof. intros b e dev H1 H2. apply nx_translate; [apply nx_reset|exact H1|exact H2]. Qed.
Lemma nx_inject : forall b l, Forall (fun e => answers e = false /\ wheel_step e = false) l ->
  nx_commutes b (inject_input clock send_ok l).
Proof.
  intros b. induction l as [|e l IH]; intros H s; cbn [inject_input]; [reflexivity|]. inversion_clear H. destruct H0 as [H2 H3].
  rewrite <- IH by assumption. f_equal. destruct (_ && _); [|reflexivity].
  pose proof (nx_input b e no_device H2 H3 s) as Hn. cbv beta in Hn.
  pose proof (translate_true clock (reset_configuration clock send_ok None) translate_depth e no_device s) as Hb.
  pose proof (translate_true clock (reset_configuration clock send_ok None) translate_depth e no_device (put_next b s)) as Hb'.
  fold (translate_input clock send_ok e no_device s) in Hb. fold (translate_input clock send_ok e no_device (put_next b s)) in Hb'.
  destruct (translate_input clock send_ok e no_device s) as [s' b1].
  destruct (translate_input clock send_ok e no_device (put_next b s)) as [s'' b2]. cbn [fst snd] in *. subst. reflexivity.
Qed.

Theorem next_key_others : forall b l s, Forall no_answer l ->
  server_run clock send_ok l (put_next b s) = put_next b (server_run clock send_ok l s).
Proof.
  intros b. induction l as [|x l IH]; intros s H; cbn [server_run]; [reflexivity|]. inversion_clear H.
  rewrite <- IH by assumption. f_equal. clear IH H1.
  destruct x as [e dev| | |ds|[[m|]|l'|k st|f| |l'|l']| ]; cbn [server_step on_message] in *; try reflexivity.
  - destruct H0. apply (nx_input b); assumption.
  - change (sv_start (put_next b s)) with (sv_start s). destruct (sv_start s); [|reflexivity]. cbn zeta.
    change (cancel_timeout (put_next b s)) with (put_next b (cancel_timeout s)).
    apply (nx_input b); reflexivity.
  - apply (nx_flush b).
  - unfold set_device_descs. rewrite <- nx_filters. reflexivity.
  - apply nx_reset.
  - apply nx_contexts.
  - rewrite nx_set_virtual; [apply nx_flush_unless|]. intros st' _.
    destruct (virtual_no_answer k st' H0) as [H1 H2]. apply nx_input; assumption.
  - contradiction.
  - rewrite nx_inject by exact H0. apply nx_schedule.
  - rewrite nx_push. apply nx_schedule.
  - apply nx_reset.
Qed.

(** Without a request nothing is answered. *)
Definition unasked (s s' : server) : Prop :=
  sv_next s = false -> sv_next s' = false /\ answered (sv_trace s') = answered (sv_trace s).
Lemma unasked_trans : forall a b c, unasked a b -> unasked b c -> unasked a c.
Proof. intros a b c H1 H2 H. destruct (H1 H) as [A B]. destruct (H2 A) as [C D]. split; congruence. Qed.
Lemma answered_cons : forall x tr, answered (x :: tr) = answered tr ++ answered_one x.
Proof. intros. unfold answered. cbn [rev]. rewrite flat_map_app. cbn. rewrite app_nil_r. reflexivity. Qed.
Lemma unasked_log : forall x s, answered_one x = [] -> unasked s (log x s).
Proof. intros x s Hx H. split; [exact H|]. cbn [log sv_trace]. rewrite answered_cons, Hx, app_nil_r. reflexivity. Qed.
Lemma unasked_same : forall s s', sv_next s' = sv_next s -> sv_trace s' = sv_trace s -> unasked s s'.
Proof. intros s s' H1 H2 H. rewrite H1, H2. auto. Qed.
Lemma unasked_pushes : forall l s, unasked s (send_key_sequence l s).
Proof.
  induction l as [|e l IH]; intros s; [intros H; auto|]. unfold send_key_sequence in *. cbn [fold_left].
  eapply unasked_trans; [|apply IH]. unfold push. eapply unasked_trans; [|apply unasked_log; reflexivity].
  apply unasked_same; reflexivity.
Qed.
Lemma unasked_feed : forall e dev s, unasked s (feed clock e dev s).
Proof.
  intros e dev s. unfold feed. destruct (m_update e dev (sv_stage s)) as [m out].
  assert (H0 : unasked s (put_stage m (log (EFeed e dev) s))).
  { eapply unasked_trans; [apply (unasked_log (EFeed e dev)); reflexivity|apply unasked_same; reflexivity]. }
  destruct (back out) as [r|]; [destruct (ek r =? k_timeout)|];
    (eapply unasked_trans; [|eapply unasked_trans; [apply unasked_pushes|apply unasked_same; reflexivity]]); try exact H0.
  eapply unasked_trans; [exact H0|]. unfold schedule_timeout. eapply unasked_trans; [|apply unasked_log; reflexivity].
  apply unasked_same; reflexivity.
Qed.
Lemma unasked_core : forall reset, (forall s, unasked s (reset s)) -> forall e dev s,
  unasked s (fst (translate_core clock reset e dev s)).
Proof.
  intros reset Hr e dev s. rewrite core_cases. set (s0 := if _ =? _ then s else _).
  assert (H0 : unasked s s0) by (unfold s0; destruct (_ =? _); intros H; auto).
  eapply unasked_trans; [exact H0|]. destruct (m_should_exit _); cbn [fst]; [|apply unasked_feed].
  eapply unasked_trans; [|apply unasked_log; reflexivity]. eapply unasked_trans; [|apply Hr].
  eapply unasked_trans; [apply (unasked_log (EFeed e dev)); reflexivity|apply unasked_same; reflexivity].
Qed.
Lemma unasked_translate : forall reset, (forall s, unasked s (reset s)) -> forall fuel e dev s,
  unasked s (fst (translate_with clock reset fuel e dev s)).
Proof.
  intros reset Hr. induction fuel as [|fuel IH]; intros e dev s; cbn [translate_with fst]; [intros H; auto|].
  destruct (event_eqb e (sv_last s) && _); [intros H; auto|].
  destruct (sv_next s) eqn:En; [intros H; congruence|]. cbn [andb].
  eapply unasked_trans; [|apply unasked_core; exact Hr].
  set (s1 := match sv_start s with Some _ => _ | None => _ end).
  assert (H1 : unasked s s1).
  { unfold s1. destruct (sv_start s) as [t|]; [|intros H; auto]. destruct (_ || _); [|intros H; auto].
    eapply unasked_trans; [|apply IH]. unfold cancel_timeout. eapply unasked_trans; [|apply unasked_log; reflexivity].
    apply unasked_same; reflexivity. }
  destruct (_ && _); [|exact H1]. eapply unasked_trans; [exact H1|apply IH].
Qed.
Lemma unasked_lifts : lifts clock unasked (fun _ _ => True) (fun _ => True) (fun _ => True) (fun _ => True) False.
Proof.
  constructor; try (intros; exact I); try (intros; apply unasked_same; reflexivity); try contradiction;
    try (intros; apply unasked_log; reflexivity).
  - exact unasked_trans.
  - intros. apply unasked_translate. assumption.
  - intros reset Hr s _. eapply unasked_trans; [|apply unasked_translate; exact Hr].
    unfold cancel_timeout. eapply unasked_trans; [|apply unasked_log; reflexivity]. apply unasked_same; reflexivity.
  - intros s. apply unasked_pushes.
  - intros e b s. eapply unasked_trans; [|apply unasked_log; reflexivity]. apply unasked_same; reflexivity.
  - intros v s. unfold schedule_flush. destruct (sv_flush s); [intros H; auto|].
    eapply unasked_trans; [|apply unasked_log; reflexivity]. apply unasked_same; reflexivity.
  - intros l m out s _. eapply unasked_trans; [apply unasked_pushes|]. apply unasked_same; reflexivity.
  - intros l s _. apply unasked_pushes.
Qed.
Theorem unasked_run : forall l s, ~ In (SMessage MNextKey) l -> unasked s (server_run clock send_ok l s).
Proof.
  intros l s Hl. apply (li_run clock send_ok _ _ _ _ _ _ unasked_lifts). apply Forall_forall.
  intros [e dev| | |ds|[[m|]|l'|k st|f| |l'|l']| ] Hx; cbn; auto. apply Forall_forall. auto.
Qed.

(** The press which answers is not processed; the request is then over. *)
Theorem press_answers : forall e dev s, sv_next s = true -> answers e = true -> repeated e s = false ->
  server_step clock send_ok (SInput e dev) s = put_next false (log (ENextKey (ek e) (get_device_desc dev s)) s).
Proof.
  intros e dev s Hn Ha Hr. cbn [server_step]. unfold translate_input, translate_depth. cbn [translate_with].
  unfold repeated, pending in Hr. rewrite Hr. unfold answers in Ha. rewrite Hn. cbn [andb]. rewrite Ha. reflexivity.
Qed.

(** From the request on: whatever else happens, the first press is the one answer, and
    apart from it everything goes as without the request. *)
Theorem request_once : forall l1 l2 e dev s, Forall no_answer l1 -> ~ In (SMessage MNextKey) l2 ->
  answers e = true -> sv_next s = false ->
  let s1 := server_run clock send_ok l1 s in
  repeated e s1 = false ->
  server_run clock send_ok (SMessage MNextKey :: l1 ++ SInput e dev :: l2) s =
    server_run clock send_ok l2 (log (ENextKey (ek e) (get_device_desc dev s1)) s1) /\
  answered (sv_trace (server_run clock send_ok (SMessage MNextKey :: l1 ++ SInput e dev :: l2) s)) =
    answered (sv_trace s) ++ [(ek e, get_device_desc dev s1)].
Proof.
  intros l1 l2 e dev s Hl1 Hl2 Ha Hn. cbn zeta. intros Hr.
  assert (Hno : ~ In (SMessage MNextKey) l1).
  { intros Hi. rewrite Forall_forall in Hl1. apply (Hl1 _ Hi). }
  assert (E : server_run clock send_ok (SMessage MNextKey :: l1 ++ SInput e dev :: l2) s =
              server_run clock send_ok l2 (log (ENextKey (ek e) (get_device_desc dev (server_run clock send_ok l1 s)))
                                               (server_run clock send_ok l1 s))).
  { cbn [server_run]. change (server_step clock send_ok (SMessage MNextKey) s) with (put_next true s).
    rewrite run_app, next_key_others by exact Hl1. cbn [server_run].
    rewrite press_answers; [|reflexivity|exact Ha|exact Hr]. f_equal.
    destruct (unasked_run l1 s Hno Hn) as [A _]. set (s1 := server_run clock send_ok l1 s) in *. clearbody s1.
    destruct s1. cbn in A. subst. reflexivity. }
  split; [exact E|]. rewrite E.
  destruct (unasked_run l1 s Hno Hn) as [A B]. set (s1 := server_run clock send_ok l1 s) in *. clearbody s1.
  destruct (unasked_run l2 (log (ENextKey (ek e) (get_device_desc dev s1)) s1) Hl2 A) as [_ D].
  rewrite D. cbn [log sv_trace]. rewrite answered_cons, B. reflexivity.
Qed.
End Input.
