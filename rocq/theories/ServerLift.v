(** Properties of all runs of the server from properties of its primitive operations. *)
From Coq Require Import List Arith NArith ZArith Bool Lia SpecFloat.
From Verif Require Import Base Key Match Stage MultiStage Server ServerLoop ServerProofs.
Import ListNotations.
Local Open Scope N_scope.

Section Lift.
Variable clock : nat -> Z.
Variable send_ok : nat -> bool.

(** A preorder on states and the events, configurations, validations and outputs allowed
    in requests. *)
Variable R : server -> server -> Prop.
Variable okf : event -> Z -> Prop.
Variable okc : mstage -> Prop.
Variable okv : (key -> bool) -> Prop.
Variable okp : sequence -> Prop.
Variable okn : Prop. (* requests for the next key *)

Record lifts : Prop := {
  li_refl : forall s, R s s;
  li_trans : forall a b c, R a b -> R b c -> R a c;
  li_translate : forall reset, (forall s, R s (reset s)) -> forall e dev s, okf e dev ->
    R s (fst (translate_with clock reset translate_depth e dev s));
  li_expire : forall reset, (forall s, R s (reset s)) -> forall s, sv_start s <> None ->
    R s (fst (translate_with clock reset translate_depth (expired_event (sv_timeout s)) any_device
                             (cancel_timeout s)));
  li_toggle : forall k st, is_virtual_key k = true -> (st = Down \/ st = Up) -> okf (ev0 k st) any_device;
  li_empty : okc (MS [] [] []);
  li_release : forall s, R s (release_all_keys s);
  li_clear : forall m s, okc m -> R s (clear_configuration m s);
  li_virtual : forall l s, R s (put_virtual l s);
  li_report : forall k st s, R s (log (EVirtual k st) s);
  li_action : forall n s, R s (log (EAction n) s);
  li_send : forall e b s, R s (log (ESend e b) (count_send s));
  li_schedule : forall v s, R s (schedule_flush clock v s);
  li_begin : forall s, R s (put_flush None (put_sending true s));
  li_end : forall l s, R s (put_sending false (put_buf l s));
  li_contexts : forall l m out s, m_set_active_client_contexts l (sv_stage s) = (m, out) ->
    R s (put_stage (m_reuse_buffer m) (send_key_sequence out s));
  li_devices : forall ds s, R s (put_stage (m_evaluate_device_filters ds (sv_stage s)) s);
  li_descs : forall ds s, R s (put_devices ds s);
  li_validate : forall f s, okv f -> R s (put_stage (m_validate_state f (sv_stage s)) s);
  li_next : forall s, okn -> R s (put_next true s);
  li_inject : forall l s, okp l -> R s (send_key_sequence l s)
}.
Hypothesis L : lifts.

Local Notation "a ;; b" := (li_trans L _ _ _ a b) (at level 60, right associativity).

Lemma li_set_virtual : forall translate k st s,
  (forall st s, (st = Down \/ st = Up) -> R s (fst (translate (ev0 k st) any_device s))) ->
  R s (set_virtual_with translate k st s).
Proof.
  intros translate k st s Ht. unfold set_virtual_with. cbn zeta.
  assert (H : forall st' l, (st' = Down \/ st' = Up) ->
    R s ((fun s : server => if is_virtual_key k then log (EVirtual k st') s else s)
         (fst (translate (ev0 k st') any_device (put_virtual l s))))).
  { intros st' l Hst. cbv beta. refine (li_virtual L l s ;; Ht st' _ Hst ;; _).
    destruct (is_virtual_key k); [apply (li_report L)|apply (li_refl L)]. }
  destruct (find_index _ _); (destruct (negb _); [apply H; auto|apply (li_refl L)]).
Qed.

Lemma li_reset_sending : forall s, R s (reset_while_sending s).
Proof. intros s. exact (li_release L s ;; li_clear L _ _ (li_empty L)). Qed.

Lemma li_toggle_key : forall k s, is_virtual_key k = true -> R s (toggle_virtual_key clock k s).
Proof.
  intros k s Hk. apply li_set_virtual. intros st s0 Hst.
  apply (li_translate L); [apply li_reset_sending|]. apply (li_toggle L); assumption.
Qed.

Lemma li_scan : forall left again, (left <> 0%nat -> forall i s, R s (fst (fst (again i s)))) ->
  forall rest i s, R s (fst (fst (scan clock send_ok left again rest i s))).
Proof.
  intros left again Hag. induction rest as [|e r IH]; intros i s; cbn [scan]; [apply (li_refl L)|].
  destruct (is_mouse_wheel (ek e) && kstate_eqb (es e) Down); [apply IH|].
  destruct (is_action_key (ek e)).
  { destruct (kstate_eqb (es e) Down); [|apply IH]. exact (li_action L _ s ;; IH _ _). }
  destruct (is_virtual_key (ek e)) eqn:V.
  { destruct (kstate_eqb (es e) Down); [|apply IH]. destruct left as [|left]; [apply IH|].
    exact (li_toggle_key _ _ V ;; Hag ltac:(discriminate) _ _). }
  destruct (ek e =? k_timeout); [apply (li_schedule L)|].
  destruct (send_ok (sv_sends s)); [exact (li_send L _ _ s ;; IH _ _)|apply (li_send L)].
Qed.
Lemma li_loop : forall left i s, R s (fst (fst (flush_loop clock send_ok left i s))).
Proof.
  induction left as [|left IH]; intros i s; rewrite flush_loop_scan; apply li_scan; [intros H; contradiction|].
  intros _. exact IH.
Qed.
Lemma li_flush : forall s, R s (fst (flush_send_buffer clock send_ok s)).
Proof.
  intros s. unfold flush_send_buffer. destruct (sv_sending s); [apply (li_refl L)|].
  pose proof (li_loop 9 0 (put_flush None (put_sending true s))) as H.
  destruct (flush_loop _ _ _ _ _) as [[s' i] b]. exact (li_begin L s ;; H ;; li_end L _ _).
Qed.
Lemma li_flush_unless : forall s, R s (flush_unless_scheduled clock send_ok s).
Proof. intros s. unfold flush_unless_scheduled. destruct (sv_flush s); [apply (li_refl L)|apply li_flush]. Qed.

Lemma li_set_contexts : forall l s, R s (set_active_contexts clock send_ok l s).
Proof.
  intros l s. unfold set_active_contexts. destruct (m_set_active_client_contexts l (sv_stage s)) as [m out] eqn:E.
  refine (_ ;; li_flush_unless _). pose proof (li_contexts L l m out s E) as H.
  replace (put_stage _ (send_key_sequence out (put_stage m s)))
    with (put_stage (m_reuse_buffer m) (send_key_sequence out s)); [exact H|].
  clear. assert (G : forall l s, send_key_sequence l (put_stage m s) = put_stage m (send_key_sequence l s)).
  { induction l as [|e l IH]; intros s0; [reflexivity|]. unfold send_key_sequence in *. cbn [fold_left].
    rewrite <- IH. reflexivity. }
  rewrite G. reflexivity.
Qed.
Lemma li_filters : forall s, R s (evaluate_filters clock send_ok s).
Proof.
  intros s. unfold evaluate_filters. destruct (_ || _); [apply (li_refl L)|].
  exact (li_devices L _ s ;; li_set_contexts _ _).
Qed.
Lemma li_reset : forall m s, okc (match m with Some m => m | None => MS [] [] [] end) ->
  R s (reset_configuration clock send_ok m s).
Proof.
  intros m s H. unfold reset_configuration.
  exact (li_release L s ;; li_flush _ ;; li_clear L _ _ H ;; li_filters _).
Qed.
Lemma li_translate_input : forall e dev s, okf e dev -> R s (fst (translate_input clock send_ok e dev s)).
Proof.
  intros e dev s H. apply (li_translate L); [|exact H]. intros s0. apply li_reset. exact (li_empty L).
Qed.

Definition lift_ok (x : step) : Prop :=
  match x with
  | SInput e dev => okf e dev
  | SMessage m =>
      match m with
      | MConfig (Some m) => okc m
      | MVirtual k _ => okf (ev0 k Down) any_device /\ okf (ev0 k Up) any_device
      | MValidate f => okv f
      | MInjectInput l => Forall (fun e => (es e = Up \/ es e = Down) -> is_device_key (ek e) = true ->
                                           okf e no_device) l
      | MInjectOutput l => okp l
      | MNextKey => okn
      | _ => True
      end
  | _ => True
  end.

Lemma li_inject_input : forall l s, lift_ok (SMessage (MInjectInput l)) -> R s (inject_input clock send_ok l s).
Proof.
  induction l as [|e l IH]; intros s H; cbn [inject_input]; [apply (li_refl L)|]. inversion_clear H.
  refine (_ ;; IH _ H1). clear IH H1.
  destruct (match es e with Up | Down => true | _ => false end && is_device_key (ek e)) eqn:E; [|apply (li_refl L)].
  apply andb_prop in E as [E1 E2].
  pose proof (li_translate_input e no_device s) as Ht.
  pose proof (translate_true clock (reset_configuration clock send_ok None) translate_depth e no_device s) as Hb.
  fold (translate_input clock send_ok e no_device s) in Hb.
  destruct (translate_input clock send_ok e no_device s) as [s' b]. cbn [fst snd] in *. subst b.
  apply Ht. apply H0; [destruct (es e); try discriminate; auto|exact E2].
Qed.

Theorem li_step : forall x s, lift_ok x -> R s (server_step clock send_ok x s).
Proof.
  intros [e dev| | |ds|[[m|]|l|k st|f| |l|l]| ] s Hx; cbn [server_step on_message].
  - apply li_translate_input. exact Hx.
  - destruct (sv_start s) eqn:E; [|apply (li_refl L)]. cbn zeta. unfold translate_input.
    apply (li_expire L); [|rewrite E; discriminate]. intros s0. apply li_reset. exact (li_empty L).
  - apply li_flush.
  - exact (li_descs L ds s ;; li_filters _).
  - apply li_reset. exact Hx.
  - apply (li_refl L).
  - apply li_set_contexts.
  - refine (_ ;; li_flush_unless _). apply li_set_virtual. intros st' s0 Hst. apply li_translate_input.
    destruct Hx as [H1 H2]. destruct Hst as [E|E]; rewrite E; assumption.
  - apply (li_validate L). exact Hx.
  - apply (li_next L). exact Hx.
  - exact (li_inject_input l s Hx ;; li_schedule L _ _).
  - exact (li_inject L l s Hx ;; li_schedule L _ _).
  - apply li_reset. exact (li_empty L).
Qed.
Theorem li_run : forall l s, Forall lift_ok l -> R s (server_run clock send_ok l s).
Proof.
  induction l as [|x l IH]; intros s H; cbn [server_run]; [apply (li_refl L)|]. inversion_clear H.
  exact (li_step x s H0 ;; IH _ H1).
Qed.
End Lift.

(** * Turns of the loop are steps *)
Section Turns.
Variable clock : nat -> Z.
Variable send_ok : nat -> bool.

(** The steps a turn may take. *)
Definition may_take (t : turn) (x : step) : Prop :=
  match x with
  | SInput e dev => t_input t = IKey e dev
  | SExpire | SFlush => True
  | SDevices ds => t_devices t = Some ds
  | SMessage m => In m (t_messages t)
  | SReset => False
  end.

Lemma run_app : forall a b s, server_run clock send_ok (a ++ b) s =
  server_run clock send_ok b (server_run clock send_ok a s).
Proof. induction a as [|x a IH]; intros b s; [reflexivity|]. cbn [app server_run]. apply IH. Qed.

Lemma turn_run : forall t s, exists l, Forall (may_take t) l /\
  fst (server_turn clock send_ok t s) = server_run clock send_ok l s.
Proof.
  intros t s.
  assert (H1 : exists l, Forall (may_take t) l /\ turn_input clock send_ok t s = server_run clock send_ok l s).
  { unfold turn_input. cbn zeta.
    assert (H : exists l, Forall (may_take t) l /\
       match t_input t with
       | IKey e dev => if ek e =? k_none then s else server_step clock send_ok (SInput e dev) s
       | _ => s end = server_run clock send_ok l s).
    { destruct (t_input t) eqn:E; try (exists []; split; [constructor|reflexivity]).
      destruct (_ =? _); [exists []; split; [constructor|reflexivity]|].
      exists [SInput e dev]. split; [repeat constructor; exact E|reflexivity]. }
    destruct H as (l & Hl & ->). destruct (timeout_due _ _); [|eauto].
    exists (l ++ [SExpire]). rewrite run_app. split; [|reflexivity]. apply Forall_app. repeat constructor. exact Hl. }
  assert (H2 : forall s, exists l, Forall (may_take t) l /\ turn_updates clock send_ok t s = server_run clock send_ok l s).
  { intros s0. unfold turn_updates. cbn zeta.
    exists (match t_devices t with Some ds => [SDevices ds] | None => [] end ++ map SMessage (t_messages t)).
    split.
    - apply Forall_app. split.
      + destruct (t_devices t) eqn:E; repeat constructor. exact E.
      + apply Forall_forall. intros x Hx. apply in_map_iff in Hx as (m & <- & Hm). exact Hm.
    - rewrite run_app. replace (server_run clock send_ok match t_devices t with Some ds => [SDevices ds] | None => [] end s0)
        with (match t_devices t with Some ds => server_step clock send_ok (SDevices ds) s0 | None => s0 end)
        by (destruct (t_devices t); reflexivity).
      generalize (match t_devices t with Some ds => server_step clock send_ok (SDevices ds) s0 | None => s0 end).
      induction (t_messages t) as [|m l IH]; intros s1; [reflexivity|]. cbn [fold_left map server_run]. apply IH. }
  assert (H3 : exists l, Forall (may_take t) l /\
     fst (let s0 := turn_input clock send_ok t s in
      let '(s1, ok) := if flush_due (t_now t) s0 then flush_send_buffer clock send_ok s0 else (s0, true) in
      if ok then (turn_updates clock send_ok t s1, true) else (s1, false)) = server_run clock send_ok l s).
  { destruct H1 as (l1 & F1 & E1). cbn zeta. rewrite E1. set (s0 := server_run clock send_ok l1 s).
    destruct (flush_due (t_now t) s0).
    - destruct (flush_send_buffer clock send_ok s0) as [s1 ok] eqn:Ef.
      assert (Es : s1 = server_step clock send_ok SFlush s0) by (cbn [server_step]; rewrite Ef; reflexivity).
      destruct ok; cbn [fst].
      + destruct (H2 s1) as (l2 & F2 & E2). exists (l1 ++ [SFlush] ++ l2). rewrite !run_app, E2.
        split; [apply Forall_app; split; [exact F1|]; apply Forall_app; repeat constructor; exact F2|].
        rewrite Es. reflexivity.
      + exists (l1 ++ [SFlush]). rewrite run_app. split; [apply Forall_app; repeat constructor; exact F1|].
        rewrite Es. reflexivity.
    - cbn [fst]. destruct (H2 s0) as (l2 & F2 & E2). exists (l1 ++ l2). rewrite run_app, E2.
      split; [apply Forall_app; auto|reflexivity]. }
  unfold server_turn. destruct (t_input t); [exact H3|exact H3|]. exists []. split; [constructor|reflexivity].
Qed.

Theorem turns_run : forall ts s, exists l, Forall (fun x => exists t, In t ts /\ may_take t x) l /\
  fst (server_turns clock send_ok ts s) = server_run clock send_ok l s.
Proof.
  induction ts as [|t ts IH]; intros s; cbn [server_turns].
  { exists []. split; [constructor|reflexivity]. }
  destruct (turn_run t s) as (l1 & F1 & E1). destruct (server_turn clock send_ok t s) as [s1 ok]. cbn [fst] in E1.
  assert (F1' : Forall (fun x => exists t0, In t0 (t :: ts) /\ may_take t0 x) l1).
  { eapply Forall_impl; [|exact F1]. intros x Hx. exists t. split; [left; reflexivity|exact Hx]. }
  destruct ok; [|exists l1; split; [exact F1'|exact E1]].
  destruct (IH s1) as (l2 & F2 & E2). exists (l1 ++ l2). rewrite run_app, <- E1. split; [|exact E2].
  apply Forall_app. split; [exact F1'|]. eapply Forall_impl; [|exact F2].
  intros x (t0 & H1 & H2). exists t0. split; [right; exact H1|exact H2].
Qed.
End Turns.
