(** Virtual keys: state and reports agree (C26).  Output waits for its delay (C25). *)
From Coq Require Import List Arith NArith ZArith Bool Lia SpecFloat.
From Verif Require Import Base Key Match Stage StageSpec StageOut MultiStage MultiSpec MultiProofs
  Server ServerLoop ServerSpec ServerProofs ServerQueue ServerFlush.
Import ListNotations.
Local Open Scope N_scope.

(** ** Finding and removing *)
Lemma find_key : forall k l, match find_index (N.eqb k) l with
  | None => ~ In k l
  | Some i => In k l /\ (NoDup l -> NoDup (remove_at i l) /\ forall x, In x (remove_at i l) <-> In x l /\ x <> k)
  end.
Proof.
  intros k. induction l as [|y l IH]; cbn [find_index]; [intros []|].
  destruct (k =? y) eqn:E.
  - apply N.eqb_eq in E. subst y. split; [left; reflexivity|]. intros H. inversion_clear H.
    cbn [remove_at]. split; [exact H1|]. intros x. split.
    + intros Hx. split; [right; exact Hx|]. intros ->. contradiction.
    + intros [[Hx|Hx] Hk]; [congruence|exact Hx].
  - apply N.eqb_neq in E. destruct (find_index (N.eqb k) l) as [i|].
    + destruct IH as [H1 H2]. split; [right; exact H1|]. intros H. inversion_clear H.
      destruct (H2 H3) as [H4 H5]. cbn [remove_at]. split.
      * constructor; [|exact H4]. intros Hy. apply H5 in Hy. tauto.
      * intros x. cbn [In]. rewrite H5. split.
        -- intros [Hx|[Hx1 Hx2]]; [subst x; split; [auto|congruence]|tauto].
        -- tauto.
    + intros [H|H]; [congruence|contradiction].
Qed.

(** * The invariant *)

Lemma reported_app : forall k a b, reported k (a ++ b) = reported k b ++ reported k a.
Proof. intros. unfold reported. rewrite rev_app_distr. apply flat_map_app. Qed.
Lemma noreport_none : forall k l, Forall noreport l -> reported k l = [].
Proof.
  intros k l H. unfold reported. apply Forall_rev in H. induction H as [|x r Hx H IH]; [reflexivity|].
  cbn. rewrite IH, app_nil_r. destruct x; try reflexivity. discriminate.
Qed.

Lemma alternates_snoc : forall l st x, alternates st l -> x = opposite (last l st) -> alternates st (l ++ [x]).
Proof.
  induction l as [|y l IH]; intros st x H E; cbn [app alternates last] in *.
  - split; [exact E|exact I].
  - destruct H as [H1 H2]. split; [exact H1|]. apply IH; [exact H2|].
    destruct l as [|z l]; [exact E|]. rewrite E. f_equal. clear. revert z. induction l as [|w l IH]; intros z; [reflexivity|]. exact (IH w).
Qed.
Lemma last_snoc : forall {A} (l : list A) x d, last (l ++ [x]) d = x.
Proof. intros. apply last_last. Qed.

Definition vinv (s : server) : Prop :=
  NoDup (sv_virtual s) /\
  forall k, is_virtual_key k = true -> agrees k (sv_virtual s) (sv_trace s).

Section Virtual.
Variable clock : nat -> Z.
Variable send_ok : nat -> bool.

Definition vr (s s' : server) : Prop := grows s s' /\ (exits s s' \/ (vinv s -> vinv s')).

Lemma vr_refl : forall s, vr s s.
Proof. intros. split; [apply grows_refl|]. auto. Qed.
Lemma vr_trans : forall a b c, vr a b -> vr b c -> vr a c.
Proof.
  intros a b c [G1 H1] [G2 H2]. split; [eapply grows_trans; eassumption|].
  destruct H1 as [H1|H1]; [left; eapply exits_before; eassumption|].
  destruct H2 as [H2|H2]; [left; eapply exits_after; eassumption|]. auto.
Qed.
Lemma vinv_silent : forall s s', silent s s' -> sv_virtual s' = sv_virtual s -> vinv s -> vinv s'.
Proof.
  intros s s' (new & E & F) Ev [Hn H]. split; [rewrite Ev; exact Hn|]. intros k Hk. specialize (H k Hk).
  unfold agrees in *. rewrite Ev, E, reported_app, (noreport_none k _ F), app_nil_r. exact H.
Qed.
Lemma vr_silent : forall s s', silent s s' -> sv_virtual s' = sv_virtual s -> vr s s'.
Proof.
  intros s s' H Ev. split; [destruct H as (n & E & _); exists n; exact E|]. right. apply vinv_silent; assumption.
Qed.
Lemma vr_calm : forall s s', calm s s' -> vr s s'.
Proof. intros s s' H. apply vr_silent; [apply silent_calm; exact H|apply (q_virtual _ _ H)]. Qed.
Lemma vr_either : forall s s', either s s' -> vr s s'.
Proof. intros s s' [H|H]; [apply vr_calm; exact H|]. split; [apply exits_grows; exact H|left; exact H]. Qed.

(** ** Setting a key *)
Lemma agrees_other : forall k k' st l l' tr, k' <> k -> (In k l' <-> In k l) -> agrees k l tr ->
  agrees k l' (EVirtual k' st :: tr).
Proof.
  intros k k' st l l' tr Hk Hl [H1 H2]. unfold agrees. change (EVirtual k' st :: tr) with ([EVirtual k' st] ++ tr).
  rewrite reported_app. unfold reported at 2 4. cbn. apply N.eqb_neq in Hk. rewrite Hk. cbn. rewrite app_nil_r.
  split; [exact H1|]. rewrite Hl. exact H2.
Qed.

Lemma set_virtual_vr : forall translate k st s,
  (forall e s, either s (fst (translate e any_device s))) -> vr s (set_virtual_with translate k st s).
Proof.
  intros translate k st s Ht. unfold set_virtual_with. cbn zeta.
  pose proof (find_key k (sv_virtual s)) as Hf.
  assert (Hmain : forall new st' l, (st' = Down \/ st' = Up) -> new = st' ->
    (vinv s -> NoDup l /\ (forall x, x <> k -> (In x l <-> In x (sv_virtual s))) /\
               (st' = Down -> In k l /\ ~ In k (sv_virtual s)) /\ (st' = Up -> ~ In k l /\ In k (sv_virtual s))) ->
    vr s ((fun s : server => if is_virtual_key k then log (EVirtual k st') s else s)
            (fst (translate (ev0 k new) any_device (put_virtual l s))))).
  { intros new st' l Hst -> Hl. cbv beta. set (s0 := put_virtual l s).
    specialize (Ht (ev0 k st') s0). set (s1 := fst (translate _ _ s0)) in *.
    assert (G0 : grows s s0) by (exists []; reflexivity).
    set (s2 := if is_virtual_key k then log (EVirtual k st') s1 else s1).
    assert (G2 : grows s1 s2).
    { unfold s2. destruct (is_virtual_key k); [exists [EVirtual k st']; reflexivity|apply grows_refl]. }
    assert (G1 : grows s0 s1) by (destruct Ht as [H|H]; [apply calm_grows|apply exits_grows]; exact H).
    split; [eapply grows_trans; [exact G0|eapply grows_trans; [exact G1|exact G2]]|].
    destruct Ht as [Hc|He].
    2:{ left. eapply exits_before; [|exact G2]. eapply exits_after; [exact G0|exact He]. }
    right. intros Hv. destruct (Hl Hv) as (Hnd & Hoth & Hdn & Hup). destruct Hv as [_ Hv].
    assert (E1 : sv_virtual s1 = l) by exact (q_virtual _ _ Hc).
    assert (E2 : sv_virtual s2 = l) by (unfold s2; destruct (is_virtual_key k); exact E1).
    split; [rewrite E2; exact Hnd|]. intros x Hx. specialize (Hv x Hx). rewrite E2.
    destruct (q_trace _ _ Hc) as (new & Et & Hq).
    assert (A1 : forall l', (In x l' <-> In x (sv_virtual s)) -> agrees x l' (sv_trace s1)).
    { intros l' Hll. destruct Hv as [V1 V2]. unfold agrees.
      rewrite Et, reported_app, (noreport_none x _ (quiet_noreport _ Hq)), app_nil_r.
      change (sv_trace s0) with (sv_trace s). split; [exact V1|]. rewrite Hll. exact V2. }
    destruct (N.eq_dec x k) as [->|Hxk].
    - unfold s2. rewrite Hx. cbn [log sv_trace]. destruct (A1 (sv_virtual s) ltac:(tauto)) as [V1 V2].
      unfold agrees. change (EVirtual k st' :: sv_trace s1) with ([EVirtual k st'] ++ sv_trace s1).
      rewrite reported_app. unfold reported at 2 4. cbn. rewrite N.eqb_refl. cbn. rewrite last_snoc.
      split.
      + apply alternates_snoc; [exact V1|]. destruct Hst as [->| ->]; cbn.
        * destruct (Hdn eq_refl) as [_ H]. destruct (last (reported k (sv_trace s1)) Up) eqn:El; try reflexivity.
          exfalso. tauto.
        * destruct (Hup eq_refl) as [_ H]. apply V2 in H. rewrite H. reflexivity.
      + destruct Hst as [->| ->]; [destruct (Hdn eq_refl); tauto|]. destruct (Hup eq_refl).
        split; [tauto|discriminate].
    - unfold s2. destruct (is_virtual_key k); [|apply A1; apply Hoth; exact Hxk].
      cbn [log sv_trace]. eapply agrees_other; [congruence|apply (iff_refl (In x l))|]. apply A1. apply Hoth. exact Hxk. }
  destruct (find_index (N.eqb k) (sv_virtual s)) as [i|].
  - destruct (negb (kstate_eqb st Down)); [|apply vr_refl]. apply Hmain; [auto|reflexivity|].
    intros [Hnd _]. destruct Hf as [Hin Hf]. destruct (Hf Hnd) as [H1 H2]. split; [exact H1|].
    split; [intros x Hx; rewrite H2; tauto|]. split; [discriminate|]. intros _. split; [rewrite H2; tauto|exact Hin].
  - destruct (negb (kstate_eqb st Up)); [|apply vr_refl]. apply Hmain; [auto|reflexivity|].
    intros [Hnd _]. split.
    { apply (Permutation.Permutation_NoDup (l := k :: sv_virtual s));
        [apply Permutation.Permutation_cons_append|constructor; assumption]. }
    split; [|split; [intros _; split; [apply in_app_iff; right; left; reflexivity|exact Hf]|discriminate]].
    intros x Hx. rewrite in_app_iff. cbn. split; [intros [H|[H|[]]]; congruence|auto].
Qed.

Lemma grows_silent : forall s s', silent s s' -> grows s s'.
Proof. intros s s' (n & E & _). exists n. exact E. Qed.

Lemma toggle_vr : forall k s, vr s (toggle_virtual_key clock k s).
Proof.
  intros k s. apply set_virtual_vr. intros e s0.
  apply (translate_either clock reset_while_sending); [|discriminate].
  intros s1. apply grows_silent, silent_reset.
Qed.

Lemma scan_vr : forall left again,
  (left <> 0%nat -> forall i s, vr s (fst (fst (again i s)))) ->
  forall rest i s, vr s (fst (fst (scan clock send_ok left again rest i s))).
Proof.
  intros left again Hag. induction rest as [|e r IH]; intros i s; cbn [scan]; [apply vr_refl|].
  destruct (is_mouse_wheel (ek e) && kstate_eqb (es e) Down); [apply IH|].
  destruct (is_action_key (ek e)).
  { destruct (kstate_eqb (es e) Down); [|apply IH]. eapply vr_trans; [|apply IH].
    apply vr_silent; [apply silent_log; reflexivity|reflexivity]. }
  destruct (is_virtual_key (ek e)).
  { destruct (kstate_eqb (es e) Down); [|apply IH]. destruct left as [|left]; [apply IH|].
    eapply vr_trans; [apply toggle_vr|]. apply Hag. discriminate. }
  destruct (ek e =? k_timeout).
  { apply vr_silent; unfold schedule_flush; cbn [fst]; destruct (sv_flush s); try apply silent_refl; try reflexivity.
    exists [EFlushAt (ev e)]. split; [reflexivity|repeat constructor]. }
  destruct (send_ok (sv_sends s)).
  - eapply vr_trans; [|apply IH]. apply vr_silent; [exists [ESend e true]; split; [reflexivity|repeat constructor]|reflexivity].
  - apply vr_silent; [exists [ESend e false]; split; [reflexivity|repeat constructor]|reflexivity].
Qed.
Lemma flush_loop_vr : forall left i s, vr s (fst (fst (flush_loop clock send_ok left i s))).
Proof.
  induction left as [|left IH]; intros i s; rewrite flush_loop_scan; apply scan_vr; [intros H; contradiction|].
  intros _. exact IH.
Qed.
Lemma vr_same : forall s s', sv_trace s' = sv_trace s -> sv_virtual s' = sv_virtual s -> vr s s'.
Proof. intros s s' E1 E2. apply vr_silent; [exists []; split; [exact E1|constructor]|exact E2]. Qed.

Lemma flush_vr : forall s, vr s (fst (flush_send_buffer clock send_ok s)).
Proof.
  intros s. unfold flush_send_buffer. destruct (sv_sending s); [apply vr_refl|].
  pose proof (flush_loop_vr 9 0 (put_flush None (put_sending true s))) as H.
  destruct (flush_loop _ _ _ _ _) as [[s' i] b]. cbn [fst] in *.
  eapply vr_trans; [apply (vr_same s (put_flush None (put_sending true s))); reflexivity|].
  eapply vr_trans; [exact H|]. apply vr_same; reflexivity.
Qed.
Lemma flush_unless_vr : forall s, vr s (flush_unless_scheduled clock send_ok s).
Proof. intros s. unfold flush_unless_scheduled. destruct (sv_flush s); [apply vr_refl|apply flush_vr]. Qed.

Lemma grows_same : forall s s', sv_trace s' = sv_trace s -> grows s s'.
Proof. intros s s' E. exists []. exact E. Qed.
Lemma reset_grows : forall s, grows s (reset_configuration clock send_ok None s).
Proof.
  intros s. unfold reset_configuration. rewrite empty_filters by reflexivity.
  eapply grows_trans with (b := release_all_keys s); [apply calm_grows, calm_send|].
  eapply grows_trans; [apply flush_vr|]. apply grows_same. reflexivity.
Qed.
Lemma translate_input_either : forall e dev s, either s (fst (translate_input clock send_ok e dev s)).
Proof. intros e dev s. apply translate_either; [apply reset_grows|discriminate]. Qed.

Lemma calm_put_stage : forall m s, calm s (put_stage m s).
Proof.
  intros m s. constructor; try reflexivity; [exists []; split; [reflexivity|constructor]|].
  exists []. rewrite app_nil_r. reflexivity.
Qed.
Lemma contexts_calm : forall l s, exists s1, calm s s1 /\
  set_active_contexts clock send_ok l s = flush_unless_scheduled clock send_ok s1.
Proof.
  intros l s. unfold set_active_contexts. destruct (m_set_active_client_contexts l (sv_stage s)) as [m out].
  eexists. split; [|reflexivity]. eapply calm_trans; [apply (calm_put_stage m)|].
  eapply calm_trans; [apply (calm_send out)|]. apply calm_put_stage.
Qed.
Lemma filters_calm : forall s, exists s1, calm s s1 /\
  (evaluate_filters clock send_ok s = s1 \/ evaluate_filters clock send_ok s = flush_unless_scheduled clock send_ok s1).
Proof.
  intros s. unfold evaluate_filters. destruct (_ || _); [exists s; split; [apply calm_refl|auto]|].
  set (s0 := put_stage (m_evaluate_device_filters (sv_devices s) (sv_stage s)) s).
  destruct (contexts_calm (m_client (sv_stage s0)) s0) as (s1 & H1 & H2). exists s1.
  split; [eapply calm_trans; [apply calm_put_stage|exact H1]|auto].
Qed.
Lemma inject_either : forall l s, either s (inject_input clock send_ok l s).
Proof.
  induction l as [|e l IH]; intros s; cbn [inject_input]; [left; apply calm_refl|].
  eapply either_trans; [|apply IH]. destruct (_ && _); [|left; apply calm_refl].
  pose proof (translate_input_either e no_device s) as H.
  pose proof (translate_true clock (reset_configuration clock send_ok None) translate_depth e no_device s) as Hb.
  fold (translate_input clock send_ok e no_device s) in Hb.
  destruct (translate_input clock send_ok e no_device s) as [s' b]. cbn [fst snd] in *. subst b. exact H.
Qed.


Lemma schedule_vr : forall v s, vr s (schedule_flush clock v s).
Proof.
  intros v s. apply vr_silent; unfold schedule_flush; destruct (sv_flush s); try apply silent_refl; try reflexivity.
  exists [EFlushAt v]. split; [reflexivity|repeat constructor].
Qed.

Lemma step_vr : forall x s, keeps_config x -> vr s (server_step clock send_ok x s).
Proof.
  intros [e dev| | |ds|[[m|]|l|k st|f| |l|l]| ] s Hx; cbn [server_step on_message]; try contradiction.
  - apply vr_either, translate_input_either.
  - destruct (sv_start s); [|apply vr_refl]. cbn zeta. eapply vr_trans; [|apply vr_either, translate_input_either].
    apply vr_silent; [exists [ECancel]; split; [reflexivity|repeat constructor]|reflexivity].
  - apply flush_vr.
  - unfold set_device_descs. eapply vr_trans; [apply (vr_same s (put_devices ds s)); reflexivity|].
    destruct (filters_calm (put_devices ds s)) as (s1 & H1 & [H2|H2]); rewrite H2; [apply vr_calm; exact H1|].
    eapply vr_trans; [apply vr_calm; exact H1|apply flush_unless_vr].
  - apply vr_refl.
  - destruct (contexts_calm l s) as (s1 & H1 & ->). eapply vr_trans; [apply vr_calm; exact H1|apply flush_unless_vr].
  - eapply vr_trans; [|apply flush_unless_vr]. apply set_virtual_vr. intros. apply translate_input_either.
  - apply vr_same; reflexivity.
  - apply vr_same; reflexivity.
  - eapply vr_trans; [apply vr_either, inject_either|apply schedule_vr].
  - eapply vr_trans; [apply vr_calm, calm_send|apply schedule_vr].
Qed.
Lemma run_vr : forall l s, Forall keeps_config l -> vr s (server_run clock send_ok l s).
Proof.
  induction l as [|x l IH]; intros s H; cbn [server_run]; [apply vr_refl|]. inversion_clear H.
  eapply vr_trans; [apply (step_vr x s); assumption|]. apply IH. assumption.
Qed.

Theorem virtual_agree : forall l s, vinv s -> Forall keeps_config l -> 
  ~ In EExit (sv_trace (server_run clock send_ok l s)) -> vinv (server_run clock send_ok l s).
Proof.
  intros l s Hv Hl He. destruct (run_vr l s Hl) as [_ [(new & E & Hin)|H]]; [|auto].
  exfalso. apply He. rewrite E. apply in_app_iff. auto.
Qed.

(** * Waiting for a delay *)

Definition unsent (x : effect) : Prop := match x with ESend _ _ | EAction _ | EExit => False | _ => True end.
Record held (s s' : server) : Prop := {
  h_flush : sv_flush s' = sv_flush s;
  h_sending : sv_sending s' = sv_sending s;
  h_trace : exists new, sv_trace s' = new ++ sv_trace s /\ Forall unsent new;
  h_buf : exists more, sv_buf s' = sv_buf s ++ more
}.
Lemma held_refl : forall s, held s s.
Proof.
  intros s. constructor; try reflexivity; [exists []; split; [reflexivity|constructor]|].
  exists []. rewrite app_nil_r. reflexivity.
Qed.
Lemma held_trans : forall a b c, held a b -> held b c -> held a c.
Proof.
  intros a b c [? ? (n1 & E1 & F1) (m1 & B1)] [? ? (n2 & E2 & F2) (m2 & B2)].
  constructor; try congruence.
  - exists (n2 ++ n1). rewrite E2, E1, app_assoc. split; [reflexivity|]. apply Forall_app. split; assumption.
  - exists (m1 ++ m2). rewrite B2, B1, app_assoc. reflexivity.
Qed.
Lemma held_calm : forall s s', calm s s' -> held s s'.
Proof.
  intros s s' [? ? ? ? ? (n & E & F) B]. constructor; auto. exists n. split; [exact E|].
  eapply Forall_impl; [|exact F]. intros [] Hx; try contradiction; exact I.
Qed.

(** Held, or exits. *)
Definition waits (s s' : server) : Prop := grows s s' /\ (exits s s' \/ held s s').
Lemma waits_refl : forall s, waits s s.
Proof. intros. split; [apply grows_refl|right; apply held_refl]. Qed.
Lemma waits_either : forall s s', either s s' -> waits s s'.
Proof.
  intros s s' [H|H]; (split; [|]); [apply calm_grows; exact H|right; apply held_calm; exact H|apply exits_grows; exact H|left; exact H].
Qed.
Lemma waits_held : forall s s', held s s' -> waits s s'.
Proof. intros s s' H. split; [|right; exact H]. destruct (h_trace _ _ H) as (n & E & _). exists n. exact E. Qed.
(** What follows only has to wait while a flush is scheduled. *)
Lemma waits_trans : forall a b c, waits a b -> grows b c -> (sv_flush b = sv_flush a -> waits b c) -> waits a c.
Proof.
  intros a b c [G1 H1] G2 H2. split; [eapply grows_trans; eassumption|].
  destruct H1 as [H1|H1]; [left; eapply exits_before; eassumption|].
  destruct (H2 (h_flush _ _ H1)) as [_ [H|H]]; [left; eapply exits_after; eassumption|right; eapply held_trans; eassumption].
Qed.

Lemma step_grows : forall x s, grows s (server_step clock send_ok x s).
Proof.
  intros x s. destruct x as [e dev| | |ds|m| ]; try (apply step_vr; exact I).
  - destruct m as [[m|]|l|k st|f| |l|l]; try (apply step_vr; exact I). cbn [server_step on_message].
    unfold reset_configuration. eapply grows_trans with (b := release_all_keys s); [apply calm_grows, calm_send|].
    eapply grows_trans; [apply flush_vr|]. fold (release_all_keys s).
    set (s1 := fst _). eapply grows_trans; [apply (grows_same s1 (clear_configuration m s1)); reflexivity|].
    destruct (filters_calm (clear_configuration m s1)) as (s2 & H1 & [H2|H2]); rewrite H2; [apply calm_grows; exact H1|].
    eapply grows_trans; [apply calm_grows; exact H1|apply flush_unless_vr].
  - cbn [server_step]. apply reset_grows.
Qed.

Lemma set_virtual_held : forall translate k st s, (forall e s, either s (fst (translate e any_device s))) ->
  waits s (set_virtual_with translate k st s).
Proof.
  intros translate k st s Ht. unfold set_virtual_with. cbn zeta.
  assert (Hmain : forall e st' l, waits s ((fun s : server => if is_virtual_key k then log (EVirtual k st') s else s)
            (fst (translate e any_device (put_virtual l s))))).
  { intros e st' l. cbv beta. set (s0 := put_virtual l s). specialize (Ht e s0). set (s1 := fst (translate _ _ s0)) in *.
    assert (H0 : held s s0).
    { constructor; try reflexivity; [exists []; split; [reflexivity|constructor]|]. exists []. rewrite app_nil_r. reflexivity. }
    assert (H2 : held s1 (if is_virtual_key k then log (EVirtual k st') s1 else s1)).
    { destruct (is_virtual_key k); [|apply held_refl].
      constructor; try reflexivity; [exists [EVirtual k st']; split; [reflexivity|repeat constructor]|]. exists []. rewrite app_nil_r. reflexivity. }
    pose proof (waits_either _ _ Ht) as W. pose proof (waits_held _ _ H0) as W0. pose proof (waits_held _ _ H2) as W2.
    eapply waits_trans; [eapply waits_trans; [exact W0|apply W|intros _; exact W]|apply W2|intros _; exact W2]. }
  destruct (find_index _ _); (destruct (negb _); [apply Hmain|apply waits_refl]).
Qed.

Lemma step_waits : forall x s, keeps_config x -> x <> SFlush -> sv_flush s <> None ->
  waits s (server_step clock send_ok x s).
Proof.
  intros x s Hk Hx Hf.
  assert (Hfl : forall s1, waits s s1 -> waits s (flush_unless_scheduled clock send_ok s1)).
  { intros s1 H. eapply waits_trans; [exact H|apply flush_unless_vr|]. intros E. unfold flush_unless_scheduled.
    rewrite E. destruct (sv_flush s); [apply waits_refl|contradiction]. }
  assert (Hsc : forall v s1, waits s s1 -> waits s (schedule_flush clock v s1)).
  { intros v s1 H. eapply waits_trans; [exact H|apply schedule_vr|]. intros E. unfold schedule_flush.
    rewrite E. destruct (sv_flush s); [apply waits_refl|contradiction]. }
  destruct x as [e dev| | |ds|[[m|]|l|k st|f| |l|l]| ]; cbn [server_step on_message]; try contradiction.
  - apply waits_either, translate_input_either.
  - destruct (sv_start s) eqn:E; [|apply waits_refl]. cbn zeta.
    apply waits_either. eapply either_trans; [|apply translate_input_either]. left.
    constructor; try reflexivity; [exists [ECancel]; split; [reflexivity|repeat constructor]|]. exists []. rewrite app_nil_r. reflexivity.
  - unfold set_device_descs. assert (H0 : held s (put_devices ds s)).
    { constructor; try reflexivity; [exists []; split; [reflexivity|constructor]|]. exists []. rewrite app_nil_r. reflexivity. }
    destruct (filters_calm (put_devices ds s)) as (s1 & H1 & [H2|H2]); rewrite H2;
      [|apply Hfl]; apply waits_held; (eapply held_trans; [exact H0|apply held_calm; exact H1]).
  - apply waits_refl.
  - destruct (contexts_calm l s) as (s1 & H1 & ->). apply Hfl. apply waits_held, held_calm. exact H1.
  - apply Hfl. apply set_virtual_held. intros. apply translate_input_either.
  - apply waits_held, held_calm, calm_put_stage.
  - apply waits_held. constructor; try reflexivity; [exists []; split; [reflexivity|constructor]|]. exists []. rewrite app_nil_r. reflexivity.
  - apply Hsc. apply waits_either, inject_either.
  - apply Hsc. apply waits_held, held_calm, calm_send.
Qed.

Definition turn_keeps (t : turn) : Prop := Forall (fun m => keeps_config (SMessage m)) (t_messages t).

Lemma messages_grow : forall l s, grows s (fold_left (fun s m => server_step clock send_ok (SMessage m) s) l s).
Proof.
  induction l as [|m l IH]; intros s; cbn [fold_left]; [apply grows_refl|].
  eapply grows_trans; [apply step_grows|apply IH].
Qed.
Lemma messages_wait : forall l s, Forall (fun m => keeps_config (SMessage m)) l -> sv_flush s <> None ->
  waits s (fold_left (fun s m => server_step clock send_ok (SMessage m) s) l s).
Proof.
  induction l as [|m l IH]; intros s H Hf; cbn [fold_left]; [apply waits_refl|]. inversion_clear H.
  eapply waits_trans; [apply (step_waits (SMessage m) s); [assumption|discriminate|exact Hf]|apply messages_grow|].
  intros E. apply IH; [assumption|]. rewrite E. exact Hf.
Qed.
Lemma input_grows : forall t s, grows s (turn_input clock send_ok t s).
Proof.
  intros t s. unfold turn_input. cbn zeta.
  set (s0 := match t_input t with IKey _ _ => _ | _ => s end).
  assert (grows s s0) by (unfold s0; destruct (t_input t); try apply grows_refl; destruct (_ =? _); [apply grows_refl|apply step_grows]).
  destruct (timeout_due _ _); [|assumption]. eapply grows_trans; [eassumption|apply step_grows].
Qed.
Lemma updates_grow : forall t s, grows s (turn_updates clock send_ok t s).
Proof.
  intros t s. unfold turn_updates. cbn zeta. eapply grows_trans; [|apply messages_grow].
  destruct (t_devices t); [apply step_grows|apply grows_refl].
Qed.
Lemma turn_grows : forall t s, grows s (fst (server_turn clock send_ok t s)).
Proof.
  intros t s. unfold server_turn.
  assert (G : grows s (fst (let s0 := turn_input clock send_ok t s in
      let '(s1, ok) := if flush_due (t_now t) s0 then flush_send_buffer clock send_ok s0 else (s0, true) in
      if ok then (turn_updates clock send_ok t s1, true) else (s1, false)))).
  { cbn zeta. set (s0 := turn_input clock send_ok t s). assert (H0 : grows s s0) by apply input_grows.
    destruct (flush_due (t_now t) s0).
    - pose proof (proj1 (flush_vr s0)) as H1. destruct (flush_send_buffer clock send_ok s0) as [s1 ok]. cbn [fst] in H1.
      destruct ok; cbn [fst]; (eapply grows_trans; [exact H0|]); [eapply grows_trans; [exact H1|apply updates_grow]|exact H1].
    - cbn [fst]. eapply grows_trans; [exact H0|apply updates_grow]. }
  destruct (t_input t); [exact G|exact G|apply grows_refl].
Qed.
Lemma turns_grow : forall l s, grows s (fst (server_turns clock send_ok l s)).
Proof.
  induction l as [|t l IH]; intros s; cbn [server_turns]; [apply grows_refl|].
  pose proof (turn_grows t s) as H. destruct (server_turn clock send_ok t s) as [s1 ok]. cbn [fst] in H.
  destruct ok; [eapply grows_trans; [exact H|apply IH]|exact H].
Qed.

Lemma turn_waits : forall t s T, turn_keeps t -> sv_flush s = Some T -> (t_now t <= T)%Z ->
  waits s (fst (server_turn clock send_ok t s)).
Proof.
  intros t s T Hk Hf Hn. unfold server_turn.
  assert (G : waits s (fst (let s0 := turn_input clock send_ok t s in
      let '(s1, ok) := if flush_due (t_now t) s0 then flush_send_buffer clock send_ok s0 else (s0, true) in
      if ok then (turn_updates clock send_ok t s1, true) else (s1, false)))).
  2:{ destruct (t_input t); [exact G|exact G|apply waits_refl]. }
  cbn zeta. set (s0 := turn_input clock send_ok t s).
  assert (W0 : waits s s0).
  { unfold s0, turn_input. cbn zeta. set (s1 := match t_input t with IKey _ _ => _ | _ => s end).
    assert (W1 : waits s s1).
    { unfold s1. destruct (t_input t); try apply waits_refl. destruct (_ =? _); [apply waits_refl|].
      apply step_waits; [exact I|discriminate|congruence]. }
    destruct (timeout_due _ _); [|exact W1]. eapply waits_trans; [exact W1|apply step_grows|].
    intros E. apply step_waits; [exact I|discriminate|congruence]. }
  set (r := if flush_due (t_now t) s0 then flush_send_buffer clock send_ok s0 else (s0, true)).
  assert (Gr : grows s0 (fst r)) by (unfold r; destruct (flush_due _ _); [apply flush_vr|apply grows_refl]).
  eapply waits_trans; [exact W0| |].
  - destruct r as [s1 ok]. cbn [fst] in Gr. destruct ok; cbn [fst]; [eapply grows_trans; [exact Gr|apply updates_grow]|exact Gr].
  - intros E. unfold r, flush_due. rewrite E, Hf. destruct (T <? t_now t)%Z eqn:L; [apply Z.ltb_lt in L; lia|]. cbn [fst].
    unfold turn_updates. cbn zeta.
    assert (Hn0 : sv_flush s0 <> None) by congruence.
    eapply waits_trans with (b := match t_devices t with Some ds => server_step clock send_ok (SDevices ds) s0 | None => s0 end).
    + destruct (t_devices t); [apply step_waits; [exact I|discriminate|exact Hn0]|apply waits_refl].
    + apply messages_grow.
    + intros E2. apply messages_wait; [exact Hk|congruence].
Qed.

Theorem turns_wait : forall l s T, Forall turn_keeps l -> sv_flush s = Some T -> Forall (fun t => (t_now t <= T)%Z) l ->
  waits s (fst (server_turns clock send_ok l s)).
Proof.
  induction l as [|t l IH]; intros s T Hk Hf Hn; cbn [server_turns]; [apply waits_refl|].
  inversion_clear Hk. inversion_clear Hn. pose proof (turn_waits t s T H Hf H1) as W.
  destruct (server_turn clock send_ok t s) as [s1 ok]. cbn [fst] in W. destruct ok; [|exact W].
  eapply waits_trans; [exact W|apply turns_grow|]. intros E. apply (IH s1 T); [assumption|congruence|assumption].
Qed.
End Virtual.
