(** Proofs about the server on Windows: the recursion of translate_input ends, only the hooks
    pass events on, and the queue drains. *)
From Coq Require Import List Arith NArith ZArith Bool Lia.
From Verif Require Import Base Key Match Stage MultiStage Server WinServer WinSpec WinProofs.
Import ListNotations.
Local Open Scope N_scope.

Local Opaque wanted seen fed.

Definition not_passed (x : weffect) : bool := match x with WPassed _ => false | _ => true end.

(** From [s] to [s'] nothing was passed on and the recursion was not too deep. *)
Definition keeps (s s' : wserver) : Prop :=
  (exists t, ws_trace s' = t ++ ws_trace s /\ forallb not_passed t = true) /\ ws_oof s' = ws_oof s.

Lemma keeps_refl s : keeps s s.
Proof. split; [exists []; split; reflexivity|reflexivity]. Qed.
Lemma keeps_trans s1 s2 s3 : keeps s1 s2 -> keeps s2 s3 -> keeps s1 s3.
Proof.
  intros [(t1 & E1 & F1) O1] [(t2 & E2 & F2) O2]. split; [|congruence]. exists (t2 ++ t1).
  rewrite E2, E1, app_assoc, forallb_app, F1, F2. split; reflexivity.
Qed.
Lemma keeps_same s s' : ws_trace s' = ws_trace s -> ws_oof s' = ws_oof s -> keeps s s'.
Proof. intros H1 H2. split; [|exact H2]. exists []. split; [exact H1|reflexivity]. Qed.
Lemma keeps_log s s' x : ws_trace s' = x :: ws_trace s -> not_passed x = true -> ws_oof s' = ws_oof s -> keeps s s'.
Proof. intros H1 H2 H3. split; [|exact H3]. exists [x]. split; [exact H1|]. cbn. rewrite H2. reflexivity. Qed.
Lemma keeps_put l s : keeps s (w_put l s).
Proof. apply (keeps_log _ _ (WPut l)); reflexivity. Qed.
Lemma keeps_send e s : keeps s (w_send e s).
Proof.
  unfold w_send. destruct (prevent_button_repeat e (ws_buttons s)) as [p l]. destruct p.
  - apply keeps_same; reflexivity.
  - apply (keeps_log _ _ (WSent e)); reflexivity.
Qed.

Section Run.
Variable clock : nat -> Z.

Lemma keeps_schedule v s : keeps s (w_schedule_flush v s).
Proof.
  unfold w_schedule_flush. destruct (ws_flush s); [apply keeps_refl|]. apply (keeps_log _ _ (WFlushTimer v)); reflexivity.
Qed.

Lemma core_keeps reset c n e dev s : (forall s, keeps s (reset s)) ->
  keeps s (fst (w_translate_core clock reset c n e dev s)).
Proof.
  intros Hr. unfold w_translate_core. set (s0 := if ek e =? k_timeout then s else w_last e s).
  assert (keeps s s0) as H0 by (subst s0; destruct (ek e =? k_timeout); apply keeps_same; reflexivity).
  clearbody s0. destruct (m_update e dev (ws_stage s0)) as [m out]. cbv zeta.
  assert (keeps s (w_stage m s0)) as H1 by exact H0. set (s2 := w_stage m s0) in *. clearbody s2. clear H0.
  destruct (m_should_exit _).
  { cbn [fst]. apply (keeps_trans _ _ _ H1). apply (keeps_trans _ _ _ (Hr s2)).
    apply (keeps_log _ _ WExit); reflexivity. }
  assert (exists s1 out1, (match back out with
      | Some r => if ek r =? k_timeout
                  then (w_schedule_timeout clock (ev r) (cancel_timeout_on_up (es r)) s2, pop_back out)
                  else (s2, out)
      | None => (s2, out)
      end) = (s1, out1) /\ keeps s s1) as (s1 & out1 & -> & Hs1).
  { destruct (back out) as [r|]; [destruct (ek r =? k_timeout)|];
      eexists; eexists; (split; [reflexivity|]); try exact H1.
    apply (keeps_trans _ _ _ H1). apply (keeps_log _ _ (WTimeoutTimer (ev r))); reflexivity. }
  cbn [fst]. apply (keeps_trans _ _ _ Hs1).
  destruct (_ || _ || _ || _); (eapply keeps_log; [reflexivity|reflexivity|reflexivity]).
Qed.

Lemma step_keeps reset rec e dev s : (forall s, keeps s (reset s)) ->
  (ws_start s <> None -> forall x d s1, ek x = k_timeout -> ws_start s1 = None -> keeps s1 (fst (rec x d s1))) ->
  (is_mouse_wheel (ek e) = true -> es e = Up -> forall v d s1, keeps s1 (fst (rec (Ev (ek e) Down v) d s1))) ->
  keeps s (fst (w_translate_step clock reset rec e dev s)).
Proof.
  intros Hr Ht Hw. unfold w_translate_step.
  destruct (event_eqb _ _ && _); [apply keeps_refl|].
  destruct (ws_next s && _ && _ && _); [eapply keeps_log; reflexivity|].
  assert (exists s1 c, w_cancel_pending clock rec e dev s = (s1, c) /\ keeps s s1) as (s1 & c & -> & H1).
  { unfold w_cancel_pending. destruct (ws_start s) as [t|] eqn:Es; [destruct (kstate_eqb (es e) Down || ws_on_up s)|];
      eexists; eexists; (split; [reflexivity|]); try apply keeps_refl.
    apply (keeps_trans _ (w_cancel_timeout (w_tick s))); [eapply keeps_log; reflexivity|].
    apply Ht; [discriminate|reflexivity|reflexivity]. }
  cbn beta iota zeta. set (n := kstate_eqb _ _ && _ && _).
  apply (keeps_trans _ _ _ H1).
  destruct n.
  - change (is_mouse_wheel (ek (Ev Pause_w (es e) (ev e)))) with false. cbn [andb]. apply core_keeps. exact Hr.
  - destruct (is_mouse_wheel (ek e) && kstate_eqb (es e) Up) eqn:Ew.
    + apply andb_prop in Ew. destruct Ew as [Ew Eu].
      assert (es e = Up) as Eu' by (destruct (es e); try discriminate; reflexivity).
      eapply keeps_trans; [apply (Hw Ew Eu')|]. apply core_keeps. exact Hr.
    + apply core_keeps. exact Hr.
Qed.

(** The recursion is at most as deep as modelled. *)
Lemma translate_keeps reset e dev s : (forall s, keeps s (reset s)) ->
  keeps s (fst (w_translate_with clock reset e dev s)).
Proof.
  intros Hr. unfold w_translate_with.
  set (r1 := w_translate_step clock reset (fun _ _ s => (w_oof s, true))).
  assert (forall x d s1, ek x = k_timeout -> ws_start s1 = None -> keeps s1 (fst (r1 x d s1))) as H1.
  { intros x d s1 Hx Hs. apply step_keeps; [exact Hr|congruence|]. rewrite Hx. discriminate. }
  set (r2 := w_translate_step clock reset r1).
  assert (forall x d s1, is_mouse_wheel (ek x) && kstate_eqb (es x) Up = false -> keeps s1 (fst (r2 x d s1))) as H2.
  { intros x d s1 Hx. apply step_keeps; [exact Hr|intros _; exact H1|]. intros Hw Hu. rewrite Hw, Hu in Hx. discriminate. }
  apply step_keeps; [exact Hr| |].
  - intros _ x d s1 Hx _. apply H2. rewrite Hx. reflexivity.
  - intros _ _ v d s1. apply H2. apply andb_false_r.
Qed.

Lemma virtual_keeps reset k st s : (forall s, keeps s (reset s)) ->
  keeps s (w_set_virtual_with (w_translate_with clock reset) k st s).
Proof.
  intros Hr. unfold w_set_virtual_with.
  assert (forall st' s1 st2, keeps s s1 ->
    keeps s (if is_virtual_key k then w_log (WVirtual k st') (fst (w_translate_with clock reset (ev0 k st2) any_device s1))
             else fst (w_translate_with clock reset (ev0 k st2) any_device s1))) as A.
  { intros st' s1 st2 H. apply (keeps_trans _ _ _ H).
    pose proof (translate_keeps reset (ev0 k st2) any_device s1 Hr) as G. destruct (is_virtual_key k); [|exact G].
    apply (keeps_trans _ _ _ G). eapply keeps_log; reflexivity. }
  destruct (find_index (N.eqb k) (ws_virtual s)); [destruct (negb (kstate_eqb st Down))|destruct (negb (kstate_eqb st Up))];
    try apply keeps_refl; apply A; apply keeps_same; reflexivity.
Qed.
Lemma sending_keeps s : keeps s (w_reset_while_sending s).
Proof. eapply keeps_log; reflexivity. Qed.
Lemma toggle_keeps k s : keeps s (w_toggle_virtual_key clock k s).
Proof. apply virtual_keeps. exact sending_keeps. Qed.

Lemma scan_keeps again : (match again with None => True | Some f => forall i s, keeps s (fst (f i s)) end) ->
  forall rest i s, keeps s (fst (w_scan clock again rest i s)).
Proof.
  intros Ha. induction rest as [|e r IHr]; intros i s; [apply keeps_refl|]. cbn [w_scan].
  destruct (is_mouse_wheel (ek e) && kstate_eqb (es e) Down); [apply IHr|].
  destruct (is_action_key (ek e)).
  { eapply keeps_trans; [|apply IHr]. destruct (kstate_eqb (es e) Down); [eapply keeps_log; reflexivity|apply keeps_refl]. }
  destruct (is_virtual_key (ek e)).
  { destruct (kstate_eqb (es e) Down); [|apply IHr]. destruct again as [f|]; [|apply IHr].
    eapply keeps_trans; [apply toggle_keeps|apply Ha]. }
  destruct (ek e =? k_timeout); [apply keeps_schedule|].
  destruct (negb (i =? 0)%nat && is_control_up e); [apply keeps_schedule|].
  eapply keeps_trans; [apply keeps_send|apply IHr].
Qed.
Lemma loop_keeps : forall left i s, keeps s (fst (w_flush_loop clock left i s)).
Proof. induction left as [|left IH]; intros i s; cbn [w_flush_loop]; apply scan_keeps; [exact Logic.I|exact IH]. Qed.
Lemma flush_keeps s : keeps s (w_flush_send_buffer clock s).
Proof.
  unfold w_flush_send_buffer. destruct (ws_sending s); [apply keeps_refl|].
  pose proof (loop_keeps 9 0 (w_flush false (w_sending true s))) as H.
  destruct (w_flush_loop clock 9 0 (w_flush false (w_sending true s))) as [s' i]. cbn [fst] in H.
  apply (keeps_trans _ (w_flush false (w_sending true s))); [apply keeps_same; reflexivity|].
  apply (keeps_trans _ _ _ H). apply keeps_same; reflexivity.
Qed.
Lemma unless_keeps s : keeps s (w_flush_unless_scheduled clock s).
Proof. unfold w_flush_unless_scheduled. destruct (ws_flush s); [apply keeps_refl|apply flush_keeps]. Qed.
Lemma contexts_keeps l s : keeps s (w_set_active_contexts clock l s).
Proof.
  unfold w_set_active_contexts. destruct (m_set_active_client_contexts l (ws_stage s)) as [m out].
  eapply keeps_trans; [|apply unless_keeps]. eapply keeps_log; reflexivity.
Qed.
Lemma filters_keeps s : keeps s (w_evaluate_filters clock s).
Proof.
  unfold w_evaluate_filters. destruct (negb _ || _); [apply keeps_refl|].
  eapply keeps_trans; [|apply contexts_keeps]. apply keeps_same; reflexivity.
Qed.
Lemma reset_keeps m s : keeps s (w_reset_configuration clock m s).
Proof.
  unfold w_reset_configuration. eapply keeps_trans; [apply (keeps_put (map (fun k => ev0 k Up) (m_output_keys_down (ws_stage s))) s)|].
  eapply keeps_trans; [apply flush_keeps|]. eapply keeps_trans; [|apply filters_keeps]. apply keeps_same; reflexivity.
Qed.
Lemma input_keeps e dev s : keeps s (fst (w_translate_input clock e dev s)).
Proof. apply translate_keeps. intros s'. apply reset_keeps. Qed.
Lemma inject_keeps : forall l s, keeps s (w_inject_input clock l s).
Proof.
  induction l as [|e l IH]; intros s; [apply keeps_refl|]. cbn [w_inject_input]. eapply keeps_trans; [|apply IH].
  destruct (_ && _); [|apply keeps_refl]. pose proof (input_keeps e no_device s) as H.
  destruct (w_translate_input clock e no_device s) as [s' b]. destruct b; exact H.
Qed.
Lemma message_keeps m s : keeps s (w_on_message clock m s).
Proof.
  destruct m as [[c|]|l|k st|f| |l|l]; cbn [w_on_message].
  - apply reset_keeps.
  - apply keeps_refl.
  - apply contexts_keeps.
  - eapply keeps_trans; [|apply unless_keeps]. apply virtual_keeps. intros s'. apply reset_keeps.
  - apply keeps_same; reflexivity.
  - apply keeps_same; reflexivity.
  - eapply keeps_trans; [apply inject_keeps|apply keeps_schedule].
  - eapply keeps_trans; [apply keeps_put|apply keeps_schedule].
Qed.
Lemma messages_keeps : forall l s, keeps s (fold_left (fun s m => w_on_message clock m s) l s).
Proof.
  induction l as [|m l IH]; intros s; [apply keeps_refl|]. cbn [fold_left]. eapply keeps_trans; [apply message_keeps|apply IH].
Qed.

(** One call passes on at most the event of the device, as its last effect. *)
Definition passes (x : wstep) (s s' : wserver) : Prop :=
  exists t, (ws_trace s' = t ++ ws_trace s \/
             exists e, (x = WKey e \/ x = WMouse e) /\ ws_trace s' = WPassed e :: t ++ ws_trace s) /\
    forallb not_passed t = true.
Lemma keeps_passes x s s' : keeps s s' -> passes x s s' /\ ws_oof s' = ws_oof s.
Proof. intros [(t & Ht & Hf) Ho]. split; [|exact Ho]. exists t. split; [left; exact Ht|exact Hf]. Qed.
Lemma passed_passes x e s s1 s' : keeps s s1 -> x = WKey e \/ x = WMouse e -> ws_trace s' = WPassed e :: ws_trace s1 ->
  ws_oof s' = ws_oof s1 -> passes x s s' /\ ws_oof s' = ws_oof s.
Proof.
  intros [(t & Ht & Hf) Ho] Hx Ht' Ho'. split; [|congruence]. exists t. split; [|exact Hf]. right. exists e.
  split; [exact Hx|]. rewrite Ht', Ht. reflexivity.
Qed.
Lemma step_passes x s : passes x s (w_step clock x s) /\ ws_oof (w_step clock x s) = ws_oof s.
Proof.
  destruct x as [e|e|l| | | |ds]; cbn [w_step].
  - destruct (ws_hooked s); [|apply (passed_passes _ e s s); [apply keeps_refl|tauto|reflexivity|reflexivity]].
    unfold keyboard_hook. pose proof (input_keeps e 0 s) as H. destruct (w_translate_input clock e 0 s) as [s' b].
    cbn [fst] in H. destruct b.
    + apply keeps_passes. apply (keeps_trans _ _ _ H), unless_keeps.
    + apply (passed_passes _ e s s'); [exact H|tauto|reflexivity|reflexivity].
  - destruct (ws_hooked s); [|apply (passed_passes _ e s s); [apply keeps_refl|tauto|reflexivity|reflexivity]].
    unfold mouse_hook. pose proof (input_keeps e 1 s) as H. destruct (w_translate_input clock e 1 s) as [s' b].
    cbn [fst] in H. destruct b.
    + apply keeps_passes. apply (keeps_trans _ _ _ H), keeps_schedule.
    + destruct (prevent_button_repeat e (ws_buttons s')) as [p l].
      assert (keeps s (w_buttons l s')) as H' by (apply (keeps_trans _ _ _ H); apply keeps_same; reflexivity).
      destruct p.
      * apply keeps_passes. apply (keeps_trans _ _ _ H'), keeps_schedule.
      * apply (passed_passes _ e s (w_buttons l s')); [exact H'|tauto|reflexivity|reflexivity].
  - apply keeps_passes. exact (messages_keeps l s).
  - apply keeps_passes. exact (reset_keeps None s).
  - apply keeps_passes, flush_keeps.
  - apply keeps_passes. eapply keeps_trans; [|apply unless_keeps]. eapply keeps_trans; [|apply input_keeps].
    eapply keeps_log; reflexivity.
  - apply keeps_passes. eapply keeps_trans; [|apply filters_keeps]. apply keeps_same; reflexivity.
Qed.
Lemma run_oof : forall l s, ws_oof (w_run clock l s) = ws_oof s.
Proof.
  induction l as [|x l IH]; intros s; [reflexivity|]. cbn [w_run]. destruct (ws_exited s); [reflexivity|].
  rewrite IH. apply step_passes.
Qed.

(** AltGr is never passed on while the keyboard is hooked. *)
Lemma altgr_step e s : ws_hooked s = true -> ek e = AltRight_w -> keeps s (w_step clock (WKey e) s).
Proof.
  intros Hh He. cbn [w_step]. rewrite Hh. unfold keyboard_hook.
  assert (is_mouse_wheel (ek e) = false) as Hw by (rewrite He; reflexivity).
  pose proof (input_keeps e 0 s) as H. pose proof (translate_given clock (w_reset_configuration clock None) e 0 s Hw) as G.
  change (w_translate_with clock (w_reset_configuration clock None) e 0 s) with (w_translate_input clock e 0 s) in G.
  destruct (w_translate_input clock e 0 s) as [s' b]. cbn [fst] in H. destruct b.
  - apply (keeps_trans _ _ _ H), unless_keeps.
  - exfalso. exact (proj2 G eq_refl He).
Qed.

(** * The queue drains *)

Lemma send_buf e s : ws_buf (w_send e s) = ws_buf s.
Proof. apply send_same. Qed.
Lemma scan_buf again : forall rest i s, no_virtual rest = true ->
  ws_buf (fst (w_scan clock again rest i s)) = ws_buf s /\
  (i <= snd (w_scan clock again rest i s))%nat /\
  (i = 0%nat -> rest <> [] -> 0 < snd (w_scan clock again rest i s))%nat.
Proof.
  induction rest as [|e r IHr]; intros i s Hv.
  { cbn. split; [reflexivity|]. split; [lia|]. congruence. }
  cbn in Hv. apply andb_prop in Hv. destruct Hv as [Hv Hr]. apply negb_true_iff in Hv. cbn [w_scan].
  assert (forall s1, ws_buf s1 = ws_buf s ->
    ws_buf (fst (w_scan clock again r (S i) s1)) = ws_buf s /\ (i <= snd (w_scan clock again r (S i) s1))%nat /\
    (i = 0%nat -> e :: r <> [] -> 0 < snd (w_scan clock again r (S i) s1))%nat) as A.
  { intros s1 Hs1. destruct (IHr (S i) s1 Hr) as (H1 & H2 & _). rewrite H1. split; [exact Hs1|]. split; [lia|]. lia. }
  destruct (is_mouse_wheel (ek e) && kstate_eqb (es e) Down); [apply A; reflexivity|].
  destruct (is_action_key (ek e)); [apply A; destruct (kstate_eqb (es e) Down); reflexivity|].
  destruct (is_virtual_key (ek e)); [destruct (kstate_eqb (es e) Down); [discriminate Hv|apply A; reflexivity]|].
  destruct (ek e =? k_timeout).
  { cbn [fst snd]. split; [apply schedule_same|]. split; lia. }
  destruct (i =? 0)%nat eqn:Ei; cbn [negb andb].
  - apply A, send_buf.
  - apply Nat.eqb_neq in Ei. destruct (is_control_up e); [|apply A, send_buf].
    cbn [fst snd]. split; [apply schedule_same|]. split; lia.
Qed.
Lemma flush_shorter s : ws_sending s = false -> no_virtual (ws_buf s) = true ->
  exists n, ws_buf (w_flush_send_buffer clock s) = skipn n (ws_buf s) /\ (ws_buf s <> [] -> 0 < n)%nat.
Proof.
  intros Hs Hv. unfold w_flush_send_buffer. rewrite Hs.
  assert (H : ws_buf (fst (w_flush_loop clock 9 0 (w_flush false (w_sending true s)))) = ws_buf s /\
    (ws_buf s <> [] -> 0 < snd (w_flush_loop clock 9 0 (w_flush false (w_sending true s))))%nat).
  { cbn [w_flush_loop]. change (skipn 0 (ws_buf (w_flush false (w_sending true s)))) with (ws_buf s).
    destruct (scan_buf (Some (w_flush_loop clock 8)) (ws_buf s) 0 (w_flush false (w_sending true s)) Hv) as (H1 & _ & H3).
    split; [exact H1|]. exact (H3 eq_refl). }
  destruct (w_flush_loop clock 9 0 (w_flush false (w_sending true s))) as [s' i]. cbn [fst snd] in H.
  destruct H as [H1 H2]. exists i. cbn [ws_buf w_buf w_sending]. rewrite H1. split; [reflexivity|exact H2].
Qed.
Lemma skipn_virtual : forall n l, no_virtual l = true -> no_virtual (skipn n l) = true.
Proof.
  induction n as [|n IH]; intros l H; [exact H|]. destruct l as [|e l]; [reflexivity|]. cbn in *.
  apply andb_prop in H. apply IH, H.
Qed.

Lemma run_app : forall a b s, w_run clock (a ++ b) s = w_run clock b (w_run clock a s).
Proof.
  induction a as [|x a IH]; intros b s; [reflexivity|]. cbn [app w_run]. destruct (ws_exited s) eqn:E; [|apply IH].
  destruct b; cbn [w_run]; [reflexivity|]. rewrite E. reflexivity.
Qed.
Lemma fine_app : forall a b s, fine_run clock a s -> (forall x, In x b -> x = WFlushExpired) -> fine_run clock (a ++ b) s.
Proof.
  induction a as [|x a IH]; intros b s Ha Hb.
  - revert s Ha Hb. induction b as [|y b IHb]; intros s Ha Hb; [exact Logic.I|]. cbn [app fine_run].
    rewrite (Hb y (or_introl eq_refl)). split; [exact Logic.I|]. apply IHb; [exact Logic.I|]. intros z Hz. apply Hb. right. exact Hz.
  - destruct Ha as [H1 H2]. split; [exact H1|]. apply IH; assumption.
Qed.

Lemma flush_sending s : ws_sending s = false -> ws_sending (w_flush_send_buffer clock s) = false.
Proof.
  intros H. unfold w_flush_send_buffer. rewrite H.
  destruct (w_flush_loop clock 9 0 (w_flush false (w_sending true s))) as [s' i]. reflexivity.
Qed.
Lemma drain : forall n s, ws_sending s = false -> no_virtual (ws_buf s) = true -> (length (ws_buf s) <= n)%nat ->
  ws_exited (w_run clock (repeat WFlushExpired n) s) = false ->
  ws_buf (w_run clock (repeat WFlushExpired n) s) = [].
Proof.
  induction n as [|n IH]; intros s Hs Hv Hl Hx.
  - destruct (ws_buf s) as [|e r] eqn:Eb; [exact Eb|cbn in Hl; lia].
  - cbn [repeat w_run] in *. destruct (ws_exited s) eqn:Ex; [congruence|]. cbn [w_step] in *.
    destruct (flush_shorter s Hs Hv) as (k & Hk & Hk0). apply IH.
    + apply flush_sending. exact Hs.
    + rewrite Hk. apply skipn_virtual. exact Hv.
    + rewrite Hk, skipn_length. destruct (ws_buf s) as [|e r]; [cbn; lia|]. specialize (Hk0 ltac:(discriminate)). lia.
    + exact Hx.
Qed.

(** Flushing without virtual keys puts nothing out. *)
Lemma scan_wanted again : forall rest i s, no_virtual rest = true ->
  let s' := fst (w_scan clock again rest i s) in
  wanted (ws_trace s') = wanted (ws_trace s) /\ ws_exited s' = ws_exited s /\
  proper_buttons (ws_trace s') = proper_buttons (ws_trace s).
Proof.
  cbv zeta. induction rest as [|e r IHr]; intros i s Hv; [tauto|].
  cbn in Hv. apply andb_prop in Hv. destruct Hv as [Hv Hr]. apply negb_true_iff in Hv. cbn [w_scan].
  assert (forall s1, wanted (ws_trace s1) = wanted (ws_trace s) -> ws_exited s1 = ws_exited s ->
    proper_buttons (ws_trace s1) = proper_buttons (ws_trace s) ->
    wanted (ws_trace (fst (w_scan clock again r (S i) s1))) = wanted (ws_trace s) /\
    ws_exited (fst (w_scan clock again r (S i) s1)) = ws_exited s /\
    proper_buttons (ws_trace (fst (w_scan clock again r (S i) s1))) = proper_buttons (ws_trace s)) as A.
  { intros s1 <- <- <-. apply IHr. exact Hr. }
  assert (forall v, wanted (ws_trace (w_schedule_flush v s)) = wanted (ws_trace s) /\
    ws_exited (w_schedule_flush v s) = ws_exited s /\
    proper_buttons (ws_trace (w_schedule_flush v s)) = proper_buttons (ws_trace s)) as B.
  { intros v. destruct (schedule_same v s) as (_ & _ & _ & _ & H5 & _ & H7 & H8 & _). tauto. }
  assert (wanted (ws_trace (w_send e s)) = wanted (ws_trace s)) as C.
  { unfold w_send. destruct (prevent_button_repeat e (ws_buttons s)) as [p l]. destruct p; cbn; [reflexivity|].
    rewrite wanted_cons. apply app_nil_r. }
  destruct (is_mouse_wheel (ek e) && kstate_eqb (es e) Down); [apply A; reflexivity|].
  destruct (is_action_key (ek e)).
  { destruct (kstate_eqb (es e) Down); apply A; try reflexivity. cbn. rewrite wanted_cons. apply app_nil_r. }
  destruct (is_virtual_key (ek e)); [destruct (kstate_eqb (es e) Down); [discriminate Hv|apply A; reflexivity]|].
  destruct (ek e =? k_timeout); [apply B|].
  destruct (negb (i =? 0)%nat && is_control_up e); [apply B|].
  apply A; [exact C|apply send_same|apply send_same].
Qed.
Lemma flush_wanted s : no_virtual (ws_buf s) = true ->
  let s' := w_flush_send_buffer clock s in
  wanted (ws_trace s') = wanted (ws_trace s) /\ ws_exited s' = ws_exited s /\
  proper_buttons (ws_trace s') = proper_buttons (ws_trace s).
Proof.
  intros Hv. cbv zeta. unfold w_flush_send_buffer. destruct (ws_sending s); [tauto|].
  pose proof (scan_wanted (Some (w_flush_loop clock 8)) (ws_buf s) 0 (w_flush false (w_sending true s)) Hv) as H.
  cbv zeta in H. change (w_flush_loop clock 9 0 (w_flush false (w_sending true s))) with
    (w_scan clock (Some (w_flush_loop clock 8)) (ws_buf s) 0 (w_flush false (w_sending true s))).
  destruct (w_scan clock (Some (w_flush_loop clock 8)) (ws_buf s) 0 (w_flush false (w_sending true s))) as [s' i]. exact H.
Qed.
Lemma drain_wanted : forall n s, ws_sending s = false -> no_virtual (ws_buf s) = true ->
  let s' := w_run clock (repeat WFlushExpired n) s in
  wanted (ws_trace s') = wanted (ws_trace s) /\ ws_exited s' = ws_exited s /\
  proper_buttons (ws_trace s') = proper_buttons (ws_trace s).
Proof.
  cbv zeta. induction n as [|n IH]; intros s Hs Hv; [tauto|]. cbn [repeat w_run w_step].
  destruct (ws_exited s) eqn:Ex; [tauto|]. rewrite <- Ex. destruct (flush_wanted s Hv) as (H1 & H2 & H3).
  rewrite <- H1, <- H2, <- H3. destruct (flush_shorter s Hs Hv) as (k & Hk & _). apply IH.
  - apply flush_sending. exact Hs.
  - rewrite Hk. apply skipn_virtual. exact Hv.
Qed.

(** * What is given to the engine *)

(** Nothing of a device was given to the engine, unless the server exits. *)
Definition quietly (s s' : wserver) : Prop :=
  ws_exited s' = true \/ fed (ws_trace s') = fed (ws_trace s) /\ ws_exited s' = ws_exited s.
Lemma quietly_refl s : quietly s s.
Proof. right. tauto. Qed.
Lemma quietly_trans s1 s2 s3 : quietly s1 s2 -> quietly s2 s3 -> quietly s1 s3.
Proof.
  intros [H1|[H1 E1]] [H2|[H2 E2]]; try (left; exact H2).
  - left. congruence.
  - right. split; congruence.
Qed.
Lemma quietly_log s s' x : ws_trace s' = x :: ws_trace s -> fed_device x = [] -> ws_exited s' = ws_exited s -> quietly s s'.
Proof. intros H1 H2 H3. right. rewrite H1, fed_cons, H2, app_nil_r. tauto. Qed.
Lemma quietly_same s s' : ws_trace s' = ws_trace s -> ws_exited s' = ws_exited s -> quietly s s'.
Proof. intros H1 H2. right. rewrite H1. tauto. Qed.

(** [e] was given to the engine and is the last event, unless it is a timeout. *)
Definition feeds (e : event) (s s' : wserver) : Prop :=
  ws_exited s' = true \/
  fed (ws_trace s') = fed (ws_trace s) ++ (if is_device_key (ek e) then [e] else []) /\ ws_exited s' = ws_exited s /\
  ws_last s' = (if ek e =? k_timeout then ws_last s else e).

Lemma core_feeds reset c n e dev s : feeds e s (fst (w_translate_core clock reset c n e dev s)).
Proof.
  unfold w_translate_core. set (s0 := if ek e =? k_timeout then s else w_last e s).
  assert (ws_trace s0 = ws_trace s /\ ws_exited s0 = ws_exited s /\
    ws_last s0 = (if ek e =? k_timeout then ws_last s else e)) as H0 by (subst s0; destruct (ek e =? k_timeout); cbn; tauto).
  clearbody s0. destruct (m_update e dev (ws_stage s0)) as [m out]. cbv zeta.
  assert (fed (ws_trace (w_stage m s0)) = fed (ws_trace s) /\ ws_exited (w_stage m s0) = ws_exited s /\
    ws_last (w_stage m s0) = (if ek e =? k_timeout then ws_last s else e)) as H1.
  { cbn. destruct H0 as (-> & H). tauto. }
  set (s2 := w_stage m s0) in *. clearbody s2. clear H0.
  destruct (m_should_exit _); [left; reflexivity|].
  assert (exists s1 out1, (match back out with
      | Some r => if ek r =? k_timeout
                  then (w_schedule_timeout clock (ev r) (cancel_timeout_on_up (es r)) s2, pop_back out)
                  else (s2, out)
      | None => (s2, out)
      end) = (s1, out1) /\ fed (ws_trace s1) = fed (ws_trace s) /\ ws_exited s1 = ws_exited s /\
      ws_last s1 = (if ek e =? k_timeout then ws_last s else e)) as (s1 & out1 & -> & Hs1 & Hs2 & Hs3).
  { destruct (back out) as [r|]; [destruct (ek r =? k_timeout)|];
      eexists; eexists; (split; [reflexivity|]); try exact H1.
    cbn. rewrite fed_cons. cbn. rewrite app_nil_r. exact H1. }
  cbn [fst]. right.
  destruct (_ || _ || _ || _); cbn; rewrite fed_cons, Hs1; cbn; tauto.
Qed.

(** A timeout is given to the engine without more. *)
Lemma timeout_feeds reset rec x d s : ek x = k_timeout -> ws_start s = None ->
  let s' := fst (w_translate_step clock reset rec x d s) in
  ws_exited s' = true \/ fed (ws_trace s') = fed (ws_trace s) /\ ws_exited s' = ws_exited s /\ ws_last s' = ws_last s.
Proof.
  intros Hx Hs. cbv zeta. unfold w_translate_step. destruct (event_eqb _ _ && _); [right; cbn; tauto|].
  rewrite Hx. change (is_device_key k_timeout) with false. rewrite !andb_false_r. cbn [andb].
  unfold w_cancel_pending. rewrite Hs. change (k_timeout =? NumLock_w) with false. rewrite andb_false_r. cbn [andb].
  rewrite Hx. change (is_mouse_wheel k_timeout) with false. cbn [andb].
  pose proof (core_feeds reset false false x d s) as H. destruct H as [H|H]; [left; exact H|]. right. revert H.
  rewrite Hx. change (is_device_key k_timeout) with false. change (k_timeout =? k_timeout) with true. rewrite app_nil_r. tauto.
Qed.

Lemma translate_feeds reset e dev s : is_mouse_wheel (ek e) = false ->
  let s' := fst (w_translate_with clock reset e dev s) in
  (e = ws_last s /\ (ws_flush s = true \/ ws_start s <> None) /\ fed (ws_trace s') = fed (ws_trace s)) \/
  (ws_next s = true /\ es e = Down /\ fed (ws_trace s') = fed (ws_trace s)) \/
  feeds (given_event e (ws_last s)) s s'.
Proof.
  intros Hw. cbv zeta. unfold w_translate_with.
  set (r1 := w_translate_step clock reset (fun _ _ s => (w_oof s, true))).
  set (r2 := w_translate_step clock reset r1). unfold w_translate_step.
  destruct (event_eqb e (ws_last s) && _) eqn:E1.
  { left. apply andb_prop in E1. destruct E1 as [E1 E2]. split; [|split; [|reflexivity]].
    - revert E1. unfold event_eqb. rewrite !andb_true_iff, !N.eqb_eq. destruct e as [k st v], (ws_last s) as [k' st' v'].
      cbn. intros [[-> H] ->]. destruct st, st'; try discriminate; reflexivity.
    - apply orb_prop in E2. destruct (ws_start s); [right; discriminate|]. destruct E2; [left; assumption|discriminate]. }
  destruct (ws_next s && _ && _ && _) eqn:E2.
  { right. left. rewrite !andb_true_iff in E2. destruct E2 as [[[E2 _] _] E3]. split; [exact E2|]. split.
    - destruct (es e); try discriminate; reflexivity.
    - cbn. rewrite fed_cons. apply app_nil_r. }
  right. right.
  assert (exists s1 c, w_cancel_pending clock r2 e dev s = (s1, c) /\
    (ws_exited s1 = true \/ fed (ws_trace s1) = fed (ws_trace s) /\ ws_exited s1 = ws_exited s /\ ws_last s1 = ws_last s)) as
    (s1 & c & -> & H1).
  { unfold w_cancel_pending. destruct (ws_start s) as [t|]; [destruct (kstate_eqb (es e) Down || ws_on_up s)|].
    - eexists; eexists; split; [reflexivity|].
      pose proof (timeout_feeds reset r1 (elapsed_event (clock (ws_ticks s) - t)) dev (w_cancel_timeout (w_tick s)) eq_refl eq_refl) as H.
      cbv zeta in H. fold r2 in H. destruct H as [H|(H & H' & H'')]; [left; exact H|right].
      rewrite H, H', H''. cbn. rewrite fed_cons. cbn. rewrite app_nil_r. tauto.
    - eexists; eexists; split; [reflexivity|]. right. tauto.
    - eexists; eexists; split; [reflexivity|]. right. tauto. }
  cbn beta iota zeta.
  assert (forall n, is_mouse_wheel (ek (if (n : bool) then Ev Pause_w (es e) (ev e) else e)) = false) as Hn
    by (intros [|]; [reflexivity|exact Hw]).
  set (n := kstate_eqb (es e) (es (ws_last s1)) && (ek e =? NumLock_w) && (ek (ws_last s1) =? Pause_w)).
  rewrite Hn. cbn [andb].
  pose proof (core_feeds reset c n (if n then Ev Pause_w (es e) (ev e) else e) dev s1) as H.
  destruct H as [H|(H & H' & H'')]; [left; exact H|].
  destruct H1 as [H1|(H1 & H1' & H1'')]; [left; congruence|]. right. unfold given_event. subst n.
  rewrite H1'' in *. rewrite H, H', H'', H1, H1'. tauto.
Qed.

Lemma virtual_quiet reset k st s : is_virtual_key k = true ->
  quietly s (w_set_virtual_with (w_translate_with clock reset) k st s).
Proof.
  intros Hk. unfold w_set_virtual_with. rewrite Hk.
  assert (forall st' s1 st2, quietly s s1 ->
    quietly s (w_log (WVirtual k st') (fst (w_translate_with clock reset (ev0 k st2) any_device s1)))) as A.
  { intros st' s1 st2 H1. apply (quietly_trans _ _ _ H1).
    apply (quietly_trans _ (fst (w_translate_with clock reset (ev0 k st2) any_device s1))); [|eapply quietly_log; reflexivity].
    pose proof (translate_feeds reset (ev0 k st2) any_device s1 (virtual_not_wheel k Hk)) as G. cbv zeta in G.
    pose proof (translate_given clock reset (ev0 k st2) any_device s1 (virtual_not_wheel k Hk)) as X.
    destruct (w_translate_with clock reset (ev0 k st2) any_device s1) as [s2 b]. cbn [fst] in *. destruct X as [X _].
    destruct X as [X|(l & X & _)]; [left; exact X|]. destruct X as (_ & _ & _ & _ & _ & _ & _ & X & _).
    assert (ek (ev0 k st2) = k) as Ek by reflexivity.
    assert (k <> NumLock_w) as Hn by (intros ->; discriminate Hk).
    destruct G as [(_ & _ & G)|[(_ & _ & G)|G]].
    - right. tauto.
    - right. tauto.
    - unfold given_event in G. rewrite Ek in G. apply N.eqb_neq in Hn. rewrite Hn, andb_false_r in G. cbn [andb] in G.
      destruct G as [G|(G & G' & _)]; [left; exact G|]. right. split; [|exact G'].
      cbn [ek ev0] in G. assert (is_device_key k = false) as Hd.
      { unfold is_device_key, is_keyboard_key, is_mouse_button, is_mouse_wheel, is_virtual_key, in_range in *.
        unfold first_virtual, last_virtual, last_keyboard_key, ButtonLeft, ButtonForward, WheelUp, WheelRight in *.
        rewrite andb_true_iff, !N.leb_le in Hk.
        rewrite !orb_false_iff, !andb_false_iff, !N.leb_gt. lia. }
      rewrite Hd, app_nil_r in G. exact G. }
  destruct (find_index (N.eqb k) (ws_virtual s)); [destruct (negb (kstate_eqb st Down))|destruct (negb (kstate_eqb st Up))];
    try apply quietly_refl; apply A; apply quietly_same; reflexivity.
Qed.
Lemma schedule_quiet v s : quietly s (w_schedule_flush v s).
Proof. unfold w_schedule_flush. destruct (ws_flush s); [apply quietly_refl|eapply quietly_log; reflexivity]. Qed.
Lemma scan_quiet again : (match again with None => True | Some f => forall i s, quietly s (fst (f i s)) end) ->
  forall rest i s, quietly s (fst (w_scan clock again rest i s)).
Proof.
  intros Ha. induction rest as [|e r IHr]; intros i s; [apply quietly_refl|]. cbn [w_scan].
  destruct (is_mouse_wheel (ek e) && kstate_eqb (es e) Down); [apply IHr|].
  destruct (is_action_key (ek e)).
  { eapply quietly_trans; [|apply IHr]. destruct (kstate_eqb (es e) Down); [eapply quietly_log; reflexivity|apply quietly_refl]. }
  destruct (is_virtual_key (ek e)) eqn:Ev.
  { destruct (kstate_eqb (es e) Down); [|apply IHr]. destruct again as [f|]; [|apply IHr].
    eapply quietly_trans; [apply (virtual_quiet w_reset_while_sending _ Not s Ev)|apply Ha]. }
  destruct (ek e =? k_timeout); [apply schedule_quiet|].
  destruct (negb (i =? 0)%nat && is_control_up e); [apply schedule_quiet|].
  eapply quietly_trans; [|apply IHr]. unfold w_send.
  destruct (prevent_button_repeat e (ws_buttons s)) as [p l]. destruct p.
  - apply quietly_same; reflexivity.
  - apply (quietly_log _ _ (WSent e)); reflexivity.
Qed.
Lemma loop_quiet : forall left i s, quietly s (fst (w_flush_loop clock left i s)).
Proof. induction left as [|left IH]; intros i s; cbn [w_flush_loop]; apply scan_quiet; [exact Logic.I|exact IH]. Qed.
Lemma flush_quiet s : quietly s (w_flush_send_buffer clock s).
Proof.
  unfold w_flush_send_buffer. destruct (ws_sending s); [apply quietly_refl|].
  pose proof (loop_quiet 9 0 (w_flush false (w_sending true s))) as H.
  destruct (w_flush_loop clock 9 0 (w_flush false (w_sending true s))) as [s' i]. exact H.
Qed.

(** Keys and buttons while the devices are hooked *)
Lemma device_feeds x e s : x = WKey e \/ x = WMouse e -> ws_hooked s = true -> is_mouse_wheel (ek e) = false ->
  ws_exited (w_step clock x s) = false ->
  fed (ws_trace (w_step clock x s)) = fed (ws_trace s) ++ [given_event e (ws_last s)] \/
  fed (ws_trace (w_step clock x s)) = fed (ws_trace s) /\
    (e = ws_last s /\ (ws_flush s = true \/ ws_start s <> None) \/ ws_next s = true /\ es e = Down \/
     is_device_key (ek e) = false).
Proof.
  intros Hx Hh Hw Hex.
  assert (exists dev s', s' = fst (w_translate_input clock e dev s) /\ quietly s' (w_step clock x s)) as (dev & s' & Es & Hq).
  { destruct Hx as [-> | ->]; cbn [w_step]; rewrite Hh.
    - exists 0%Z. eexists. split; [reflexivity|]. unfold keyboard_hook. destruct (w_translate_input clock e 0 s) as [s' b].
      cbn [fst]. destruct b; [|eapply quietly_log; reflexivity]. unfold w_flush_unless_scheduled.
      destruct (ws_flush s'); [apply quietly_refl|apply flush_quiet].
    - exists 1%Z. eexists. split; [reflexivity|]. unfold mouse_hook. destruct (w_translate_input clock e 1 s) as [s' b].
      cbn [fst]. destruct b; [apply schedule_quiet|]. destruct (prevent_button_repeat e (ws_buttons s')) as [p l].
      destruct p; [apply (schedule_quiet 0 (w_buttons l s'))|eapply quietly_log; reflexivity]. }
  destruct Hq as [Hq|[Hq Hq']]; [congruence|]. rewrite Hq.
  pose proof (translate_feeds (w_reset_configuration clock None) e dev s Hw) as G. cbv zeta in G.
  change (w_translate_with clock (w_reset_configuration clock None) e dev s) with (w_translate_input clock e dev s) in G.
  rewrite <- Es in G. destruct G as [(G1 & G2 & G3)|[(G1 & G2 & G3)|G]].
  - right. tauto.
  - right. tauto.
  - destruct G as [G|(G & _)]; [congruence|]. destruct (is_device_key (ek (given_event e (ws_last s)))) eqn:Ed.
    + left. exact G.
    + right. rewrite app_nil_r in G. split; [exact G|]. right. right. unfold given_event in Ed.
      destruct (_ && _ && _); [discriminate Ed|exact Ed].
Qed.

End Run.
