(** Properties of the server on Windows: C98 (applications see the output in its order), C99
    (nothing stays pressed) and C100 (every key is processed once). *)
From Coq Require Import String List Arith NArith ZArith Bool Lia.
From Verif Require Import Base Key Match Stage Text ParseSeq Config MultiStage Replay.
From Verif Require Import StageSpec StageSafe StageProperties MultiSpec MultiProofs MultiProperties.
From Verif Require Import Server ServerSpec ServerProperties WinServer WinSpec WinProofs WinKeeps WinClosed.
From Verif Require MatchProofs.
Import ListNotations.
Local Open Scope N_scope.

(** A client which sends the configuration [t], and what is typed *)
Definition w_config (t : string) : message := MConfig (Some (new_multi_stage (load_multi t))).
Definition w_client (t : string) : wstep := WMessages [w_config t; Server.MContexts (all_contexts (load_multi t))].
Definition w_keys (t : string) : list wstep :=
  match events t with Some l => map WKey l | None => [] end.
Definition w_state (l : list wstep) : wserver := w_run ms_clock l init_wserver.

(** * C98 *)

(** While a client is connected, what applications see is what the engine put out, in the
    same order, as far as it does not wait in the queue; and if something waits, a timer is
    set which sends it.  Covers keys, buttons, unmapped wheels while nothing is held back,
    and configurations which are replaced while nothing waits. *)
Theorem C98_order_partial : forall clock l, fine_run clock l init_wserver ->
  let s := w_run clock l init_wserver in
  ws_exited s = false -> proper_buttons (ws_trace s) = true ->
  in_order s /\ (ws_flush s = false -> ws_buf s = []).
Proof.
  intros clock l Hl s Hx Hp. destruct (run_settled clock l init_wserver Hl (or_intror init_settled)) as [[H|H]|H].
  - subst s. congruence.
  - subst s. congruence.
  - destruct H as [[_ (_ & _ & c & Hc & Hs & _)] Hf]. split; [|exact Hf]. exists c. split; [exact Hc|exact Hs].
Qed.
Print Assumptions C98_order_partial.

(** It does not wait forever: every expiry of the timer sends at least the first event. *)
Theorem C98_drains_partial : forall clock l n, fine_run clock l init_wserver ->
  let s := w_run clock l init_wserver in
  ws_exited s = false -> proper_buttons (ws_trace s) = true -> no_virtual (ws_buf s) = true ->
  (length (ws_buf s) <= n)%nat ->
  seen (ws_trace (w_run clock (l ++ repeat WFlushExpired n) init_wserver)) =
  settle (fun _ => false) (wanted (ws_trace s)).
Proof.
  intros clock l n Hl s Hx Hp Hv Hn.
  assert (ws_sending s = false) as Hs.
  { destruct (run_settled clock l init_wserver Hl (or_intror init_settled)) as [[H|H]|H].
    - subst s. congruence.
    - subst s. congruence.
    - apply H. }
  rewrite run_app. fold s. destruct (drain_wanted clock n s Hs Hv) as (H1 & H2 & H3).
  assert (fine_run clock (l ++ repeat WFlushExpired n) init_wserver) as Hl'.
  { apply fine_app; [exact Hl|]. intros x Hx'. exact (repeat_spec _ _ _ Hx'). }
  pose proof (C98_order_partial clock _ Hl') as G. cbv zeta in G. rewrite run_app in G. fold s in G.
  rewrite H2, H3 in G. specialize (G Hx Hp). destruct G as [(c & Hc & Hseen) _].
  rewrite Hseen. rewrite (drain clock n s Hs Hv Hn) in Hc by (rewrite H2; exact Hx). cbn [flat_map] in Hc.
  rewrite app_nil_r in Hc. rewrite <- Hc, H1. reflexivity.
Qed.
Print Assumptions C98_drains_partial.

(** The AltGr key itself is never passed on by the hook, so that its events keep their place. *)
Theorem C98_altgr : forall clock e s, ws_hooked s = true -> ek e = AltRight_w ->
  exists t, ws_trace (w_step clock (WKey e) s) = t ++ ws_trace s /\ forall x, ~ In (WPassed x) t.
Proof.
  intros clock e s Hh He. destruct (altgr_step clock e s Hh He) as [(t & Ht & Hf) _]. exists t. split; [exact Ht|].
  intros x Hx. rewrite forallb_forall in Hf. specialize (Hf _ Hx). discriminate.
Qed.
Print Assumptions C98_altgr.

(** Two characters with Control in a row: the release of Control is delayed, the second
    stroke of A waits, and the unmapped B takes its place behind it. *)
Definition control_x : string := "A >> ControlLeft{X}".
Definition control_run : list wstep := w_client control_x :: w_keys "+A -A +B -B".
Example C98_control_fine : fine_run ms_clock control_run init_wserver.
Proof. vm_compute. repeat split. Qed.
Example C98_control_waits : let s := w_state control_run in
  ws_exited s = false /\ proper_buttons (ws_trace s) = true /\ no_virtual (ws_buf s) = true /\
  length (ws_buf s) = 3%nat /\ ws_flush s = true /\
  seen (ws_trace s) = [(ControlLeft, false); (45, false); (45, true)] /\
  seen (ws_trace (w_state (control_run ++ repeat WFlushExpired 3))) =
    [(ControlLeft, false); (45, false); (45, true); (ControlLeft, true); (48, false); (48, true)].
Proof. vm_compute. repeat split. Qed.
(** An unmapped wheel, a button and AltGr *)
Example C98_wheel_fine :
  let l := w_client control_x :: WMouse (Ev WheelUp Up 120) :: WMouse (ev0 ButtonLeft Down) ::
           WMouse (ev0 ButtonLeft Up) :: WKey (ev0 AltRight_w Down) :: w_keys "+B" in
  fine_run ms_clock l init_wserver /\
  seen (ws_trace (w_state l)) =
    [(WheelUp, true); (ButtonLeft, false); (ButtonLeft, true); (AltRight_w, false); (48, false)].
Proof.
  cbv zeta. split; [|vm_compute; reflexivity].
  split; [vm_compute; repeat split|]. split.
  { split; [vm_compute; reflexivity|]. right. split; [reflexivity|]. split; [reflexivity|]. split; [vm_compute; reflexivity|].
    eexists. eexists. vm_compute. reflexivity. }
  split; [split; [vm_compute; reflexivity|]; left; split; [reflexivity|]; right; reflexivity|].
  split; [split; [vm_compute; reflexivity|]; left; split; [reflexivity|]; left; reflexivity|].
  split; [split; vm_compute; reflexivity|]. split; [split; vm_compute; reflexivity|]. exact Logic.I.
Qed.

(** A wheel step is passed on before what the engine held back, which is not even sent then:
    no timer is set.  Here Control is held back as the beginning of a mapping; the application
    scrolls instead of zooming, until Control is repeated. *)
Definition held_back : string := "Control{B} >> X".
Definition wheel_run : list wstep := w_client held_back :: w_keys "+ControlLeft" ++ [WMouse (Ev WheelUp Up 120)].
Theorem C98_wheel_refuted : exists l, usual_run ms_clock l init_wserver /\
  let s := w_state l in
  ws_exited s = false /\ proper_buttons (ws_trace s) = true /\ ~ in_order s /\
  ws_flush s = false /\ ws_buf s <> [].
Proof.
  exists wheel_run. split.
  { split; [repeat constructor|]. split; [split; vm_compute; reflexivity|].
    split; [|exact Logic.I]. split; [vm_compute; reflexivity|]. right. split; reflexivity. }
  cbv zeta. split; [vm_compute; reflexivity|]. split; [vm_compute; reflexivity|].
  split; [|split; [vm_compute; reflexivity|vm_compute; discriminate]].
  intros (c & Hc & _).
  assert (wanted (ws_trace (w_state wheel_run)) = [(ControlLeft, false); (WheelUp, true)]) as E1 by (vm_compute; reflexivity).
  assert (flat_map shown (ws_buf (w_state wheel_run)) = [(ControlLeft, false)]) as E2 by (vm_compute; reflexivity).
  rewrite E1, E2 in Hc. apply (f_equal (@last stroke)) in Hc.
  assert (last (c ++ [(ControlLeft, false)]) (0, false) = (ControlLeft, false)) as E3 by apply last_last.
  apply (f_equal (fun f => f (0, false))) in Hc. rewrite E3 in Hc. cbn in Hc. discriminate Hc.
Qed.
Print Assumptions C98_wheel_refuted.

(** A configuration which arrives while releases of Control wait: the timer is forgotten, and
    the next key overtakes the release, so that applications see Control and C. *)
Definition reset_run : list wstep :=
  w_client control_x :: w_keys "+A -A +A -A" ++ WMessages [w_config held_back] :: w_keys "+C".
Theorem C98_reset_refuted : exists l, usual_run ms_clock l init_wserver /\
  let s := w_state l in
  ws_exited s = false /\ proper_buttons (ws_trace s) = true /\ ~ in_order s /\
  ws_flush s = false /\ pressed_after (seen (ws_trace s)) ControlLeft = true /\
  last (seen (ws_trace s)) (0, true) = (46, false).
Proof.
  exists reset_run. split.
  { repeat (split; [first [repeat constructor; fail | split; vm_compute; reflexivity | repeat constructor]|]). exact Logic.I. }
  cbv zeta. split; [vm_compute; reflexivity|]. split; [vm_compute; reflexivity|].
  split; [|vm_compute; repeat split].
  intros (c & Hc & _).
  assert (flat_map shown (ws_buf (w_state reset_run)) = [(ControlLeft, true)]) as E2 by (vm_compute; reflexivity).
  rewrite E2 in Hc. apply (f_equal (fun l => last l (0, false))) in Hc. rewrite last_last in Hc. vm_compute in Hc. discriminate Hc.
Qed.
Print Assumptions C98_reset_refuted.

(** * C99 *)

(** When the client disconnects, applications have seen the release of every key the engine
    holds pressed. *)
Theorem C99_closed_partial : forall clock l, fine_run clock (l ++ [WClosed]) init_wserver ->
  let s := w_run clock l init_wserver in
  let s' := w_run clock (l ++ [WClosed]) init_wserver in
  ws_exited s' = false -> proper_buttons (ws_trace s') = true -> no_virtual (ws_buf s) = true ->
  forall k, In k (m_output_keys_down (ws_stage s)) ->
  is_virtual_key k = false -> is_action_key k = false -> k <> k_timeout ->
  pressed_after (seen (ws_trace s')) k = false.
Proof.
  intros clock l Hl s s' Hx Hp Hv k Hk H1 H2 H3.
  destruct (C98_order_partial clock _ Hl Hx Hp) as [(c & Hc & Hs) _].
  change (w_run clock (l ++ [WClosed]) init_wserver) with s' in Hc, Hs. rewrite Hs.
  assert (ws_exited s = false) as Hxs.
  { destruct (ws_exited s) eqn:Ex; [|reflexivity]. unfold s' in Hx. rewrite run_app in Hx. fold s in Hx. cbn [w_run] in Hx.
    rewrite Ex in Hx. congruence. }
  assert (s' = w_step clock WClosed s) as E.
  { unfold s'. rewrite run_app. fold s. cbn [w_run]. rewrite Hxs. reflexivity. }
  assert (nothing_waits clock s) as Hn.
  { clear -Hl Hxs. subst s. revert Hl Hxs. generalize init_wserver. induction l as [|x l IH]; intros s0 Hl Hxs.
    - exact (proj1 Hl).
    - cbn [app fine_run w_run] in *. destruct (ws_exited s0) eqn:Ex; [congruence|]. apply IH; [apply Hl|exact Hxs]. }
  rewrite E in Hc. rewrite (closed_empty clock s Hn), (closed_wanted clock s Hv) in Hc. cbn [flat_map] in Hc.
  rewrite app_nil_r in Hc. rewrite <- Hc. apply settled_released; [apply shown_ups|].
  apply in_flat_map. exists (ev0 k Up). split; [exact (in_map (fun k => ev0 k Up) _ _ Hk)|]. rewrite (shown_release k H1 H2 H3). left. reflexivity.
Qed.
Print Assumptions C99_closed_partial.

(** When something may wait: only releases of Control which are not the first ones. *)
Theorem C99_nothing_waits : forall clock s, ws_sending s = false -> ws_buf s = [] ->
  ~ In k_timeout (m_output_keys_down (ws_stage s)) ->
  (forall k, In k (tl (m_output_keys_down (ws_stage s))) -> k <> ControlLeft /\ k <> ControlRight_w) ->
  ws_buf (w_step clock WClosed s) = [].
Proof. intros clock s H1 H2 H3 H4. apply closed_empty. apply nothing_waits_plain; assumption. Qed.
Print Assumptions C99_nothing_waits.

(** Without a client, every key and button goes to the applications as it is, and no virtual
    key is down any more. *)
Definition device_step (x : wstep) : option event := match x with WKey e | WMouse e => Some e | _ => None end.
Theorem C99_unhooked : forall clock s l, Forall (fun x => device_step x <> None) l ->
  let s1 := w_step clock WClosed s in
  let s2 := w_run clock l s1 in
  ws_virtual s2 = [] /\
  (ws_exited s1 = false ->
   ws_trace s2 = rev (flat_map (fun x => match device_step x with Some e => [WPassed e] | None => [] end) l) ++ ws_trace s1).
Proof.
  intros clock s l F s1 s2. subst s2.
  assert (V : ws_virtual s1 = []) by reflexivity.
  assert (H : ws_hooked s1 = false) by reflexivity.
  clearbody s1. revert s1 V H. induction l as [|x l IH]; intros s1 V H; cbn [w_run flat_map]; [auto|].
  inversion F as [|? ? X F']; subst. specialize (IH F').
  destruct (ws_exited s1) eqn:Ex; [split; [exact V|intro Q; discriminate Q]|].
  assert (G : exists e, device_step x = Some e /\ w_step clock x s1 = w_log (WPassed e) s1).
  { destruct x as [e|e| | | | |]; cbn [device_step] in *; try contradiction; exists e; cbn [w_step]; rewrite H; auto. }
  destruct G as (e & D & G). rewrite D, G. specialize (IH (w_log (WPassed e) s1) V H). destruct IH as [I1 I2].
  split; [exact I1|]. intros _. rewrite I2 by exact Ex. cbn [app rev w_log ws_trace]. rewrite <- app_assoc. reflexivity.
Qed.
Print Assumptions C99_unhooked.

Definition shift_run : list wstep := w_client "A >> ShiftLeft" :: WMouse (ev0 ButtonLeft Down) :: w_keys "+A +B".
Example C99_closed_case : fine_run ms_clock (shift_run ++ [WClosed]) init_wserver /\
  m_output_keys_down (ws_stage (w_state shift_run)) = [ButtonLeft; 42; 48] /\
  seen (ws_trace (w_state (shift_run ++ [WClosed]))) =
    [(ButtonLeft, false); (42, false); (48, false); (ButtonLeft, true); (42, true); (48, true)].
Proof.
  split; [|vm_compute; repeat split].
  split; [vm_compute; repeat split|].
  split; [split; [vm_compute; reflexivity|]; left; split; [reflexivity|]; right; reflexivity|].
  vm_compute. repeat split.
Qed.
Example C99_unhooked_case :
  let s := w_state (w_client "A >> Virtual1" :: w_keys "+A -A") in
  ws_virtual s = [first_virtual + 1] /\ ws_exited (w_step ms_clock WClosed s) = false /\
  map (fun x => match x with WPassed e => ek e | _ => 0 end)
    (firstn 2 (ws_trace (w_run ms_clock (w_keys "+A -A") (w_step ms_clock WClosed s)))) = [30; 30].
Proof. vm_compute. repeat split. Qed.

(** Leaving with the emergency exit, releases of two Control keys wait, and the second one
    and all which follows is never sent: the window with its timer is gone.  The right
    Control key, which B was mapped to, stays pressed for all applications. *)
Definition two_controls : string := "A >> ControlLeft
B >> 0xE01D
C >> X".
Theorem C99_exit_refuted : exists l, usual_run ms_clock l init_wserver /\
  let s := w_state l in
  ws_exited s = true /\ pressed_after (seen (ws_trace s)) ControlRight_w = true /\
  wanted (ws_trace s) = seen (ws_trace s) ++ flat_map shown (ws_buf s) /\
  forall more, w_run ms_clock more s = s.
Proof.
  exists (w_client two_controls :: w_keys "+C +A +B +ShiftLeft +Escape +K"). split.
  { split; [repeat constructor|]. repeat (split; [split; vm_compute; reflexivity|]). exact Logic.I. }
  cbv zeta. split; [vm_compute; reflexivity|]. split; [vm_compute; reflexivity|]. split; [vm_compute; reflexivity|].
  intros more. destruct more as [|x r]; [reflexivity|]. cbn [w_run].
  assert (ws_exited (w_state (w_client two_controls :: w_keys "+C +A +B +ShiftLeft +Escape +K")) = true) as ->
    by (vm_compute; reflexivity). reflexivity.
Qed.
Print Assumptions C99_exit_refuted.

(** A key (or button) which is held when the client connects: its release is intercepted and
    not sent, applications go on to see it pressed.  This is the Enter which starts the
    client from a terminal. *)
Definition enter : key := 28.
Theorem C99_held_refuted : exists l,
  l = WKey (ev0 enter Down) :: w_client held_back :: [WKey (ev0 enter Up)] /\
  let s := w_state l in
  ws_exited s = false /\ ws_buf s = [] /\ ws_flush s = false /\
  seen (ws_trace s) = [(enter, false)] /\ pressed_after (seen (ws_trace s)) enter = true /\
  seen (ws_trace (w_state (WMouse (ev0 ButtonLeft Down) :: w_client held_back :: [WMouse (ev0 ButtonLeft Up); WFlushExpired])))
    = [(ButtonLeft, false)].
Proof. eexists. split; [reflexivity|]. vm_compute. repeat split. Qed.
Print Assumptions C99_held_refuted.

(** * C100 *)

(** While a client is connected, every event of a key or button is given to the engine once,
    as what it is; except that it is repeated while something waits, or that the client asked
    for the next key.  (NumLock following Pause is a part of Pause.) *)
Theorem C100_once : forall clock x e s, x = WKey e \/ x = WMouse e -> ws_hooked s = true ->
  is_device_key (ek e) = true -> is_mouse_wheel (ek e) = false -> ws_exited (w_step clock x s) = false ->
  fed (ws_trace (w_step clock x s)) = fed (ws_trace s) ++ [given_event e (ws_last s)] \/
  fed (ws_trace (w_step clock x s)) = fed (ws_trace s) /\
    (e = ws_last s /\ (ws_flush s = true \/ ws_start s <> None) \/ ws_next s = true /\ es e = Down).
Proof.
  intros clock x e s Hx Hh Hd Hw Hex. destruct (device_feeds clock x e s Hx Hh Hw Hex) as [H|[H1 H2]].
  - left. exact H.
  - right. split; [exact H1|]. destruct H2 as [H2|[H2|H2]]; [tauto|tauto|congruence].
Qed.
Print Assumptions C100_once.

(** Of an event at most that event is passed on, and it is the last effect of the call. *)
Theorem C100_passed : forall clock x s,
  exists t, (forall y, ~ In (WPassed y) t) /\
    (ws_trace (w_step clock x s) = t ++ ws_trace s \/
     exists e, (x = WKey e \/ x = WMouse e) /\ ws_trace (w_step clock x s) = WPassed e :: t ++ ws_trace s).
Proof.
  intros clock x s. destruct (step_passes clock x s) as [(t & Ht & Hf) _]. exists t. split; [|exact Ht].
  intros y Hy. rewrite forallb_forall in Hf. specialize (Hf _ Hy). discriminate.
Qed.
Print Assumptions C100_passed.

(** The key pressed after the client asked for it is reported with the device of the hook
    (the first is the keyboard, the second the mouse), and has no other effect, when nothing waits to be sent. *)
Theorem C100_next : forall clock x e s d, (x = WKey e /\ d = hd_error (ws_devices s) \/ x = WMouse e /\ d = hd_error (tl (ws_devices s))) ->
  ws_hooked s = true -> ws_next s = true -> es e = Down -> is_device_key (ek e) = true -> ek e <> ButtonLeft -> e <> ws_last s ->
  ws_buf s = [] -> ws_sending s = false ->
  let s' := w_step clock x s in
  List.filter (fun y => match y with WFlushTimer _ => false | _ => true end) (ws_trace s') =
    WNextKey (ek e) d :: List.filter (fun y => match y with WFlushTimer _ => false | _ => true end) (ws_trace s) /\
  ws_next s' = false /\ ws_stage s' = ws_stage s /\ ws_buf s' = [] /\ ws_last s' = ws_last s /\ ws_start s' = ws_start s.
Proof.
  intros clock x e s d Hx Hh Hn He Hd Hb Hl Hf Hs.
  assert (T : forall v, w_translate_input clock e (Z.of_nat v) s = (w_next false (w_log (WNextKey (ek e) (nth_error (ws_devices s) v)) s), true)).
  { intro v. unfold w_translate_input, w_translate_with, w_translate_step at 1.
    destruct (event_eqb e (ws_last s)) eqn:EQ; [apply MatchProofs.event_eqb_eq in EQ; contradiction|]. cbn [andb].
    rewrite Hn, Hd, He. destruct (N.eqb_spec (ek e) ButtonLeft); [contradiction|]. cbn [andb negb kstate_eqb].
    unfold w_device_desc. destruct (Z.leb_spec 0 (Z.of_nat v)); [|lia]. rewrite Nat2Z.id. reflexivity. }
  destruct Hx as [[-> ->]|[-> ->]]; cbn [w_step]; rewrite Hh; unfold keyboard_hook, mouse_hook.
  - change 0%Z with (Z.of_nat 0). rewrite T. unfold w_flush_unless_scheduled.
    replace (nth_error (ws_devices s) 0) with (hd_error (ws_devices s)) by (destruct (ws_devices s); reflexivity).
    cbn [ws_flush w_next w_log]. destruct (ws_flush s) eqn:FL.
    + cbn. auto 10.
    + unfold w_flush_send_buffer. cbn [ws_sending w_next w_log]. rewrite Hs. cbn [w_flush_loop ws_buf w_flush w_sending w_next w_log].
      rewrite Hf. cbn. rewrite Hf. auto 10.
  - change 1%Z with (Z.of_nat 1). rewrite T.
    replace (nth_error (ws_devices s) 1) with (hd_error (tl (ws_devices s))) by (destruct (ws_devices s) as [|? [|? ?]]; reflexivity).
    unfold w_schedule_flush. cbn. destruct (ws_flush s); cbn; auto 10.
Qed.
Print Assumptions C100_next.

(** translate_input does not call itself deeper than three times. *)
Theorem C100_depth : forall clock l, ws_oof (w_run clock l init_wserver) = false.
Proof. intros clock l. rewrite run_oof. reflexivity. Qed.
Print Assumptions C100_depth.

Example C100_pause_case :
  fed (ws_trace (w_state (w_client held_back ::
    map WKey [ev0 Pause_w Down; ev0 NumLock_w Down; ev0 Pause_w Up; ev0 NumLock_w Up; ev0 NumLock_w Down]))) =
  [ev0 Pause_w Down; ev0 Pause_w Down; ev0 Pause_w Up; ev0 Pause_w Up; ev0 NumLock_w Down].
Proof. vm_compute. reflexivity. Qed.
(** Deepest recursion: a wheel step while a timeout is pending *)
Example C100_depth_case : let s := w_state (w_client "A{!500ms} >> X" :: w_keys "+A" ++ [WMouse (Ev WheelUp Up 120)]) in
  ws_oof s = false /\ fed (ws_trace s) = [ev0 30 Down; Ev WheelUp Down 120; Ev WheelUp Up 120] /\
  length (List.filter (fun x => match x with WFed _ _ _ => true | _ => false end) (ws_trace s)) = 4%nat.
Proof. vm_compute. repeat split. Qed.
Example C100_next_case : let s := w_state [w_client held_back; WDevices [Dev [1] []; Dev [2] []]; WMessages [MNextKey]] in
  ws_hooked s = true /\ ws_next s = true /\ ws_buf s = [] /\ ws_sending s = false /\ ws_last s <> ev0 30 Down /\
  ws_trace (w_step ms_clock (WKey (ev0 30 Down)) s) = WNextKey 30 (Some (Dev [1] [])) :: ws_trace s.
Proof. vm_compute. repeat split; discriminate. Qed.
