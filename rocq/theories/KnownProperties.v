(** C123: the server knows the devices it reads from, with assumptions and a non-trivial
    instance beside each theorem. *)
From Coq Require Import String Ascii List Arith NArith ZArith Bool Lia SpecFloat.
From Verif Require Import Base Key Text ParseSeq Match Stage StageProperties MultiStage MultiProperties.
From Verif Require Import Server ServerLoop ServerSpec ServerProofs ServerLift ServerInput ServerProperties.
From Verif Require Import Config Client ClientSpec ClientProofs ClientProperties Device Grab GrabSpec GrabProofs GrabRun GrabAlign GrabProperties.
From Verif Require Import Session SessionSpec SessionProofs SessionRun SessionProperties.
Import ListNotations.
Local Open Scope nat_scope.

(** * What is expected *)

(** What is known of a device [g] which was opened, when [w] are the devices there are: the
    bytes of its name, unless it is gone; and the identifier of what has its number. *)
Definition bytes (t : text) : list N := map N_of_ascii t.
Definition known_among (w : list node) (d : device_desc) (g : gdevice) : Prop :=
  ((exists n, In n w /\ n_dev n = n_dev (gd_node g)) -> dev_name d = bytes (n_name (gd_node g))) /\
  ((forall n, In n w -> n_dev n <> n_dev (gd_node g)) -> dev_name d = []) /\
  ((exists n, In n w /\ n_event n = gd_event g /\ dev_id d = bytes (n_link n)) \/
   (forall n, In n w -> n_event n <> gd_event g) /\ dev_id d = []).

(** * No step of the server besides [SDevices] changes the devices it knows *)

Definition same_devices (s s' : server) : Prop := sv_devices s' = sv_devices s.
Lemma same_trans a b c : same_devices a b -> same_devices b c -> same_devices a c.
Proof. unfold same_devices. congruence. Qed.
Lemma same_refl s : same_devices s s.
Proof. reflexivity. Qed.
Lemma same_pushes l : forall s, same_devices s (send_key_sequence l s).
Proof.
  induction l as [|e l IH]; intros s; [reflexivity|]. unfold send_key_sequence in *. cbn [fold_left].
  eapply same_trans; [|apply IH]. reflexivity.
Qed.
Notation "a ;; b" := (same_trans _ _ _ a b) (at level 60, right associativity).

Section Same.
Variable clock : nat -> Z.
Variable send_ok : nat -> bool.
Lemma same_feed e dev s : same_devices s (feed clock e dev s).
Proof.
  unfold feed. destruct (m_update e dev (sv_stage s)) as [m out].
  destruct (back out) as [r|]; [destruct (N.eqb (ek r) k_timeout)|];
    (eapply same_trans; [|eapply same_trans; [apply same_pushes|reflexivity]]); reflexivity.
Qed.
Lemma same_core reset : (forall s, same_devices s (reset s)) -> forall e dev s,
  same_devices s (fst (translate_core clock reset e dev s)).
Proof.
  intros Hr e dev s. rewrite core_cases. set (s0 := if N.eqb _ _ then s else _).
  assert (H0 : same_devices s s0) by (unfold s0; destruct (N.eqb _ _); reflexivity).
  eapply same_trans; [exact H0|]. destruct (m_should_exit _); cbn [fst]; [|apply same_feed].
  eapply same_trans; [|eapply same_trans; [apply Hr|reflexivity]]. reflexivity.
Qed.
Lemma same_translate reset : (forall s, same_devices s (reset s)) -> forall fuel e dev s,
  same_devices s (fst (translate_with clock reset fuel e dev s)).
Proof.
  intros Hr. induction fuel as [|fuel IH]; intros e dev s; cbn [translate_with fst]; [reflexivity|].
  destruct (event_eqb e (sv_last s) && _); [apply same_refl|].
  destruct (sv_next s && _ && _ && _) eqn:En; [reflexivity|].
  eapply same_trans; [|apply same_core; exact Hr].
  set (s1 := match sv_start s with Some _ => _ | None => _ end).
  assert (H1 : same_devices s s1).
  { unfold s1. destruct (sv_start s) as [t|]; [|apply same_refl]. destruct (_ || _); [|apply same_refl].
    eapply same_trans; [|apply IH]. reflexivity. }
  destruct (is_mouse_wheel (ek e) && kstate_eqb (es e) Up); [|exact H1]. eapply same_trans; [exact H1|apply IH].
Qed.
Lemma same_schedule v s : same_devices s (schedule_flush clock v s).
Proof. unfold schedule_flush. destruct (sv_flush s); reflexivity. Qed.
Lemma same_release s : same_devices s (release_all_keys s).
Proof. apply same_pushes. Qed.
Lemma same_set_virtual : forall translate k st s,
  (forall st s, same_devices s (fst (translate (ev0 k st) any_device s))) ->
  same_devices s (set_virtual_with translate k st s).
Proof.
  intros translate k st s Ht. unfold set_virtual_with. cbn zeta.
  assert (H : forall st' l, same_devices s ((fun s : server => if is_virtual_key k then log (EVirtual k st') s else s)
         (fst (translate (ev0 k st') any_device (put_virtual l s))))).
  { intros st' l. cbv beta. eapply same_trans; [|destruct (is_virtual_key k); [|apply same_refl]; reflexivity].
    eapply same_trans; [|apply Ht]. reflexivity. }
  destruct (find_index _ _); (destruct (negb _); [apply H; auto|apply same_refl]).
Qed.
Lemma same_toggle k s : same_devices s (toggle_virtual_key clock k s).
Proof.
  apply same_set_virtual. intros st s0. apply same_translate. intro s1. eapply same_trans; [apply same_release|reflexivity].
Qed.
Lemma same_scan : forall left again, (left <> 0%nat -> forall i s, same_devices s (fst (fst (again i s)))) ->
  forall rest i s, same_devices s (fst (fst (scan clock send_ok left again rest i s))).
Proof.
  intros left again Hag. induction rest as [|e r IH]; intros i s; cbn [scan]; [apply same_refl|].
  destruct (is_mouse_wheel (ek e) && kstate_eqb (es e) Down); [apply IH|].
  destruct (is_action_key (ek e)).
  { destruct (kstate_eqb (es e) Down); [|apply IH]. eapply same_trans; [|apply IH]. reflexivity. }
  destruct (is_virtual_key (ek e)) eqn:V.
  { destruct (kstate_eqb (es e) Down); [|apply IH]. destruct left as [|left]; [apply IH|].
    eapply same_trans; [apply same_toggle|apply Hag; discriminate]. }
  destruct (N.eqb (ek e) k_timeout); [apply same_schedule|].
  destruct (send_ok (sv_sends s)); [eapply same_trans; [|apply IH]; reflexivity|reflexivity].
Qed.
Lemma same_loop : forall left i s, same_devices s (fst (fst (flush_loop clock send_ok left i s))).
Proof.
  induction left as [|left IH]; intros i s; rewrite flush_loop_scan; apply same_scan; [intros H; contradiction|].
  intros _. exact IH.
Qed.
Lemma same_flush s : same_devices s (fst (flush_send_buffer clock send_ok s)).
Proof.
  unfold flush_send_buffer. destruct (sv_sending s); [apply same_refl|].
  pose proof (same_loop 9 0 (put_flush None (put_sending true s))) as H.
  destruct (flush_loop _ _ _ _ _) as [[s' i] b]. exact H.
Qed.
Lemma same_flush_unless s : same_devices s (flush_unless_scheduled clock send_ok s).
Proof. unfold flush_unless_scheduled. destruct (sv_flush s); [apply same_refl|apply same_flush]. Qed.
Lemma same_contexts l s : same_devices s (set_active_contexts clock send_ok l s).
Proof.
  unfold set_active_contexts. destruct (m_set_active_client_contexts l (sv_stage s)) as [m out].
  eapply same_trans; [|apply same_flush_unless]. exact (same_pushes out (put_stage m s)).
Qed.
Lemma same_filters_ s : same_devices s (evaluate_filters clock send_ok s).
Proof. unfold evaluate_filters. destruct (_ || _); [apply same_refl|]. eapply same_trans; [|apply same_contexts]. reflexivity. Qed.
Lemma same_reset m s : same_devices s (reset_configuration clock send_ok m s).
Proof.
  unfold reset_configuration. eapply same_trans; [|apply same_filters_].
  eapply same_trans; [apply same_release|]. eapply same_trans; [apply same_flush|reflexivity].
Qed.
Lemma same_input e dev s : same_devices s (fst (translate_input clock send_ok e dev s)).
Proof. apply same_translate. intro. apply same_reset. Qed.
Lemma same_inject : forall l s, same_devices s (inject_input clock send_ok l s).
Proof.
  induction l as [|e l IH]; intros s; cbn [inject_input]; [apply same_refl|]. eapply same_trans; [|apply IH].
  destruct (_ && _); [|apply same_refl]. pose proof (same_input e no_device s) as H.
  destruct (translate_input clock send_ok e no_device s) as [s' [|]]; exact H.
Qed.
Lemma same_step x s : (forall ds, x <> SDevices ds) -> same_devices s (server_step clock send_ok x s).
Proof.
  intro N0. destruct x as [e dev| | |ds|[[m|]|l|k st|f| |l|l]| ]; cbn [server_step on_message].
  - apply same_input.
  - destruct (sv_start s); [|apply same_refl]. cbn zeta. eapply same_trans; [|apply same_input]. reflexivity.
  - apply same_flush.
  - now destruct (N0 ds).
  - apply same_reset.
  - apply same_refl.
  - apply same_contexts.
  - eapply same_trans; [|apply same_flush_unless]. apply same_set_virtual. intros. apply same_input.
  - reflexivity.
  - reflexivity.
  - eapply same_trans; [apply same_inject|apply same_schedule].
  - eapply same_trans; [apply same_pushes|apply same_schedule].
  - apply same_reset.
Qed.
Lemma devices_step ds s : sv_devices (server_step clock send_ok (SDevices ds) s) = ds.
Proof. exact (same_filters_ (put_devices ds s)). Qed.
Lemma same_turn t s : same_devices s (turn_input clock send_ok t s).
Proof.
  unfold turn_input. cbn zeta. set (s1 := match t_input t with IKey e dev => _ | _ => s end).
  assert (H : same_devices s s1).
  { unfold s1. destruct (t_input t) as [|e dev|]; try apply same_refl.
    destruct (N.eqb _ _); [apply same_refl|apply same_step; discriminate]. }
  destruct (timeout_due _ _); [|exact H]. eapply same_trans; [exact H|apply same_step; discriminate].
Qed.
End Same.

(** * Sessions *)

Section Run.
Variable search : text -> text -> bool.
Variable held_keys : nat -> nat -> nat -> option (list N).
Variable monitor_ok : bool.
Variable write_ok create_ok : nat -> nat -> bool.
Variable keyboard_ok : nat -> bool.
Variable clock : nat -> Z.
Variable send_ok : nat -> bool.

Lemma described_known w g : known_among w (desc_of (describe w g)) g.
Proof.
  unfold known_among, describe, desc_of. cbn [gx_name gx_id dev_name dev_id]. split; [|split].
  - intros (n & N1 & N2). replace (alive w (gd_node g)) with true; [reflexivity|]. symmetry. apply existsb_exists.
    exists n. split; [exact N1|]. now apply Nat.eqb_eq.
  - intros N. replace (alive w (gd_node g)) with false; [reflexivity|]. symmetry. apply not_true_is_false. intro A.
    apply existsb_exists in A. destruct A as (n & N1 & N2). apply Nat.eqb_eq in N2. exact (N n N1 N2).
  - unfold get_device_input_id. destruct (find _ w) as [n|] eqn:F.
    + left. apply find_some in F. destruct F as [F1 F2]. apply Z.eqb_eq in F2. exists n. repeat split; assumption.
    + right. split; [|reflexivity]. intros n N1 N2. eapply find_none in F; [|exact N1]. apply Z.eqb_neq in F. contradiction.
Qed.
Lemma describe_all w l : Forall2 (known_among w) (map desc_of (map (describe w) l)) l.
Proof. induction l as [|g l IH]; constructor; [apply described_known|exact IH]. Qed.

Lemma scan_monitor hk w s : gs_monitor (update_scan search hk w s) = gs_monitor s.
Proof.
  unfold update_scan. set (s0 := put_gdevices _ s). change (gs_monitor s) with (gs_monitor s0). clearbody s0.
  assert (F : gs_monitor (fold_left (fun s n => scan_entry search hk n s) w s0) = gs_monitor s0).
  { revert s0. induction w as [|n w IH]; intro s0; [reflexivity|]. cbn [fold_left]. rewrite IH. unfold scan_entry.
    destruct (n_opens n); [|reflexivity]. destruct (_ && _); [|reflexivity]. destruct (selected _ _ _); [|reflexivity].
    destruct (existsb _ _); [reflexivity|]. unfold grab_device. destruct (n_grabs n); reflexivity. }
  set (s1 := fold_left _ w s0) in *. clearbody s1. destruct (ungrab_loop_settings hk (gs_devices s1) [] s1) as (_ & _ & M & _).
  destruct (ungrab_loop hk (gs_devices s1) [] s1) as [kept s2]. cbn [snd] in M. cbn [put_descs put_gdevices gs_monitor]. congruence.
Qed.

(** The descriptions are of the devices which are open, as of when they were last updated. *)
Definition told (y : dsys) : Prop := exists w, ds_server y = map (describe w) (gs_devices (ds_grab y)) /\
  (monitor_ok = true -> gs_monitor (ds_grab y) = true /\ (ds_pending y = false -> w = ds_world y)).
Lemma told_updated co y :
  gs_descs (ds_grab y) = map (describe (ds_world y)) (gs_devices (ds_grab y)) -> gs_monitor (ds_grab y) = monitor_ok ->
  ds_over (devices_updated co y) = false -> told (devices_updated co y).
Proof.
  intros D M. unfold devices_updated. destruct (update_forward_devices _ _ _) as [v [|]]; [|discriminate]. intros _.
  exists (ds_world y). cbn [ds_server ds_grab ds_world]. split; [exact D|]. intro T. split; [congruence|reflexivity].
Qed.
Lemma told_session hk co w mice filters during : let y := session search hk monitor_ok co w mice filters during in
  ds_over y = false -> told y.
Proof.
  cbv zeta. unfold session. apply told_updated; [apply scan_descs|]. cbn [put_grab ds_grab]. rewrite scan_monitor.
  destruct during; reflexivity.
Qed.
Lemma told_update hk co during y : told y -> let y' := update_devices search hk monitor_ok co during y in ds_over y' = false -> told y'.
Proof.
  intros T. cbv zeta. unfold update_devices. destruct (gs_changed _); [|intros _; exact T].
  apply told_updated; [apply scan_descs|]. cbn [put_grab ds_grab put_changed gs_monitor]. rewrite scan_monitor. destruct during; reflexivity.
Qed.
Lemma told_world w y : told y -> told (world_changes w y).
Proof.
  intros (v & A & B). exists v. split; [exact A|]. intro M. destruct (B M) as [B1 B2]. split; [exact B1|].
  cbn [world_changes ds_pending]. congruence.
Qed.

Definition knows_as (s : server) (y : dsys) : Prop := sv_devices s = descs_of y /\ told y.
Definition knows (u : usys) : Prop := knows_as (us_server u) (us_dev u).

Lemma message_same send m u : us_dev (on_umessage clock send m u) = us_dev u /\
  sv_devices (us_server (on_umessage clock send m u)) = sv_devices (us_server u).
Proof.
  destruct m as [f st|m]; [split; [reflexivity|apply same_step; discriminate]|].
  destruct m; cbn [on_umessage]; split; try reflexivity; apply same_step; discriminate.
Qed.
Lemma messages_same send l : forall u, us_dev (on_umessages clock send l u) = us_dev u /\
  sv_devices (us_server (on_umessages clock send l u)) = sv_devices (us_server u).
Proof.
  induction l as [|m l IH]; intros u; [split; reflexivity|].
  change (on_umessages clock send (m :: l) u) with (on_umessages clock send l (on_umessage clock send m (put_reads (us_read u ++ [m]) u))).
  destruct (IH (on_umessage clock send m (put_reads (us_read u ++ [m]) u))) as [A B].
  destruct (message_same send m (put_reads (us_read u ++ [m]) u)) as [C D]. rewrite A, B, C, D. split; reflexivity.
Qed.

Notation rest := (turn_rest search held_keys monitor_ok create_ok clock send_ok).
Lemma rest_knows t i y u : knows_as (us_server u) y -> snd (rest t i y u) = None -> knows (fst (rest t i y u)).
Proof.
  intros K. unfold turn_rest.
  set (s := turn_input clock send_ok _ (us_server u)).
  assert (K1 : sv_devices s = sv_devices (us_server u)) by apply same_turn.
  set (f := if flush_due (ut_now t) s then flush_send_buffer clock send_ok s else (s, true)).
  assert (K2 : sv_devices (fst f) = sv_devices s) by (unfold f; destruct (flush_due _ _); [apply same_flush|reflexivity]).
  destruct f as [s2 ok]. cbn [fst] in K2. destruct ok; cbn [negb]; [|discriminate].
  set (y' := update_devices _ _ _ _ _ y).
  destruct (ds_over y') eqn:Ov; [discriminate|].
  assert (T : told y') by (exact (told_update _ _ _ y (proj2 K) Ov)).
  set (u1 := if gs_changed (ds_grab y) then _ else _).
  assert (U1 : knows u1).
  { unfold u1. destruct (gs_changed (ds_grab y)) eqn:G; (split; [|exact T]); cbn [put_server put_dev us_server us_dev].
    - apply devices_step.
    - unfold y', update_devices. rewrite G, K2, K1. exact (proj1 K). }
  destruct (messages_same send_ok (ut_messages t) u1) as [A B].
  assert (U2 : knows (on_umessages clock send_ok (ut_messages t) u1)) by (unfold knows, knows_as; rewrite A, B; exact U1).
  set (u2 := on_umessages clock send_ok (ut_messages t) u1) in *.
  destruct (negb (ut_ok t)); [discriminate|]. destruct (us_changed u2); [discriminate|]. destruct (negb (has_configuration (us_server u2))); [discriminate|].
  destruct (m_should_exit _); [discriminate|]. intros _. exact U2.
Qed.

Notation ustep_ := (ustep search held_keys monitor_ok write_ok create_ok keyboard_ok clock send_ok).
Definition fine (u : usys) : Prop := us_phase u = PLoop -> knows u.
Lemma next_fine u : fine (next_connection u).
Proof. unfold fine, next_connection. cbn [put_phase us_phase]. destruct (shutdown u); discriminate. Qed.
Lemma start_fine during u : fine (start_session search held_keys monitor_ok create_ok keyboard_ok clock send_ok during u).
Proof.
  unfold start_session. destruct (negb (keyboard_ok _)); [discriminate|]. cbv zeta.
  set (y := session _ _ _ _ _ _ _ _). destruct (ds_over y) eqn:Ov; [discriminate|]. intros _. split; [apply devices_step|].
  exact (told_session _ _ _ _ _ _ Ov).
Qed.
Lemma initial_fine during u : fine (read_initial search held_keys monitor_ok create_ok keyboard_ok clock send_ok during u).
Proof. unfold read_initial. destruct (has_configuration _); [apply start_fine|discriminate]. Qed.

Lemma turn_knows t u : knows u -> let r := main_turn search held_keys monitor_ok write_ok create_ok clock send_ok t u in
  snd r = None -> knows (fst r).
Proof.
  intros K. unfold main_turn. cbv zeta. destruct (shutdown u); [discriminate|].
  match goal with |- context [read_input_event ?r ?g] => destruct (read_state r g) as (b & B); destruct (read_input_event r g) as [result g'] end.
  cbn [snd] in B. subst g'. destruct result as [| | i e|]; try discriminate.
  - apply rest_knows. exact K.
  - destruct (to_key_event e) as [k|]; [|intros _; exact K].
    destruct (N.eqb (ek k) k_none); apply rest_knows; exact K.
Qed.

Lemma world_fine w u : fine u -> fine (put_dev (world_changes w (us_dev u)) u).
Proof. intros F Ph. destruct (F Ph) as [A B]. split; [exact A|]. now apply told_world. Qed.
Lemma step_fine x u : fine u -> fine (ustep_ x u).
Proof.
  intros F. unfold ustep. destruct x as [a|l ok during|t| |w]; destruct (us_phase u) eqn:P; try exact F;
    try (intro; discriminate).
  - destruct a as [during| |]; [apply initial_fine|exact F|discriminate].
  - destruct ok; [apply initial_fine|apply next_fine].
  - pose proof (turn_knows t u (F P)) as H. cbv zeta in H. destruct (main_turn _ _ _ _ _ _ _ t u) as [u' [r|]]; [apply next_fine|].
    intros _. exact (H eq_refl).
  - now apply world_fine.
  - now apply world_fine.
  - now apply world_fine.
  - now apply world_fine.
Qed.
Lemma run_fine l : forall u, fine u -> fine (urun search held_keys monitor_ok write_ok create_ok keyboard_ok clock send_ok l u).
Proof. induction l as [|x l IH]; intros u F; [exact F|]. apply IH, step_fine, F. Qed.
End Run.

(** * The theorem *)

(** Whatever clients send and devices do: while the server forwards keys it knows each device
    which is open, under the number with which it reports its keys, as of some time; when
    devices can be watched and no change is left to be read, as they are. *)
Theorem C123_known : forall search held_keys monitor_ok write_ok create_ok keyboard_ok clock send_ok w0 l,
  let u := urun search held_keys monitor_ok write_ok create_ok keyboard_ok clock send_ok l (init_usys monitor_ok w0) in
  us_phase u = PLoop ->
  exists w, Forall2 (known_among w) (sv_devices (us_server u)) (gs_devices (ds_grab (us_dev u))) /\
    (monitor_ok = true -> ds_pending (us_dev u) = false -> w = ds_world (us_dev u)).
Proof.
  intros search hk mo wo co ko clock send w0 l u Ph.
  assert (F : fine mo u) by (apply run_fine; discriminate). destruct (F Ph) as [A (w & B & C)]. exists w. split.
  - rewrite A. unfold descs_of. rewrite B. apply describe_all.
  - intros M P. destruct (C M) as [_ D]. now apply D.
Qed.
Print Assumptions C123_known.

(** A keyboard is unplugged and a mouse plugged in: the power button gets another number. *)
Example C123_case :
  let w0 := [a_keyboard 0 0; a_button 2 2] in
  let w1 := [a_button 2 2; a_mouse 3 3] in
  let l := [XAccept (AClient None); XRead [sends_to "ButtonLeft >> B" []] true None] in
  let u := play l (init_usys true w0) in
  let v := play (l ++ [XWorld w1; tick]) (init_usys true w0) in
  us_phase u = PLoop /\ map dev_name (sv_devices (us_server u)) = [bytes (T "Keyboard"); bytes (T "Power Button")] /\
  us_phase v = PLoop /\ ds_pending (us_dev v) = false /\
  map dev_name (sv_devices (us_server v)) = [bytes (T "Power Button"); bytes (T "Mouse")] /\
  map dev_id (sv_devices (us_server v)) = [[]; bytes (T "usb-mouse")].
Proof. vm_compute. repeat split; reflexivity. Qed.
