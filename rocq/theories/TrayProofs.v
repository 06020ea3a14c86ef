(** Proofs about the tray icon. *)
From Coq Require Import String Ascii List Arith NArith ZArith Bool Lia.
From Verif Require Import Base Key Text Match ParseSeq Stage Config Serial Client ClientSpec ClientMain ClientMainSpec
  ClientMainProofs Tray TraySpec.
Import ListNotations.

(** ** What changes whether the client is active *)

Definition mood (c : client) : bool * bool * nat := (cl_active c, active_of (cl_trace c), losses (cl_trace c)).
Definition no_toggle (e : ceffect) : Prop := match e with FActive _ | FLost => False | _ => True end.

Lemma mood_emit e c : no_toggle e -> mood (emit e c) = mood c.
Proof.
  intros H. unfold mood, emit, active_of, losses. cbn [cl_active cl_trace].
  rewrite fold_left_app, filter_app, app_length. cbn [fold_left List.filter].
  destruct e; try contradiction; cbn [length]; rewrite Nat.add_0_r; reflexivity.
Qed.

Section Tray.
Variable search : text -> text -> bool.
Variable typer : text -> list stroke.
Variable key_name : key -> option text.
Variable system : text.
Variable sent : nat -> bool.
Variable focus : nat -> option window.
Variable disk : nat -> files.

Lemma mood_send m c : mood (snd (send sent m c)) = mood c.
Proof.
  unfold send. cbv zeta. cbn [snd]. destruct (negb (cl_broken c) && sent (cl_sends c)); [rewrite mood_emit by exact Logic.I|]; reflexivity.
Qed.
Lemma mood_loaded n r c : mood (loaded n r c) = mood c.
Proof. destruct r; [apply mood_emit; exact Logic.I|reflexivity]. Qed.
Lemma mood_update b c : mood (snd (update_file disk b c)) = mood c.
Proof.
  unfold update_file. destruct (file_update _ b (cl_file c)) as [r f]. cbn [snd]. rewrite mood_loaded. reflexivity.
Qed.
Lemma mood_load n c : mood (snd (load_config disk n c)) = mood c.
Proof.
  unfold load_config. destruct (text_eqb (cf_name (cl_file c)) n); [apply mood_update|].
  destruct (swap_recent n (cl_file c) (cl_recent c)) as [[f l]|]; [rewrite mood_update; reflexivity|].
  destruct (file_load (disk (cl_updates c)) n) as [r f]. cbv zeta.
  destruct (match r with Some ok => ok | None => false end); cbn [snd].
  - etransitivity; [|apply (mood_loaded n r (c_updates (S (cl_updates c)) c))].
    destruct (cf_name (cl_file (loaded n r (c_updates (S (cl_updates c)) c)))); reflexivity.
  - etransitivity; [|apply (mood_loaded n r (c_updates (S (cl_updates c)) c))].
    destruct (cf_name (cl_file (loaded n r (c_updates (S (cl_updates c)) c)))); reflexivity.
Qed.
Lemma mood_contexts c : mood (snd (update_active_contexts search focus c)) = mood c.
Proof.
  unfold update_active_contexts. destruct (negb (cl_active c)); [reflexivity|]. cbv zeta.
  set (c1 := match focus (cl_focus c) with
             | Some w => emit (FWindow w) (c_window w (S (cl_focus c)) c)
             | None => c_window (cl_window c) (S (cl_focus c)) c
             end).
  assert (K : mood c1 = mood c).
  { unfold c1. destruct (focus (cl_focus c)) as [w|]; [rewrite mood_emit by exact Logic.I|]; reflexivity. }
  match goal with |- mood (snd (if ?b then _ else _)) = _ => destruct b; [exact K|] end.
  destruct (zlist_eqb _ _); exact K.
Qed.
Lemma mood_send_contexts c : mood (snd (send_active_contexts sent c)) = mood c.
Proof. apply mood_send. Qed.
Lemma mood_send_config c : mood (snd (send_config search sent focus c)) = mood c.
Proof.
  unfold send_config. pose proof (mood_send (SConfig (cl_config c)) c) as K.
  destruct (send sent (SConfig (cl_config c)) c) as [ok c1]. cbn [snd] in K.
  destruct ok; cbn [negb]; [|exact K]. cbv zeta. cbn [snd].
  set (c2 := c_contexts [] (c_aliases (cfg_aliases (cl_config c1)) c1)).
  assert (K2 : mood c2 = mood c) by (rewrite <- K; reflexivity).
  destruct (cl_active c2); [|exact K2]. rewrite mood_send_contexts, mood_contexts. exact K2.
Qed.
Lemma mood_lost c : mood (on_server_disconnected c) = (fst (mood c), S (snd (mood c))).
Proof.
  unfold on_server_disconnected, mood, emit, active_of, losses. cbn [cl_active cl_trace c_controls c_aliases c_down fst snd].
  rewrite fold_left_app, filter_app, app_length. cbn [fold_left List.filter length]. rewrite Nat.add_1_r. reflexivity.
Qed.
Lemma mood_connect c : mood (snd (connect search sent focus c)) = mood c.
Proof. unfold connect. rewrite mood_send_config. reflexivity. Qed.

Lemma mood_key_state s k c : mood (send_virtual_key_state s k c) = mood c.
Proof.
  unfold send_virtual_key_state, get_virtual_key_state, answer.
  destruct (is_virtual_key k); [destruct (nth_error _ _)|]; rewrite mood_emit by exact Logic.I; reflexivity.
Qed.
Lemma mood_notify k l : forall c, mood (snd (notify_loop k l c)) = mood c.
Proof.
  induction l as [|x r IH]; intros c; [reflexivity|]. cbn [notify_loop].
  destruct (N.eqb (ct_notify x) k).
  - cbv zeta. specialize (IH (send_virtual_key_state (ct_socket x) k c)).
    destruct (notify_loop k r _) as [r' c']. cbn [snd] in *. rewrite IH. apply mood_key_state.
  - specialize (IH c). destruct (notify_loop k r c) as [r' c']. exact IH.
Qed.
Lemma mood_reply t l : forall c, mood (snd (reply_loop t l c)) = mood c.
Proof.
  induction l as [|x r IH]; intros c; [reflexivity|]. cbn [reply_loop]. cbv zeta.
  set (c1 := if ct_info x then _ else c).
  assert (K : mood c1 = mood c).
  { unfold c1. destruct (ct_info x); [apply mood_emit; exact Logic.I|reflexivity]. }
  specialize (IH c1). destruct (reply_loop t r c1) as [[b r'] c']. cbn [snd] in *. congruence.
Qed.
Lemma mood_server m c : mood (on_server_message key_name system m c) = mood c.
Proof.
  unfold on_server_message. cbv zeta. pose proof (mood_emit (FGot m) c Logic.I) as K.
  destruct m as [i|k st|k name id].
  - destruct (Z.leb 0 i); [|exact K]. destruct (nth_error _ _); [|exact K].
    rewrite mood_emit by exact Logic.I. exact K.
  - unfold on_virtual_key_state_changed. destruct (is_virtual_key k); [|exact K]. cbv zeta.
    set (c1 := if Nat.ltb _ _ then _ else _).
    assert (K1 : mood c1 = mood c).
    { unfold c1. destruct (Nat.ltb _ _); exact K. }
    pose proof (mood_notify k (cl_controls c1) c1) as K2. destruct (notify_loop k (cl_controls c1) c1) as [l c2].
    cbn [snd] in K2. etransitivity; [|exact K1]. exact K2.
  - set (t := key_info_text _ _ _ _ _ _).
    pose proof (mood_reply t (cl_controls (emit (FGot (DNextKeyInfo k name id)) c)) (emit (FGot (DNextKeyInfo k name id)) c)) as K2.
    destruct (reply_loop t _ _) as [[b l] c2]. cbn [snd] in K2.
    destruct b; [rewrite K in K2; exact K2|]. rewrite mood_emit by exact Logic.I. rewrite K in K2. exact K2.
Qed.

Lemma mood_close l : forall c, mood (fold_left (fun c x => emit (FClosed (ct_socket x)) c) l c) = mood c.
Proof.
  induction l as [|x r IH]; intros c; [reflexivity|]. cbn [fold_left]. rewrite IH. apply mood_emit. exact Logic.I.
Qed.
Lemma mood_answer s m c : mood (answer s m c) = mood c.
Proof. apply mood_emit. exact Logic.I. Qed.
Lemma mood_asked s m c : mood (on_control_message search typer sent focus disk s m c) = mood c.
Proof.
  unfold on_control_message. cbv zeta. pose proof (mood_emit (FAsked s m) c Logic.I) as K.
  set (c1 := emit (FAsked s m) c) in *.
  destruct m as [n|n x|n|id|name| |t|t].
  - rewrite mood_key_state. exact K.
  - rewrite mood_key_state, mood_send. exact K.
  - unfold on_toggle_requested. destruct (N.eqb _ 0); [rewrite mood_key_state|]; exact K.
  - rewrite mood_key_state. unfold on_set_instance_id. destruct (get_control s (cl_controls c1)) as [x|]; [|exact K].
    destruct (text_eqb (ct_id x) id); [exact K|]. cbv zeta.
    transitivity (mood (disconnect_by_instance_id id c1)); [reflexivity|].
    unfold disconnect_by_instance_id. destruct (trivial_id id); [exact K|]. cbv zeta. rewrite mood_close. exact K.
  - pose proof (mood_load name c1) as K2. destruct (load_config disk name c1) as [ok c2]. cbn [snd] in K2.
    destruct ok.
    + pose proof (mood_send_config c2) as K3. destruct (send_config search sent focus c2) as [ok c3]. cbn [snd] in K3.
      unfold answer_bool. rewrite mood_answer. congruence.
    + unfold answer_bool. rewrite mood_answer. congruence.
  - rewrite mood_send. exact K.
  - destruct (parse_injected typer t); unfold answer_bool; rewrite mood_answer; [rewrite mood_send|]; exact K.
  - destruct (parse_injected typer t); unfold answer_bool; rewrite mood_answer; [rewrite mood_send|]; exact K.
Qed.
Lemma mood_fold {A} (f : client -> A -> client) l : (forall c x, mood (f c x) = mood c) ->
  forall c, mood (fold_left f l c) = mood c.
Proof. intros H. induction l as [|x r IH]; intros c; [reflexivity|]. cbn [fold_left]. rewrite IH. apply H. Qed.
Lemma mood_controls reads l : forall c, mood (control_loop search typer sent focus disk reads l c) = mood c.
Proof.
  induction l as [|s r IH]; intros c; [reflexivity|]. cbn [control_loop].
  destruct (get_control s (cl_controls c)); [|apply IH]. destruct (reads s) as [ms ok]. cbv zeta. rewrite IH.
  destruct ok; [|rewrite mood_emit by exact Logic.I; etransitivity; [|]];
    try (apply (mood_fold (fun c m => on_control_message search typer sent focus disk s m c)); intros; apply mood_asked).
  reflexivity.
Qed.
Lemma mood_turn t c : mood (snd (loop_turn search typer key_name system sent focus disk t c)) = mood c.
Proof.
  unfold loop_turn.
  assert (K : mood (snd (if tu_auto t then update_file disk true c else (false, c))) = mood c).
  { destruct (tu_auto t); [apply mood_update|reflexivity]. }
  destruct (if tu_auto t then update_file disk true c else (false, c)) as [ch c1]. cbn [snd] in K.
  assert (K2 : mood (snd (if ch then send_config search sent focus c1 else (true, c1))) = mood c).
  { destruct ch; [rewrite mood_send_config|]; exact K. }
  destruct (if ch then send_config search sent focus c1 else (true, c1)) as [ok c2]. cbn [snd] in K2.
  destruct ok; cbn [negb]; [|exact K2].
  pose proof (mood_contexts c2) as K3. destruct (update_active_contexts search focus c2) as [ch2 c3]. cbn [snd] in K3.
  assert (K4 : mood (snd (if ch2 then send_active_contexts sent c3 else (true, c3))) = mood c).
  { destruct ch2; [rewrite mood_send_contexts|cbn [snd]]; congruence. }
  destruct (if ch2 then send_active_contexts sent c3 else (true, c3)) as [ok2 c4]. cbn [snd] in K4.
  destruct ok2; cbn [negb]; [|exact K4]. cbv zeta.
  assert (K5 : mood (fold_left (fun c m => on_server_message key_name system m c) (fst (tu_server t)) c4) = mood c).
  { rewrite (mood_fold (fun c m => on_server_message key_name system m c)); [exact K4|]. intros; apply mood_server. }
  destruct (negb (snd (tu_server t))); [exact K5|]. cbn [snd]. unfold read_control_messages. rewrite mood_controls.
  destruct (tu_accept t); [|exact K5]. unfold accept_control. rewrite mood_emit by exact Logic.I. exact K5.
Qed.

Lemma mood_app_turn t a :
  mood (ap_client (snd (app_turn search typer key_name system sent focus disk t a))) = mood (ap_client a).
Proof.
  pose proof (app_turn_client search typer key_name system sent focus disk t a) as H.
  apply (f_equal snd) in H. cbn [snd] in H. rewrite <- H. apply mood_turn.
Qed.
Lemma mood_app_connect a : mood (ap_client (snd (app_connect search sent focus a))) = mood (ap_client a).
Proof.
  unfold app_connect. pose proof (mood_connect (ap_client a)) as K.
  destruct (connect search sent focus (ap_client a)) as [ok c]. cbn [snd] in K. destruct ok; exact K.
Qed.

(** ** A step of the desk *)

Variable available : bool.
Notation desk_step := (desk_step search typer key_name system sent focus disk available).
Notation desk_run := (desk_run search typer key_name system sent focus disk available).
Notation app_step := (app_step search typer key_name system sent focus disk).
Notation program_step := (program_step search typer key_name system sent focus disk).

Definition active_in (d : desk) : bool := cl_active (ap_client (dk_program d)).
Definition honest (d : desk) : Prop :=
  active_in d = really_active d /\ forall m, dk_menu d = Some m -> mn_active m = really_active d.

Lemma mood_parts c c' : mood c' = mood c -> cl_active c' = cl_active c /\ active_of (cl_trace c') = active_of (cl_trace c) /\
  losses (cl_trace c') = losses (cl_trace c).
Proof. unfold mood. intros H. injection H as H1 H2 H3. auto. Qed.

Lemma toggle_flips a : let a' := program_step CToggle a in
  cl_active (ap_client a') = negb (cl_active (ap_client a)) /\
  active_of (cl_trace (ap_client a')) = negb (cl_active (ap_client a)).
Proof.
  cbv zeta. unfold Tray.program_step, ClientMain.app_step, client_step, toggle_active. cbn [snd with_client ap_client]. cbv zeta.
  set (c1 := emit (FActive (negb (cl_active (ap_client a)))) (c_active (negb (cl_active (ap_client a))) (ap_client a))).
  assert (K : cl_active c1 = negb (cl_active (ap_client a)) /\ active_of (cl_trace c1) = negb (cl_active (ap_client a))).
  { unfold c1, emit, active_of. cbn [cl_active cl_trace c_active]. rewrite fold_left_app. split; reflexivity. }
  set (c2 := if cl_active c1 then snd (update_active_contexts search focus c1) else c_contexts [] c1).
  assert (M : mood c2 = mood c1).
  { unfold c2. destruct (cl_active c1); [apply mood_contexts|reflexivity]. }
  destruct (mood_parts c1 _ (eq_trans (mood_send_contexts c2) M)) as (P & Q & _). rewrite P, Q. exact K.
Qed.
Lemma other_keeps s a : s <> CToggle -> (forall t, s <> CTurn t) ->
  mood (ap_client (program_step s a)) = mood (ap_client a).
Proof.
  intros H1 H2. destruct s as [t| | |]; [elim (H2 t); reflexivity|elim H1; reflexivity| |].
  - unfold Tray.program_step, ClientMain.app_step, client_step. cbn [snd].
    change (mood (snd (send_config search sent focus (snd (update_file disk false (ap_client a))))) = mood (ap_client a)).
    rewrite mood_send_config. apply mood_update.
  - unfold Tray.program_step, ClientMain.app_step, client_step. cbn [snd with_client ap_client]. apply mood_send.
Qed.

(** A turn, as far as the mood is concerned *)
Lemma turn_mood t d :
  let d' := snd (desk_step (DTurn t) d) in
  (mood (ap_client (dk_program d')) = mood (ap_client (dk_program d)) /\
   (dk_menu d' = dk_menu d \/ dk_menu d' = options_menu available (dk_program d') (dk_menu d))) \/
  (mood (ap_client (dk_program d')) = (fst (mood (ap_client (dk_program d))), S (snd (mood (ap_client (dk_program d))))) /\
   (dk_menu d' = None \/ dk_menu d' = options_menu available (dk_program d') None)).
Proof.
  cbv zeta. unfold Tray.desk_step. unfold desk_turn.
  pose proof (mood_app_turn t (dk_program d)) as K.
  destruct (app_turn search typer key_name system sent focus disk t (dk_program d)) as [ok a1]. cbn [snd] in K.
  destruct ok; cbn [snd dk_program dk_menu].
  - left. split; [exact K|]. destruct (turn_updates search sent focus disk (dk_program d)); auto.
  - right. set (a2 := with_client (on_server_disconnected (ap_client a1)) a1).
    pose proof (mood_app_connect a2) as K2. destruct (app_connect search sent focus a2) as [ok a3]. cbn [snd dk_program dk_menu] in *.
    split; [|destruct ok; auto]. rewrite K2. unfold a2. cbn [with_client ap_client]. rewrite mood_lost, K. reflexivity.
Qed.

Lemma options_menu_active a m m' : options_menu available a m = Some m' ->
  mn_active m' = match m with Some x => mn_active x | None => true end.
Proof.
  unfold options_menu, tray_initialize. destruct (ap_tray a); [|discriminate].
  destruct m as [x|]; [intros H; injection H as <-; reflexivity|].
  destruct available; [|discriminate]. intros H; injection H as <-; reflexivity.
Qed.

Lemma honest_step s d : honest d -> made_active (d, snd (desk_step s d)) -> honest (snd (desk_step s d)).
Proof.
  intros [H1 H2] HM. unfold made_active in HM. cbn [fst snd] in HM.
  destruct s as [t| | |].
  - pose proof (turn_mood t d) as K. cbv zeta in K. set (d' := snd (desk_step (DTurn t) d)) in *.
    unfold honest, active_in, really_active, trace_of, mood in *. cbn [fst snd] in K.
    destruct K as [[K M]|[K M]]; injection K as K1 K2 K3; rewrite K1, K2 in *.
    + split; [exact H1|]. intros m HMm. destruct M as [M|M]; rewrite HMm in M.
      * apply H2. symmetry. exact M.
      * symmetry in M. apply options_menu_active in M. rewrite M.
        destruct (dk_menu d) as [x|]; [apply H2; reflexivity|]. symmetry. apply HM. left. reflexivity.
    + split; [exact H1|]. intros m HMm. destruct M as [M|M]; rewrite HMm in M; [discriminate|].
      symmetry in M. apply options_menu_active in M. rewrite M. symmetry. apply HM. right. rewrite K3. lia.
  - unfold Tray.desk_step in *. destruct (dk_menu d) as [m|] eqn:E; [|split; [exact H1|cbn [snd]; rewrite E; discriminate]].
    cbn [snd]. destruct (toggle_flips (dk_program d)) as [P Q].
    unfold honest, active_in, really_active, trace_of in *. cbn [dk_program dk_menu]. rewrite P, Q.
    split; [reflexivity|]. intros m' X. injection X as <-. cbn [mn_active]. rewrite (H2 m eq_refl), H1. reflexivity.
  - unfold Tray.desk_step in *. destruct (dk_menu d) as [m|] eqn:E; [|split; [exact H1|cbn [snd]; rewrite E; discriminate]].
    destruct (mn_reload m); cbn [snd]; [|split; [exact H1|rewrite E; exact H2]].
    assert (K := other_keeps CReload (dk_program d) ltac:(discriminate) ltac:(discriminate)).
    apply mood_parts in K. destruct K as (P & Q & _).
    unfold honest, active_in, really_active, trace_of in *. cbn [dk_program dk_menu]. rewrite P, Q.
    split; [exact H1|]. intros m' X. apply options_menu_active in X. rewrite X. apply H2. reflexivity.
  - unfold Tray.desk_step in *. destruct (dk_menu d) as [m|] eqn:E; [|split; [exact H1|cbn [snd]; rewrite E; discriminate]].
    cbn [snd].
    assert (K := other_keeps CNextKeyRequest (dk_program d) ltac:(discriminate) ltac:(discriminate)).
    apply mood_parts in K. destruct K as (P & Q & _).
    unfold honest, active_in, really_active, trace_of in *. cbn [dk_program dk_menu]. rewrite P, Q.
    split; [exact H1|]. intros m' X. apply H2. exact X.
Qed.

Lemma honest_run l : forall d, honest d -> Forall made_active (moves d (desk_run l d)) -> Forall honest (d :: desk_run l d).
Proof.
  induction l as [|s r IH]; intros d H F; [constructor; [exact H|constructor]|].
  cbn [Tray.desk_run] in *. pose proof (honest_step s d H) as K.
  destruct (desk_step s d) as [ok d']. destruct ok; [|constructor; [exact H|constructor]].
  unfold moves in F. cbn [combine] in F. inversion F as [|x y F1 F2]; subst.
  constructor; [exact H|]. apply IH; [exact (K F1)|exact F2].
Qed.

Lemma honest_start e args a : app_main search sent focus disk e args = Runs a -> honest (desk_start available a).
Proof.
  unfold app_main. destruct (interpret_commandline args no_settings) as [s|]; [|discriminate]. cbv zeta.
  match goal with |- context [load_config disk ?n new_client] => set (name := n) end.
  pose proof (mood_load name new_client) as K. destruct (load_config disk name new_client) as [ok c]. cbn [snd] in K.
  cbn [se_check se_no_tray se_verbose se_no_notify].
  destruct (se_check s); [discriminate|]. destruct (negb ok && se_no_tray s); [discriminate|].
  match goal with |- context [app_connect search sent focus ?p] => set (a0 := p) end.
  pose proof (mood_app_connect a0) as K2. destruct (app_connect search sent focus a0) as [ok2 a1]. cbn [snd] in K2.
  destruct ok2; [|discriminate]. intros H. injection H as <-.
  unfold a0 in K2. cbn [ap_client] in K2. rewrite K in K2. unfold mood in K2. injection K2 as P Q _.
  unfold honest, active_in, really_active, trace_of, desk_start. cbn [dk_program dk_menu]. rewrite P, Q.
  split; [reflexivity|]. intros m X. apply options_menu_active in X. exact X.
Qed.

(** ** Only a click changes it *)

Lemma step_active s d : active_in d = really_active d ->
  let d' := snd (desk_step s d) in
  active_in d' = really_active d' /\
  really_active d' = match s, dk_menu d with DActive, Some _ => negb (really_active d) | _, _ => really_active d end.
Proof.
  intros H. cbv zeta. destruct s as [t| | |].
  - pose proof (turn_mood t d) as K. cbv zeta in K. set (d' := snd (desk_step (DTurn t) d)) in *.
    unfold active_in, really_active, trace_of, mood in *. cbn [fst snd] in K.
    destruct K as [[K M]|[K M]]; injection K as K1 K2 K3; rewrite K1, K2; auto.
  - unfold Tray.desk_step. destruct (dk_menu d) as [m|]; [|auto]. cbn [snd]. destruct (toggle_flips (dk_program d)) as [P Q].
    unfold active_in, really_active, trace_of in *. cbn [dk_program]. rewrite P, Q, H. auto.
  - unfold Tray.desk_step. destruct (dk_menu d) as [m|]; [|auto]. destruct (mn_reload m); [|auto]. cbn [snd].
    assert (K := other_keeps CReload (dk_program d) ltac:(discriminate) ltac:(discriminate)).
    apply mood_parts in K. destruct K as (P & Q & _).
    unfold active_in, really_active, trace_of in *. cbn [dk_program]. rewrite P, Q. auto.
  - unfold Tray.desk_step. destruct (dk_menu d) as [m|]; [|auto]. cbn [snd].
    assert (K := other_keeps CNextKeyRequest (dk_program d) ltac:(discriminate) ltac:(discriminate)).
    apply mood_parts in K. destruct K as (P & Q & _).
    unfold active_in, really_active, trace_of in *. cbn [dk_program]. rewrite P, Q. auto.
Qed.

(** ** Whether there is an icon *)

Definition icon_fits (d : desk) : Prop :=
  dk_menu d = None <-> ap_tray (dk_program d) = false \/ available = false.

Lemma options_menu_fits a m : (available = false -> m = None) ->
  options_menu available a m = None <-> ap_tray a = false \/ available = false.
Proof.
  intros H. unfold options_menu, tray_initialize. destruct (ap_tray a); [|split; [intros _; left|]; reflexivity].
  destruct m as [x|].
  - split; [discriminate|]. intros [K|K]; [discriminate|]. discriminate (H K).
  - destruct available; [split; [discriminate|intros [K|K]; discriminate]|split; [intros _; right|]; reflexivity].
Qed.

Lemma turn_tray t a : turn_updates search sent focus disk a = false ->
  fst (app_turn search typer key_name system sent focus disk t a) = true ->
  ap_tray (snd (app_turn search typer key_name system sent focus disk t a)) = ap_tray a.
Proof.
  unfold turn_updates, app_turn. cbv zeta. destruct (ap_update a).
  - destruct (update_file disk true (ap_client a)) as [ch c]. destruct ch; cbn [andb].
    + destruct (send_config search sent focus c) as [ok c1]. cbn [fst]. intros ->. discriminate.
    + intros _. destruct (loop_turn _ _ _ _ _ _ _ _ _). reflexivity.
  - intros _. destruct (loop_turn _ _ _ _ _ _ _ _ _). reflexivity.
Qed.

Lemma fits_step s d : fst (desk_step s d) = true -> icon_fits d -> icon_fits (snd (desk_step s d)).
Proof.
  intros OK H. assert (N0 : available = false -> dk_menu d = None) by (intros K; apply H; right; exact K).
  unfold icon_fits in *. destruct s as [t| | |].
  - unfold Tray.desk_step, desk_turn in *. pose proof (turn_tray t (dk_program d)) as K.
    destruct (app_turn search typer key_name system sent focus disk t (dk_program d)) as [ok a1]. cbn [fst snd] in K.
    destruct ok; cbn [snd dk_menu dk_program].
    + destruct (turn_updates search sent focus disk (dk_program d)); [apply options_menu_fits; exact N0|].
      rewrite (K eq_refl eq_refl). exact H.
    + destruct (app_connect search sent focus _) as [ok a3]. cbn [fst snd dk_menu dk_program] in *. subst ok.
      apply options_menu_fits. reflexivity.
  - unfold Tray.desk_step in *. destruct (dk_menu d) as [m|] eqn:E; [|cbn [snd]; rewrite E; exact H].
    cbn [snd dk_menu dk_program]. split; [discriminate|]. intros K. apply H in K. discriminate.
  - unfold Tray.desk_step in *. destruct (dk_menu d) as [m|] eqn:E; [|cbn [snd]; rewrite E; exact H].
    destruct (mn_reload m); cbn [snd dk_menu dk_program]; [|rewrite E; exact H]. apply options_menu_fits. exact N0.
  - unfold Tray.desk_step in *. destruct (dk_menu d) as [m|] eqn:E; [|cbn [snd]; rewrite E; exact H].
    cbn [snd dk_menu dk_program]. split; [discriminate|]. intros K. apply H in K. discriminate.
Qed.
Lemma fits_start a : icon_fits (desk_start available a).
Proof. apply options_menu_fits. intros _. reflexivity. Qed.

(** ** The options in effect *)

Lemma fine_desk cmd s d : no_switch_step s -> fst (desk_step s d) = true ->
  fine cmd (dk_program d) -> fine cmd (dk_program (snd (desk_step s d))).
Proof.
  intros NS OK F.
  destruct s as [t| | |]; unfold Tray.desk_step in *.
  - pose proof (fine_step search typer key_name system sent focus disk cmd (CTurn t) (dk_program d) NS F) as K.
    unfold desk_turn in *. unfold ClientMain.app_step in K.
    destruct (app_turn search typer key_name system sent focus disk t (dk_program d)) as [ok a1].
    destruct ok; [exact (K eq_refl)|].
    destruct (app_connect search sent focus _) as [ok a3]. cbn [fst snd dk_program] in *. exact (K OK).
  - destruct (dk_menu d); [|exact F].
    exact (fine_step search typer key_name system sent focus disk cmd CToggle (dk_program d) Logic.I F eq_refl).
  - destruct (dk_menu d) as [m|]; [|exact F]. destruct (mn_reload m); [|exact F].
    exact (fine_step search typer key_name system sent focus disk cmd CReload (dk_program d) Logic.I F eq_refl).
  - destruct (dk_menu d); [|exact F].
    exact (fine_step search typer key_name system sent focus disk cmd CNextKeyRequest (dk_program d) Logic.I F eq_refl).
Qed.

Lemma desk_inv (P : desk -> Prop) l : (forall s d, In s l -> fst (desk_step s d) = true -> P d -> P (snd (desk_step s d))) ->
  forall d, P d -> Forall P (d :: desk_run l d).
Proof.
  induction l as [|s r IH]; intros H d HP; [constructor; [exact HP|constructor]|].
  cbn [Tray.desk_run]. pose proof (H s d (or_introl eq_refl)) as K. destruct (desk_step s d) as [ok d'].
  destruct ok; [|constructor; [exact HP|constructor]].
  constructor; [exact HP|]. apply IH; [intros s' d0 X; apply H; right; exact X|exact (K eq_refl HP)].
Qed.

(** ** Reload *)

Lemma options_menu_reload a m m' : options_menu available a m = Some m' ->
  mn_reload m' = match m with Some x => mn_reload x | None => negb (ap_update a) end.
Proof.
  unfold options_menu, tray_initialize. destruct (ap_tray a); [|discriminate].
  destruct m as [x|]; [intros H; injection H as <-; reflexivity|].
  destruct available; [|discriminate]. intros H; injection H as <-; reflexivity.
Qed.
Definition offers (u : bool) (d : desk) : Prop := forall m, dk_menu d = Some m -> mn_reload m = negb u.
Lemma offers_step u s d : ap_update (dk_program (snd (desk_step s d))) = u -> offers u d -> offers u (snd (desk_step s d)).
Proof.
  intros HU H m HM. unfold offers in H. destruct s as [t| | |].
  - pose proof (turn_mood t d) as K. cbv zeta in K. set (d' := snd (desk_step (DTurn t) d)) in *.
    destruct K as [[_ [M|M]]|[_ [M|M]]]; rewrite M in HM.
    + apply H. exact HM.
    + apply options_menu_reload in HM. rewrite HM. destruct (dk_menu d) as [x|]; [apply H; reflexivity|congruence].
    + discriminate.
    + apply options_menu_reload in HM. congruence.
  - unfold Tray.desk_step in *. destruct (dk_menu d) as [x|] eqn:E; [|cbn [snd] in HM; congruence].
    cbn [snd dk_menu] in HM. injection HM as <-. cbn [mn_reload]. apply H. reflexivity.
  - unfold Tray.desk_step in *. destruct (dk_menu d) as [x|] eqn:E; [|cbn [snd] in HM; congruence].
    destruct (mn_reload x) eqn:R; cbn [snd dk_menu dk_program] in *.
    + apply options_menu_reload in HM. rewrite HM. apply H. reflexivity.
    + rewrite E in HM. injection HM as <-. apply H. reflexivity.
  - unfold Tray.desk_step in *. destruct (dk_menu d) as [x|] eqn:E; [|cbn [snd] in HM; congruence].
    cbn [snd dk_menu] in HM. injection HM as <-. apply H. reflexivity.
Qed.
Lemma offers_run u l : forall d, offers u d -> Forall (fun x => ap_update (dk_program x) = u) (d :: desk_run l d) ->
  Forall (offers u) (d :: desk_run l d).
Proof.
  induction l as [|s r IH]; intros d H F; [constructor; [exact H|constructor]|].
  cbn [Tray.desk_run] in *. pose proof (offers_step u s d) as K.
  destruct (desk_step s d) as [ok d']. destruct ok; [|constructor; [exact H|constructor]].
  inversion F as [|x y F1 F2]; subst x y. constructor; [exact H|]. apply IH; [|exact F2].
  apply K; [|exact H]. exact (Forall_inv F2).
Qed.
End Tray.
