(** Property C114 of the tray icon of the client, with its assumptions and a non-trivial instance
    beside each theorem. *)
From Coq Require Import String Ascii List Arith NArith ZArith Bool Lia.
From Verif Require Import Base Key Text KeyNames Match ParseSeq Stage Config MultiStage Replay StageProperties
  Serial Client ClientSpec ClientProofs ClientProperties ClientMain ClientMainSpec ClientMainProofs ClientMainProperties
  Tray TraySpec TrayProofs.
Import ListNotations.
Local Open Scope N_scope.

Definition desk_at (disk : nat -> files) (args : list string) : option desk :=
  match begin_at disk one_home args with
  | Runs a => Some (desk_start true a)
  | Exits _ => None
  end.
Definition desks (disk : nat -> files) (args : list string) (l : list dstep) : list desk :=
  match desk_at disk args with
  | Some d => d :: desk_run find_sub no_typer no_names (T "Linux") (fun _ => true) windows disk true l d
  | None => []
  end.
Definition idle_turn : dstep := DTurn (Turn true ([], true) None nothing).
Definition lost_turn : dstep := DTurn (Turn true ([], false) None nothing).
Definition look (d : desk) := (option_map (fun m => (mn_active m, mn_reload m)) (dk_menu d), really_active d).

(** ** C114 What the menu of the tray icon says *)

(** The mark of Active tells whether keymapper is active.  Missing: the icon was made anew, because
    the connection was lost or the icon was switched on, while keymapper was not active; for that it
    is false. *)
Theorem C114_active_partial : forall search typer key_name system sent focus disk available e args a l d m,
  app_main search sent focus disk e args = Runs a ->
  let d0 := desk_start available a in
  let after := desk_run search typer key_name system sent focus disk available l d0 in
  Forall made_active (moves d0 after) ->
  In d (d0 :: after) -> dk_menu d = Some m -> mn_active m = really_active d.
Proof.
  intros search typer key_name system sent focus disk available e args a l d m HM d0 after F HI HD.
  pose proof (honest_run search typer key_name system sent focus disk available l d0
    (honest_start search sent focus disk available e args a HM) F) as K.
  rewrite Forall_forall in K. destruct (K d HI) as [_ H]. apply H. exact HD.
Qed.
Print Assumptions C114_active_partial.

Definition made_activeb (x : desk * desk) : bool :=
  really_active (snd x) ||
  (match dk_menu (fst x) with Some _ => true | None => false end &&
   Nat.eqb (losses (trace_of (snd x))) (losses (trace_of (fst x)))).
Lemma made_check l : forallb made_activeb l = true -> Forall made_active l.
Proof.
  intros H. rewrite forallb_forall in H. apply Forall_forall. intros x X. specialize (H x X).
  unfold made_activeb in H. unfold made_active. destruct (really_active (snd x)); [reflexivity|].
  cbn [orb] in H. apply andb_true_iff in H. destruct H as [H1 H2]. apply Nat.eqb_eq in H2.
  intros [K|K]; [rewrite K in H1; discriminate|elim (K H2)].
Qed.
(** The connection is lost while keymapper is active, later the user deactivates it and activates
    it again. *)
Example C114_active_case :
  let l := [idle_turn; DActive; idle_turn; DActive; lost_turn; DActive; DNextKey; idle_turn] in
  Forall made_active (combine (desks two_files [] l) (tl (desks two_files [] l))) /\
  map look (desks two_files [] l) =
    [(Some (true, true), true); (Some (true, true), true); (Some (false, true), false); (Some (false, true), false);
     (Some (true, true), true); (Some (true, true), true); (Some (false, true), false); (Some (false, true), false);
     (Some (false, true), false)].
Proof.
  cbv zeta. split; [apply made_check|]; vm_compute; reflexivity.
Qed.

(** The user deactivates keymapper, then the server is started again: the mark is on although
    keymapper is not active and the server was told that no context is. *)
Theorem C114_active_refuted : exists disk l d m,
  nth_error (desks disk [] l) 2 = Some d /\ dk_menu d = Some m /\ mn_active m = true /\ really_active d = false /\
  snd (held (trace_of d)) = [].
Proof.
  exists two_files, [DActive; lost_turn]. eexists. eexists.
  split; [vm_compute; reflexivity|]. vm_compute. repeat split; reflexivity.
Qed.
Print Assumptions C114_active_refuted.

(** A click on Active changes whether keymapper is active, and nothing else does. *)
Theorem C114_click : forall search typer key_name system sent focus disk available e args a l,
  app_main search sent focus disk e args = Runs a ->
  let d0 := desk_start available a in
  let reached := d0 :: desk_run search typer key_name system sent focus disk available l d0 in
  really_active d0 = true /\
  forall s d, In d reached ->
    let d' := snd (desk_step search typer key_name system sent focus disk available s d) in
    really_active d' =
      match s, dk_menu d with DActive, Some _ => negb (really_active d) | _, _ => really_active d end.
Proof.
  intros search typer key_name system sent focus disk available e args a l HM d0 reached.
  destruct (honest_start search sent focus disk available e args a HM) as [H0 _].
  split.
  { unfold d0. pose proof (honest_start search sent focus disk true e args a HM) as [G1 _].
    unfold active_in, really_active, trace_of, desk_start in *. cbn [dk_program] in *. rewrite <- G1.
    revert HM. unfold app_main. destruct (interpret_commandline args no_settings) as [s|]; [|discriminate]. cbv zeta.
    match goal with |- context [load_config disk ?n new_client] => set (name := n) end.
    pose proof (mood_load disk name new_client) as K. destruct (load_config disk name new_client) as [ok c]. cbn [snd] in K.
    cbn [se_check se_no_tray se_verbose se_no_notify].
    destruct (se_check s); [discriminate|]. destruct (negb ok && se_no_tray s); [discriminate|].
    match goal with |- context [app_connect search sent focus ?p] => set (a0 := p) end.
    pose proof (mood_app_connect search sent focus a0) as K2. destruct (app_connect search sent focus a0) as [ok2 a1]. cbn [snd] in K2.
    destruct ok2; [|discriminate]. intros H. injection H as <-.
    unfold a0 in K2. cbn [ap_client] in K2. rewrite K in K2. unfold mood in K2. injection K2 as P Q _. exact P. }
  intros s d HI d'.
  assert (K : Forall (fun x => active_in x = really_active x) reached).
  { apply desk_inv; [|exact H0]. intros s0 x _ _ X.
    exact (proj1 (step_active search typer key_name system sent focus disk available s0 x X)). }
  rewrite Forall_forall in K.
  exact (proj2 (step_active search typer key_name system sent focus disk available s d (K d HI))).
Qed.
Print Assumptions C114_click.

(** There is an icon exactly when neither the command line nor the configuration in use asks for
    none.  Missing: switching the configuration with keymapperctl, for which it is false. *)
Theorem C114_icon_partial : forall search typer key_name system sent focus disk e args a l d,
  app_main search sent focus disk e args = Runs a -> Forall no_switch_step l ->
  let d0 := desk_start true a in
  In d (d0 :: desk_run search typer key_name system sent focus disk true l d0) ->
  exists cmd, interpret_commandline args no_settings = Some cmd /\
    (dk_menu d = None <-> se_no_tray cmd = true \/ In (T "no-tray") (options_in_use d)).
Proof.
  intros search typer key_name system sent focus disk e args a l d HM HL d0 HI.
  destruct (main_fine search sent focus disk e args a HM) as (cmd & K & S0 & F).
  exists cmd. split; [exact K|].
  pose proof (desk_inv search typer key_name system sent focus disk true
    (fun x => fine (ap_settings a) (dk_program x)) l) as F1.
  specialize (F1 (fun s x HS OK X => fine_desk search typer key_name system sent focus disk true _ s x
    (proj1 (Forall_forall _ _) HL s HS) OK X) d0 F).
  pose proof (desk_inv search typer key_name system sent focus disk true (icon_fits true) l
    (fun s x _ OK X => fits_step search typer key_name system sent focus disk true s x OK X) d0 (fits_start true a)) as F2.
  rewrite Forall_forall in F1, F2. destruct (F1 d HI) as [_ _ [_ _ _ X]]. specialize (F2 d HI). unfold icon_fits in F2.
  rewrite F2. rewrite S0 in X. cbn [se_no_tray] in X. unfold options_in_use. rewrite X.
  split; [intros [Y|Y]; [exact Y|discriminate]|intros Y; left; exact Y].
Qed.
Print Assumptions C114_icon_partial.

(** The icon is switched off in the configuration and on again. *)
Definition tray_changes (n : nat) : files :=
  match n with
  | 0%nat => read_lines ["@options update"; "A >> B"]%string []
  | 1%nat => at_times 6 6 (read_lines ["@options update no-tray"; "A >> B"]%string [])
  | _ => at_times 7 7 (read_lines ["@options update"; "A >> B"]%string [])
  end.
Example C114_icon_case :
  Forall no_switch_step [idle_turn; idle_turn] /\
  map look (desks tray_changes [] [idle_turn; idle_turn]) =
    [(Some (true, false), true); (None, true); (Some (true, false), true)] /\
  map (fun d => match dk_menu d with None => true | _ => false end) (desks two_files ["--no-tray"]%string [idle_turn]) = [true; true].
Proof.
  split; [repeat constructor; intros socket name []|]. split; vm_compute; reflexivity.
Qed.

(** The menu offers to reload the configuration exactly when it is not done automatically.
    Missing: the option is changed in the configuration, for which it is false. *)
Theorem C114_reload_partial : forall search typer key_name system sent focus disk available e args a cmd l d m (auto : Prop),
  app_main search sent focus disk e args = Runs a -> Forall no_switch_step l ->
  interpret_commandline args no_settings = Some cmd ->
  let d0 := desk_start available a in
  let reached := d0 :: desk_run search typer key_name system sent focus disk available l d0 in
  Forall (fun x => wants_update cmd (options_in_use x) <-> auto) reached ->
  In d reached -> dk_menu d = Some m -> mn_reload m = true <-> ~ auto.
Proof.
  intros search typer key_name system sent focus disk available e args a cmd l d m auto HM HL HC d0 reached HA HI HD.
  destruct (main_fine search sent focus disk e args a HM) as (cmd' & K & S0 & F). rewrite HC in K. injection K as <-.
  pose proof (desk_inv search typer key_name system sent focus disk available
    (fun x => fine (ap_settings a) (dk_program x)) l) as F1.
  specialize (F1 (fun s x HS OK X => fine_desk search typer key_name system sent focus disk available _ s x
    (proj1 (Forall_forall _ _) HL s HS) OK X) d0 F).
  fold reached in F1.
  assert (U : Forall (fun x => ap_update (dk_program x) = true <-> auto) reached).
  { rewrite Forall_forall in *. intros x X. destruct (F1 x X) as [_ _ [Y _ _ _]]. rewrite <- (HA x X). rewrite Y.
    rewrite S0. reflexivity. }
  assert (V : Forall (fun x => ap_update (dk_program x) = ap_update a) reached).
  { pose proof (Forall_inv U) as U0. rewrite Forall_forall in *. intros x X. specialize (U x X).
    unfold d0, desk_start in U0. cbn [dk_program] in U0.
    destruct (ap_update (dk_program x)), (ap_update a); try reflexivity;
      [symmetry; apply U0, U; reflexivity|apply U, U0; reflexivity]. }
  pose proof (offers_run search typer key_name system sent focus disk available (ap_update a) l d0) as O.
  assert (O0 : offers (ap_update a) d0).
  { intros m' X. unfold d0, desk_start in X. cbn [dk_menu] in X. apply options_menu_reload in X. exact X. }
  specialize (O O0 V). rewrite Forall_forall in O. rewrite (O d HI m HD).
  pose proof (Forall_inv U) as U0. unfold d0, desk_start in U0. cbn [dk_program] in U0. rewrite <- U0.
  destruct (ap_update a); cbn [negb].
  - split; [discriminate|]. intros X. elim X. reflexivity.
  - split; [intros _; discriminate|]. reflexivity.
Qed.
Print Assumptions C114_reload_partial.

Example C114_reload_case :
  map look (desks two_files [] [DReload; idle_turn]) = [(Some (true, true), true); (Some (true, true), true); (Some (true, true), true)] /\
  map look (desks two_files ["-u"]%string [idle_turn]) = [(Some (true, false), true); (Some (true, false), true)] /\
  ~ wants_update no_settings [].
Proof.
  split; [vm_compute; reflexivity|]. split; [vm_compute; reflexivity|].
  intros [(p & q & H & _)|[H _]]; [destruct p; discriminate H|discriminate H].
Qed.

(** The user adds no-update to a configuration which was updated automatically: from then on it is
    neither updated nor can it be reloaded. *)
Definition update_ends (n : nat) : files :=
  match n with
  | 0%nat => read_lines ["@options update"; "A >> B"]%string []
  | 1%nat => at_times 6 6 (read_lines ["@options no-update"; "A >> B"]%string [])
  | _ => at_times 7 7 (read_lines ["A >> X"]%string [])
  end.
Theorem C114_reload_refuted : exists disk l d m,
  nth_error (desks disk [] l) 1 = Some d /\ dk_menu d = Some m /\ mn_reload m = false /\
  ~ wants_update no_settings (options_in_use d).
Proof.
  exists update_ends, [idle_turn]. eexists. eexists.
  split; [vm_compute; reflexivity|]. split; [vm_compute; reflexivity|]. split; [vm_compute; reflexivity|].
  intros [(p & q & H & _)|[H _]]; [|discriminate H].
  vm_compute in H. destruct p as [|x p]; [discriminate H|]. injection H as _ H. destruct p; discriminate H.
Qed.
Print Assumptions C114_reload_refuted.
(** Turns and clicks on Reload do not help: the client does not get to know the change. *)
Example C114_reload_end :
  map (fun d => (options_in_use d, cl_updates (ap_client (dk_program d))))
    (desks update_ends [] [idle_turn; idle_turn; DReload; idle_turn; DReload]) =
  ([T "update"], 1%nat) :: repeat ([T "no-update"], 2%nat) 5.
Proof. vm_compute. reflexivity. Qed.
