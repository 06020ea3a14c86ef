(** Property C46 of the terminal commands which are run, with its assumptions and a
    non-trivial case. *)
From Coq Require Import String List Arith NArith ZArith Bool Lia.
From Verif Require Import Base Key Text Stage Config MultiStage Replay MultiProperties Server ServerSpec ServerProperties
  StageProperties ConfigProperties CommandSpec CommandProofs.
Import ListNotations.
Local Open Scope nat_scope.

(** The client loads and sends a configuration text; keys are typed. *)
Definition switch_to (t : string) : ystep := YSwitch (new_multi_stage (load_multi t)) (cfg_actions (config_of t)).
Definition with_contexts (t : string) : ystep := YServer (activate t).
Definition keys_typed (t : string) : list ystep := map YServer (ServerProperties.typed t ++ [SFlush]).
Definition after_all (l : list ystep) : system := system_run ms_clock sends l start_system.

(** ** C46 A triggered terminal command is the one of its mapping *)

(** When nothing triggered waits while a configuration is on its way to the server, the
    commands which were run are those the mappings named, in this order; what is missing
    are those which are still on their way or in the queue. *)
Theorem C46_partial : forall clock send_ok l, Forall server_only l -> orderly clock send_ok l ->
  let y := system_run clock send_ok l start_system in
  y_named y = y_run y ++ commands (y_held y) (y_down y ++ triggers (sv_buf (y_server y))).
Proof. intros clock send_ok l _ H. exact (orderly_named clock send_ok l H). Qed.
Print Assumptions C46_partial.

Definition settledb (y : system) : bool :=
  match y_down y with [] => true | _ => false end && match triggers (sv_buf (y_server y)) with [] => true | _ => false end
  && forallb (fun e => negb (is_virtual_key (ek e) && kstate_eqb (es e) Down)) (sv_buf (y_server y)).
Definition orderlyb (l : list ystep) : bool :=
  forallb (fun n => let y := after_all (firstn n l) in match y_up y with [] => true | _ => settledb y end) (seq 0 (S (length l))).
Lemma orderlyb_ok l : orderlyb l = true -> orderly ms_clock sends l.
Proof.
  intros H a b E. cbn zeta. unfold orderlyb in H. rewrite forallb_forall in H. specialize (H (length a)).
  assert (L : In (length a) (seq 0 (S (length l)))) by (apply List.in_seq; rewrite E, app_length; lia).
  specialize (H L). rewrite E in H. rewrite firstn_app, firstn_all, Nat.sub_diag in H. cbn [firstn] in H. rewrite app_nil_r in H.
  cbv zeta in H. unfold after_all in H. destruct (y_up (system_run ms_clock sends a start_system)); [now left|]. right.
  unfold settledb in H. apply andb_true_iff in H. destruct H as [H H3]. apply andb_true_iff in H. destruct H as [H1 H2].
  split; [|split].
  - now destruct (y_down _).
  - now destruct (triggers _).
  - apply Forall_forall. intros e He. rewrite forallb_forall in H3. specialize (H3 e He). now apply negb_true_iff in H3.
Qed.

Definition first_file : string := lines ["A >> $(ls)"; "B >> X 500ms $(pwd)"]%string.
Definition second_file : string := lines ["C >> $(reboot)"; "A >> $(date)"]%string.
(** Commands of two configurations, one after a delay; the last one is still in the queue. *)
Example C46_case :
  let l := [switch_to first_file; YReceive; with_contexts first_file] ++ keys_typed "+A -A" ++ [YRun] ++
           [switch_to second_file; YReceive; with_contexts second_file] ++ keys_typed "+A -A +C -C" ++ [YRun; YRun] ++
           [switch_to first_file; YReceive; with_contexts first_file] ++ keys_typed "+B" in
  Forall server_only l /\ orderly ms_clock sends l /\
  y_run (after_all l) = map T ["ls"; "date"; "reboot"]%string /\
  y_named (after_all l) = map T ["ls"; "date"; "reboot"; "pwd"]%string.
Proof.
  cbn zeta. split; [|split; [apply orderlyb_ok; vm_compute; reflexivity|vm_compute; auto]].
  apply Forall_forall. intros x H. vm_compute in H. repeat (destruct H as [<-|H]; [exact I|]). destruct H.
Qed.

(** Missing: a command which is delayed when the configuration is replaced.  The rest of
    the queue is kept, so its number is sent when the client has the new configuration,
    and another command is run - without any message overtaking another. *)
Theorem C46_delayed_refuted : exists l, Forall server_only l /\
  (forall a m t b, l = a ++ YSwitch m t :: b -> exists b', b = YReceive :: b') /\
  y_named (after_all l) = [T "pwd"] /\ y_run (after_all l) = [T "date"].
Proof.
  exists ([switch_to first_file; YReceive; with_contexts first_file] ++ keys_typed "+B -B" ++
          [switch_to second_file; YReceive; with_contexts second_file] ++ keys_typed "+X -X" ++ [YRun]).
  split; [apply Forall_forall; intros x H; vm_compute in H; repeat (destruct H as [<-|H]; [exact I|]); destruct H|].
  split; [|vm_compute; auto]. intros a m t b E.
  unfold switch_to, keys_typed in E. 
  assert (K1 : ServerProperties.typed "+B -B" ++ [SFlush] = [SInput (ev0 48%N Down) 0; SInput (ev0 48%N Up) 0; SFlush]) by (vm_compute; reflexivity).
  assert (K2 : ServerProperties.typed "+X -X" ++ [SFlush] = [SInput (ev0 45%N Down) 0; SInput (ev0 45%N Up) 0; SFlush]) by (vm_compute; reflexivity).
  rewrite K1, K2 in E. cbn [map app] in E. unfold with_contexts, activate in E.
  repeat (destruct a as [|? a]; cbn [app] in E; [try discriminate E; injection E as _ _ E; subst b; eexists; reflexivity|
    injection E as _ E]).
  destruct a; discriminate E.
Qed.
Print Assumptions C46_delayed_refuted.

(** Missing as well: a command which is triggered before the server got the configuration
    the client uses already. *)
Theorem C46_race_refuted : exists l, Forall server_only l /\
  y_named (after_all l) = [T "ls"] /\ y_run (after_all l) = [T "reboot"].
Proof.
  exists ([switch_to first_file; YReceive; with_contexts first_file; switch_to second_file] ++ keys_typed "+A" ++ [YRun]).
  split; [|vm_compute; auto].
  apply Forall_forall. intros x H. vm_compute in H. repeat (destruct H as [<-|H]; [exact I|]). destruct H.
Qed.
Print Assumptions C46_race_refuted.
