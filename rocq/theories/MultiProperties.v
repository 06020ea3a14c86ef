(** The properties of several stages as theorems, with their assumptions and a
    non-trivial instance beside each. *)
From Coq Require Import String List Arith NArith ZArith Bool Lia.
From Verif Require Import Base Key Match Stage Text ParseSeq Config MultiStage Replay.
From Verif Require Import StageSpec StageSafe StageShape StageProperties MultiSpec MultiProofs.
Import ListNotations.
Local Open Scope N_scope.

(** The stages of a configuration text. *)
Definition load_multi (t : string) : list (list context) :=
  match parse_cfg (T t) with
  | POk c => split_stages (map server_context (cfg_contexts c)) []
  | _ => []
  end.
Definition all_contexts (cfg : list (list context)) : list Z :=
  map Z.of_nat (seq 0 (fold_right (fun cs n => (length cs + n)%nat) 0%nat cfg)).
Definition multi_calls (cfg : list (list context)) (t : string) : list mcall :=
  MContexts (all_contexts cfg) ::
  match events t with Some l => map (fun e => MInput e 0) l | None => [] end.

Definition two_stages : list (list context) :=
  load_multi (lines ["A >> B X"; "Virtual1 >> V"; "C >> Virtual1"; "[stage]"; "B >> Y Virtual2"; "X{200ms} >> Z"])%string.

Definition one (t : string) : event :=
  match events t with Some (e :: _) => e | _ => matches_none end.
Definition keyn (n : string) : key := ek (one (String.append "+" n)).

(** ** C21 Stages compose *)

(** The last of several stages sees the event itself if it is an elapsed timeout or a
    virtual key, then everything the stages before it put out; these stages do not
    notice the last one. *)
Theorem C21_last_stage : forall e dev ss cs s c m1 o1, ss <> [] ->
  m_update e dev (MS ss c []) = (m1, o1) ->
  exists s1 oa s2 ob,
    run cs (map (fun e => CInput e dev) (seen_by_all e)) s = (s1, oa) /\
    passes dev cs s1 o1 s2 ob /\
    m_update e dev (MS (ss ++ [(cs, s)]) c []) = (MS (m_stages m1 ++ [(cs, s2)]) c [], oa ++ ob).
Proof. exact compose_last. Qed.
Print Assumptions C21_last_stage.

Theorem C21_no_stages : forall e dev c, m_update e dev (MS [] c []) = (MS [] c [], [e]).
Proof. exact no_stages. Qed.
Print Assumptions C21_no_stages.

Theorem C21_single_stage : forall e dev cs s c s' o, update cs e dev s = (s', o) ->
  m_update e dev (MS [(cs, s)] c []) = (MS [(cs, s')] c [], o).
Proof. exact single_stage. Qed.
Print Assumptions C21_single_stage.

(** Events for the server neither change the state of the later stage nor get lost or
    reordered. *)
Theorem C21_server_events : forall dev cs s l s' o, passes dev cs s l s' o ->
  s' = fst (run cs (map (fun e => CInput e dev)
                        (List.filter (fun e => negb (is_server_event e)) l)) s) /\
  merged (List.filter is_server_event l) o.
Proof.
  intros dev cs s l s' o H. split; [eapply passes_state; exact H|eapply passes_server; exact H].
Qed.
Print Assumptions C21_server_events.

Example C21_case :
  let m := fst (mrun (multi_calls two_stages "") (new_multi_stage two_stages)) in
  length (m_stages m) = 2%nat /\
  fmt (snd (m_update (one "+A") 0 m)) = "+Y -Y +Virtual2 -Virtual2 -200ms +X -X"%string /\
  fmt (snd (m_update (one "+Virtual1") 0 m)) = "+V"%string /\
  fmt (snd (mrun (multi_calls two_stages "+C -C") (new_multi_stage two_stages))) = "+Virtual1 -Virtual1"%string.
Proof. vm_compute. auto. Qed.

(** ** C22 Active contexts are routed to the right stage *)
Theorem C22_routed : forall idx m j cs s,
  nth_error (m_stages m) j = Some (cs, s) ->
  exists s', nth_error (m_stages (fst (m_set_active_client_contexts idx m))) j = Some (cs, s') /\
    s_client s' = map (fun i => Z.to_nat (i - offset j (m_stages m)))
      (List.filter (fun i => (offset j (m_stages m) <=? i)%Z &&
                             (i <? offset j (m_stages m) + Z.of_nat (length cs))%Z) idx) /\
    Forall (fun i => (i < length cs)%nat) (s_client s').
Proof.
  intros idx m j cs s H. destruct (contexts_routed idx m j cs s H) as (s' & H1 & H2).
  exists s'. split; [exact H1|]. split; [exact H2|]. rewrite H2. apply stage_indices_bounds.
Qed.
Print Assumptions C22_routed.

(** Each index of the configuration reaches exactly one stage. *)
Theorem C22_partition : forall l i, (0 <= i < offset (length l) l)%Z ->
  exists j, (exists cs s, nth_error l j = Some (cs, s) /\
                          (offset j l <= i < offset j l + Z.of_nat (length cs))%Z) /\
    forall k cs s, nth_error l k = Some (cs, s) ->
      (offset k l <= i < offset k l + Z.of_nat (length cs))%Z -> k = j.
Proof.
  intros l i Hi. destruct (context_owner l i Hi) as (j & cs & s & Hj & Hb). exists j.
  split; [eauto|]. intros k ck sk Hk Hkb. eapply context_owner_unique; eauto.
Qed.
Print Assumptions C22_partition.

Definition three_stages : list (list context) :=
  load_multi (lines ["A >> B"; "[title=""a""]"; "C >> D"; "[stage]"; "B >> C"; "[title=""b""]"; "D >> E";
                     "[stage]"; "E >> F"])%string.
Example C22_case :
  map (fun st => s_client (snd st))
    (m_stages (fst (m_set_active_client_contexts [0; 1; 3; 4; 9]%Z (new_multi_stage three_stages)))) =
  [[0; 1]; [1]; [0]]%nat /\
  map (fun j => offset j (m_stages (new_multi_stage three_stages))) [0; 1; 2; 3]%nat = [0; 2; 4; 5]%Z.
Proof. vm_compute. auto. Qed.

(** ** C10 No out-of-range access, for any number of stages *)
Theorem C10_multi_stage : forall cfg l, Forall wf_stage_config cfg -> Forall wf_mcall l ->
  wheels_ok (map wheel_call l) ->
  Forall (fun st => s_ub (snd st) = false /\ s_oof (snd st) = false)
         (m_stages (fst (mrun l (new_multi_stage cfg)))).
Proof. intros cfg l H1 H2 H3. apply (multi_safe cfg l H1 H2 H3). Qed.
Print Assumptions C10_multi_stage.

Definition check_config (cs : list context) : bool :=
  forallb (fun c => forallb (fun i =>
    match in_seq i with [] => false | _ => true end &&
    ((in_out i <? 0)%Z || Nat.ltb (Z.to_nat (in_out i)) (length (cx_outputs c)))) (cx_inputs c)) cs &&
  forallb (fun i => match nth_error cs i with
                    | Some c => negb (cx_fall c) || Nat.ltb (S i) (length cs)
                    | None => true end) (seq 0 (length cs)) &&
  forallb (fun c => forallb (fun e => (negb (ek e =? k_none) || kstate_eqb (es e) OutputOnRelease) && ((ev e =? 0) || (ek e =? k_timeout)))
                      (concat (cx_outputs c) ++ flat_map cm_out (cx_commands c))) cs.
Lemma wf_stage_config_dec : forall cs, check_config cs = true ->
  wf_stage_config cs.
Proof.
  intros cs H. unfold check_config in H. apply andb_prop in H. destruct H as [H H3].
  apply andb_prop in H. destruct H as [H1 H2]. split; [apply wf_config_dec; assumption|].
  apply Forall_forall. intros c Hc. rewrite forallb_forall in H3. specialize (H3 c Hc).
  assert (G : forall e, In e (concat (cx_outputs c) ++ flat_map cm_out (cx_commands c)) -> wf_out no_none_key e).
  { intros e He. rewrite forallb_forall in H3. specialize (H3 e He). apply andb_prop in H3. destruct H3 as [Ha Hb].
    split; [apply orb_prop in Ha; destruct Ha as [Ha|Ha];
            [left; apply negb_true_iff, N.eqb_neq in Ha; exact Ha|right; right; now destruct (es e)]|].
    apply orb_prop in Hb. destruct Hb as [Hb|Hb]; apply N.eqb_eq in Hb; auto. }
  split; apply Forall_forall; intros o Ho; apply Forall_forall; intros e He; apply G; apply in_or_app.
  - left. apply in_concat. eauto.
  - right. apply in_flat_map. eauto.
Qed.

Lemma wf_stage_configs_dec : forall cfg, forallb check_config cfg = true -> Forall wf_stage_config cfg.
Proof.
  intros cfg H. apply Forall_forall. intros cs Hc. rewrite forallb_forall in H.
  apply wf_stage_config_dec. auto.
Qed.

Lemma wf_mcalls_dec : forall l,
  forallb (fun c => match c with
    | MInput e dev => negb (ek e =? k_none) && valid_device dev && ((ev e =? 0) || is_mouse_wheel (ek e)) &&
        (kstate_eqb (es e) Up || kstate_eqb (es e) Down && negb (ek e =? k_timeout))
    | _ => true end) l = true -> Forall wf_mcall l.
Proof.
  intros l H. apply Forall_forall. intros c Hc. rewrite forallb_forall in H. specialize (H c Hc).
  destruct c as [e dev|il|f|ds]; cbn [wf_mcall]; try exact I.
  assert (Hw : Forall (wf_call []) [CInput e dev]).
  { apply wf_calls_dec. cbn [forallb]. rewrite H. reflexivity. }
  inversion_clear Hw. assumption.
Qed.

Example C10_multi_case : Forall wf_stage_config two_stages /\ length two_stages = 2%nat /\
  let l := multi_calls two_stages "+A -A +B -B" ++
           [MInput (Ev WheelUp Down 120) 0; MInput (Ev WheelUp Up 120) 0; MDevices []; MValidate (fun _ => false)] in
  Forall wf_mcall l /\ wheels_ok (map wheel_call l).
Proof.
  split; [apply wf_stage_configs_dec; vm_compute; reflexivity|].
  split; [vm_compute; reflexivity|]. cbn zeta.
  split; [apply wf_mcalls_dec; vm_compute; reflexivity|]. left. vm_compute. auto 20.
Qed.

(** ** C52 What the server is sent *)

(** Every event put out is a press or a release of a key without a value, except that
    requested timeouts carry their duration and wheel presses their step. *)
Theorem C52_output_shape : forall cfg l, cfg <> [] -> Forall wf_stage_config cfg -> Forall wf_mcall l ->
  wheels_ok (map wheel_call l) ->
  Forall (fun e => ek e <> k_none /\ (es e = Down \/ es e = Up \/ ek e = k_timeout) /\
                   (ev e = 0 \/ ek e = k_timeout \/ (is_mouse_wheel (ek e) = true /\ es e = Down)))
         (snd (mrun l (new_multi_stage cfg))).
Proof. intros cfg l H0 H1 H2 H3. apply (proj2 (multi_safe cfg l H1 H2 H3)). exact H0. Qed.
Print Assumptions C52_output_shape.

(** Only keys which were received or which are named in an output are put out. *)
Theorem C52_output_keys : forall cfg l, Forall values_ok cfg -> Forall wf_mcall l ->
  Forall (fun e => ek e = k_timeout \/ named cfg (ek e) \/
                   exists i dev, In (MInput i dev) l /\ ek i = ek e)
         (snd (mrun l (new_multi_stage cfg))).
Proof. exact multi_keys. Qed.
Print Assumptions C52_output_keys.

Lemma wf_stage_values : forall cs, wf_stage_config cs -> values_ok cs.
Proof.
  intros cs [_ H]. unfold values_ok, wf_outputs in *. eapply Forall_impl; [|exact H]. intros c [H1 H2].
  assert (G : forall e, wf_out no_none_key e -> wf_out (fun _ => True) e) by (intros e [_ Hv]; split; auto).
  split; (eapply Forall_impl; [|eassumption]); intros o Ho; eapply Forall_impl; try apply G; exact Ho.
Qed.

Example C52_case :
  let l := multi_calls two_stages "+A -A +D" in
  Forall values_ok two_stages /\ Forall wf_mcall l /\
  fmt (snd (mrun l (new_multi_stage two_stages))) = "+Y -Y +Virtual2 -Virtual2 -200ms +X -X +D"%string.
Proof.
  cbn zeta. split; [|split].
  - eapply Forall_impl; [apply wf_stage_values|]. apply C10_multi_case.
  - apply wf_mcalls_dec. vm_compute. reflexivity.
  - vm_compute. reflexivity.
Qed.

(** ** C14 The held keys cover what the consumer sees as down, for any number of stages *)
Theorem C14_multi_stage : forall cfg l k, cfg <> [] -> Forall balanced_config cfg ->
  (forall c, In c l -> is_mvalidate c = true -> (2 <= length cfg)%nat) -> is_device_key k = true ->
  is_down_after (snd (mrun l (new_multi_stage cfg))) k = true ->
  In k (m_output_keys_down (fst (mrun l (new_multi_stage cfg)))).
Proof. exact multi_held. Qed.
Print Assumptions C14_multi_stage.

Example C14_multi_case :
  let cfg := load_multi (lines ["A >> B"; "[stage]"; "B >> Y"; "C >> (X U)"])%string in
  let l := multi_calls cfg "+C +A" in
  is_down_after (snd (mrun l (new_multi_stage cfg))) (keyn "X") = true /\
  m_output_keys_down (fst (mrun l (new_multi_stage cfg))) = map keyn ["X"; "U"; "Y"]%string.
Proof. vm_compute. auto. Qed.
