(** Specification side of the properties of the server: what can be read off the trace
    of effects. *)
From Coq Require Import List Arith NArith ZArith Bool.
From Verif Require Import Base Key Match Stage MultiStage StageSpec MultiSpec Server.
Import ListNotations.
Local Open Scope N_scope.

(** The events queued for sending, oldest first. *)
Definition queued_one (x : effect) : sequence := match x with EQueue e => [e] | _ => [] end.
Definition queued (tr : list effect) : sequence := flat_map queued_one (rev tr).

(** What was done for them: events delivered to the virtual device and actions. *)
Definition done_one (x : effect) : list effect :=
  match x with ESend _ true | EAction _ => [x] | _ => [] end.
Definition done (tr : list effect) : list effect := flat_map done_one (rev tr).

(** What a queued event calls for.  Wheel presses are the server's own, virtual keys are
    toggled and timeouts delay what follows. *)
Definition calls_for (e : event) : list effect :=
  if ek e =? k_timeout then []
  else if is_virtual_key (ek e) then []
  else if is_action_key (ek e)
  then match es e with Down => [EAction (ek e - first_action)] | _ => [] end
  else if is_mouse_wheel (ek e) && kstate_eqb (es e) Down then []
  else [ESend e true].
Definition visible (l : sequence) : list effect := flat_map calls_for l.

(** The events which reached the virtual device. *)
Definition delivered_one (x : effect) : sequence := match x with ESend e true => [e] | _ => [] end.
Definition delivered (tr : list effect) : sequence := flat_map delivered_one (rev tr).

(** The events fed to the stages. *)
Definition fed_one (x : effect) : sequence := match x with EFeed e _ => [e] | _ => [] end.
Definition fed (tr : list effect) : sequence := flat_map fed_one (rev tr).

(** The states reported for a virtual key. *)
Definition reported_one (k : key) (x : effect) : list kstate :=
  match x with EVirtual k' st => if k' =? k then [st] else [] | _ => [] end.
Definition reported (k : key) (tr : list effect) : list kstate := flat_map (reported_one k) (rev tr).

(** Effects of no concern for what is queued, delivered and reported. *)
Definition minor (x : effect) : Prop :=
  match x with
  | ENextKey _ _ | EFlushAt _ | ETimeout _ _ | ECancel | EExit => True
  | _ => False
  end.

(** Reports change the state every time. *)
Definition opposite (st : kstate) : kstate := match st with Down => Up | _ => Down end.
Fixpoint alternates (st : kstate) (l : list kstate) : Prop :=
  match l with
  | [] => True
  | x :: r => x = opposite st /\ alternates x r
  end.

(** The reports of a virtual key alternate, beginning with Down, and the last of them
    tells whether the key is down. *)
Definition agrees (k : key) (virtual : list key) (tr : list effect) : Prop :=
  alternates Up (reported k tr) /\ (In k virtual <-> last (reported k tr) Up = Down).

(** The answers given to requests for the next key, oldest first. *)
Definition answered_one (x : effect) : list (key * option device_desc) :=
  match x with ENextKey k d => [(k, d)] | _ => [] end.
Definition answered (tr : list effect) : list (key * option device_desc) := flat_map answered_one (rev tr).

(** The latest request of a timeout (in milliseconds) which was not answered yet. *)
Fixpoint requested (tr : list effect) : option N :=
  match tr with
  | [] => None
  | ETimeout v _ :: _ => Some v
  | EFeed e _ :: r => if ek e =? k_timeout then None else requested r
  | _ :: r => requested r
  end.

(** The events which may answer it: the timeout expired, or ended after some time. *)
Definition fits (v : N) (e : event) : Prop :=
  e = expired_event (duration_of_ms v) \/ exists ns, e = elapsed_event ns.

(** Every timeout event fed to the stages answers a request of its own. *)
Fixpoint timeouts_answer (tr : list effect) : Prop :=
  match tr with
  | [] => True
  | EFeed e _ :: r =>
      (ek e = k_timeout -> exists v, requested r = Some v /\ fits v e) /\ timeouts_answer r
  | _ :: r => timeouts_answer r
  end.

(** * Conditions on requests and states *)

(** No device key is left down by [T]. *)
Definition released (T : sequence) : Prop := forall k, is_device_key k = true -> is_down_after T k = false.

(** No virtual key is going to be toggled, nothing is going to be delayed. *)
Definition no_virtual (l : sequence) : Prop := Forall (fun e => is_virtual_key (ek e) = true -> es e <> Down) l.

Definition no_timeout (l : sequence) : Prop := Forall (fun e => ek e <> k_timeout) l.

(** Neither a delay nor the toggling of a virtual key is waiting in the queue. *)
Definition idle (s : server) : Prop := no_timeout (sv_buf s) /\ no_virtual (sv_buf s).

(** A configuration with stages whose outputs release only what they pressed. *)
Definition mapped (cfg : list (list context)) : Prop := cfg <> [] /\ Forall balanced_config cfg.

(** Steps which do not replace the configuration; injected output releases what it
    presses; validation, which forgets keys, is only considered with a further stage. *)
Definition calm_step (n : nat) (x : step) : Prop :=
  match x with
  | SReset | SMessage (MConfig (Some _)) => False
  | SMessage (MInjectOutput l) => released l
  | SMessage (MValidate _) => (2 <= n)%nat
  | _ => True
  end.

(** The configuration is dropped, or replaced by one which does nothing on its own
    (contexts with device filters can become active right away). *)
Definition replaces (x : step) : Prop :=
  match x with
  | SReset => True
  | SMessage (MConfig (Some m)) => m_has_device_filters m = false
  | _ => False
  end.

(** The new entries of the trace contain [EExit]. *)
Definition exits (s s' : server) : Prop :=
  exists new, sv_trace s' = new ++ sv_trace s /\ In EExit new.

(** The steps which do not replace the configuration. *)
Definition keeps_config (x : step) : Prop :=
  match x with SReset | SMessage (MConfig (Some _)) => False | _ => True end.

(** A delay or a timeout is pending; then an event equal to the last one is taken for a
    key repeat. *)
Definition pending (s : server) : bool :=
  match sv_flush s with Some _ => true | None => false end || match sv_start s with Some _ => true | None => false end.

Definition repeated (e : event) (s : server) : bool := event_eqb e (sv_last s) && pending s.

(** The press answers a request for the next key. *)
Definition asked (e : event) (s : server) : bool :=
  sv_next s && is_device_key (ek e) && negb (ek e =? ButtonLeft) && kstate_eqb (es e) Down.

(** Presses of keys which answer a request; ButtonLeft is left out by the server. *)
Definition answers (e : event) : bool :=
  is_device_key (ek e) && negb (ek e =? ButtonLeft) && kstate_eqb (es e) Down.

(** A step of the wheel; the server adds its press. *)
Definition wheel_step (e : event) : bool := is_mouse_wheel (ek e) && kstate_eqb (es e) Up.

(** Requests without a press which could answer. *)
Definition no_answer (x : step) : Prop :=
  match x with
  | SInput e _ => answers e = false /\ wheel_step e = false
  | SMessage (MInjectInput l) => Forall (fun e => answers e = false /\ wheel_step e = false) l
  | SMessage (MVirtual k _) => is_virtual_key k = true
  | SMessage MNextKey => False
  | _ => True
  end.

(** Requests which do not contain timeout events of their own. *)
Definition from_keys (x : step) : Prop :=
  match x with
  | SInput e _ => ek e <> k_timeout
  | SMessage (MVirtual k _) => k <> k_timeout
  | _ => True
  end.

(** The wheel presses in progress with their values: none. *)
Definition calm_wheels (p : key -> option N) : Prop := forall k, p k = None.

(** A wheel event fits to the presses in progress. *)
Definition wheel_free (p : key -> option N) (e : event) : Prop := p (ek e) = None \/ p (ek e) = Some (ev e).

(** Injected input: every wheel press is followed by the wheel step with its value. *)
Fixpoint wheels_paired (p : key -> option N) (l : sequence) : Prop :=
  match l with
  | [] => calm_wheels p
  | e :: r =>
      if is_mouse_wheel (ek e)
      then (match es e with
            | Down | Up => wheel_free p e /\ wheels_paired (wheel_next p e) r
            | _ => wheels_paired p r
            end)
      else ev e = 0 /\ wheels_paired p r
  end.

(** An input of the server: no wheel presses, which it adds itself. *)
Definition server_input (e : event) (dev : Z) : Prop :=
  wf_event e /\ valid_device dev = true /\ (is_mouse_wheel (ek e) = true -> es e = Up).

(** The same when wheel steps have no values; then lone wheel presses are fine. *)
Definition zero_input (e : event) (dev : Z) : Prop :=
  wf_event e /\ valid_device dev = true /\ (is_mouse_wheel (ek e) = true -> ev e = 0).

(** No stage ran into undefined behaviour (or out of the model's fuel). *)
Definition undamaged (s : server) : Prop :=
  Forall (fun st => s_ub (snd st) = false /\ s_oof (snd st) = false) (m_stages (sv_stage s)).
