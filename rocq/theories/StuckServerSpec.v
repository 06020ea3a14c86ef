(** Specification side of "no stuck keys" for the server. *)
From Coq Require Import List Arith NArith ZArith Bool.
From Verif Require Import Base Key Match Stage StageSpec StageShape MultiStage MultiSpec Server ServerSpec.
From Verif Require Import StuckStagesSpec.
Import ListNotations.
Local Open Scope N_scope.

(** An event of a key of a device. *)
Definition device_event (K : key -> Prop) (e : event) : Prop :=
  wf_event e /\ K (ek e) /\ is_action_key (ek e) = false /\ is_virtual_key (ek e) = false /\ ek e <> k_timeout.

(** Presses and releases of an injected input which are taken like input
    (ServerState.cpp:53-58). *)
Definition injects (e : event) : bool :=
  match es e with Up | Down => true | _ => false end && is_device_key (ek e).

(** Requests other than of a new configuration or a validation of the keys which are down.
    What is injected as output releases what it presses. *)
Definition harmless (K : key -> Prop) (x : step) : Prop :=
  match x with
  | SInput e _ => device_event K e
  | SExpire | SFlush | SDevices _ => True
  | SMessage (MConfig None) | SMessage (MContexts _) | SMessage MNextKey => True
  | SMessage (MVirtual j _) => is_virtual_key j = true
  | SMessage (MInjectInput l) => Forall (fun e => injects e = true -> device_event K e) l
  | SMessage (MInjectOutput l) => released l /\ Forall (ok_out (fun _ => True)) l
  | SMessage (MConfig (Some _)) | SMessage (MValidate _) | SReset => False
  end.

(** The keys which are input by a request. *)
Definition keys_in (x : step) : sequence :=
  match x with
  | SInput e _ => [e]
  | SMessage (MInjectInput l) => List.filter injects l
  | _ => []
  end.

Definition loads (cfg : list (list context)) : step := SMessage (MConfig (Some (new_multi_stage cfg))).

(** A running server and the keys which were input: after a first configuration there are
    requests, further configurations and clients which connect after another has left.
    These find no virtual key waiting in the queue to be toggled. *)
Inductive runs (clock : nat -> Z) (send_ok : nat -> bool) (K : key -> Prop) : sequence -> server -> Prop :=
| ru_start ds cfg : cfg <> [] -> unstuck_stages K cfg ->
    runs clock send_ok K [] (server_run clock send_ok [SDevices ds; loads cfg] init_server)
| ru_step I s x : runs clock send_ok K I s -> harmless K x ->
    runs clock send_ok K (I ++ keys_in x) (server_step clock send_ok x s)
| ru_config I s cfg : runs clock send_ok K I s -> no_virtual (sv_buf s) -> cfg <> [] -> unstuck_stages K cfg ->
    runs clock send_ok K I (server_step clock send_ok (loads cfg) s)
| ru_client I s cfg : runs clock send_ok K I s -> no_virtual (sv_buf s) -> cfg <> [] -> unstuck_stages K cfg ->
    runs clock send_ok K I (server_run clock send_ok [SReset; loads cfg] s).
