(** Specification side of the properties of several stages in a row. *)
From Coq Require Import List Arith NArith ZArith Bool.
From Verif Require Import Base Key Match Stage StageSpec StageShape MultiStage.
Import ListNotations.
Local Open Scope N_scope.

(** What a stage behind another one makes of a list of events: events for the server
    are passed on in place, each of the others is an input of the stage. *)
Inductive passes (dev : Z) (cs : list context) : state -> sequence -> state -> sequence -> Prop :=
| ps_nil s : passes dev cs s [] s []
| ps_server s e l s' o : is_server_event e = true ->
    passes dev cs s l s' o -> passes dev cs s (e :: l) s' (e :: o)
| ps_input s e l s1 o1 s' o : is_server_event e = false ->
    do_call cs (CInput e dev) s = (s1, o1) ->
    passes dev cs s1 l s' o -> passes dev cs s (e :: l) s' (o1 ++ o).

(** The input event itself, where it is seen by every stage. *)
Definition seen_by_all (e : event) : sequence :=
  if (ek e =? k_timeout) || is_virtual_key (ek e) then [e] else [].

(** The number of contexts in front of stage [j]. *)
Definition offset (j : nat) (l : list stage) : Z :=
  fold_right (fun st z => (Z.of_nat (length (fst st)) + z)%Z) 0%Z (firstn j l).

(** * Histories *)

Inductive mcall : Type :=
| MInput (e : event) (dev : Z)
| MContexts (l : list Z)
| MValidate (is_down : key -> bool)
| MDevices (ds : list device_desc).

(** The caller gives the buffer back after each call (ServerState.cpp:111,281). *)
Definition do_mcall (c : mcall) (m : mstage) : mstage * sequence :=
  match c with
  | MInput e dev => let '(m, o) := m_update e dev m in (m_reuse_buffer m, o)
  | MContexts l => let '(m, o) := m_set_active_client_contexts l m in (m_reuse_buffer m, o)
  | MValidate f => (m_validate_state f m, [])
  | MDevices ds => (m_evaluate_device_filters ds m, [])
  end.
Fixpoint mrun (l : list mcall) (m : mstage) : mstage * sequence :=
  match l with
  | [] => (m, [])
  | c :: r => let '(m1, o1) := do_mcall c m in
              let '(m2, o2) := mrun r m1 in (m2, o1 ++ o2)
  end.

(** Nothing is required of the indices of active contexts. *)
Definition wf_mcall (c : mcall) : Prop :=
  match c with
  | MInput e dev => wf_event e /\ valid_device dev = true
  | _ => True
  end.
Definition wheel_call (c : mcall) : call :=
  match c with MInput e dev => CInput e dev | _ => CContexts [] end.

(** Outputs name keys; values occur only with timeouts. *)
Definition no_none_key (k : key) : Prop := k <> k_none.
Definition wf_stage_config (cs : list context) : Prop :=
  wf_config cs /\ wf_outputs no_none_key cs.

Definition is_mvalidate (c : mcall) : bool := match c with MValidate _ => true | _ => false end.
