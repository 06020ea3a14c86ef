(** Specification side of the properties of a stage: histories of calls,
    well-formed configurations and what a consumer of the output sees. *)
From Coq Require Import List Arith NArith ZArith Bool.
From Verif Require Import Base Key Match Stage.
Import ListNotations.
Local Open Scope N_scope.

(** * Well-formed configurations and calls *)

(** Every input has an expression and names an existing output (or a command). *)
Definition wf_input (c : context) (i : input) : Prop :=
  in_seq i <> [] /\
  ((0 <= in_out i)%Z -> (Z.to_nat (in_out i) < length (cx_outputs c))%nat).
Definition wf_context (c : context) : Prop := Forall (wf_input c) (cx_inputs c).
(** A context which shares the mappings of the next one is followed by one. *)
Definition wf_chain (cs : list context) : Prop :=
  forall i c, nth_error cs i = Some c -> cx_fall c = true -> (S i < length cs)%nat.
Definition wf_config (cs : list context) : Prop := Forall wf_context cs /\ wf_chain cs.

(** The events the server feeds to a stage (Stage.cpp:451-456, server
    ServerState.cpp): presses and releases of keys without a value, wheel steps and
    expired timeouts with one. *)
Definition wf_event (e : event) : Prop :=
  ek e <> k_none /\
  ((es e = Down /\ ek e <> k_timeout /\ (ev e = 0 \/ is_mouse_wheel (ek e) = true)) \/
   (es e = Up /\ (ev e = 0 \/ ek e = k_timeout \/ is_mouse_wheel (ek e) = true))).

(** Calls of the public interface. *)
Inductive call : Type :=
| CInput (e : event) (dev : Z)           (* Stage::update *)
| CContexts (l : list nat)               (* Stage::set_active_client_contexts *)
| CValidate (is_down : key -> bool).     (* Stage::validate_state *)

Definition wf_call (cs : list context) (c : call) : Prop :=
  match c with
  | CInput e dev => wf_event e /\ valid_device dev = true
  | CContexts l => Forall (fun i => (i < length cs)%nat) l
  | CValidate _ => True
  end.

(** The server inserts a press with the same value directly before each wheel step
    (ServerState.cpp:222-224); more generally all presses and the release of a wheel
    key belonging together have the same value.  [p] are the wheel keys which are
    down. *)
Definition wheel_next (p : key -> option N) (e : event) : key -> option N :=
  fun k => if k =? ek e then (if kstate_eqb (es e) Down then Some (ev e) else None) else p k.
Fixpoint wheel_pairs (p : key -> option N) (l : list call) : Prop :=
  match l with
  | [] => True
  | CInput e _ :: r =>
      if is_mouse_wheel (ek e)
      then (p (ek e) = None \/ p (ek e) = Some (ev e)) /\ wheel_pairs (wheel_next p e) r
      else wheel_pairs p r
  | _ :: r => wheel_pairs p r
  end.
(** A stage which follows another one gets releases without a value (Stage.cpp:707-712). *)
Definition zero_ups (l : list call) : Prop :=
  Forall (fun c => match c with
                   | CInput e _ => is_mouse_wheel (ek e) = true -> es e = Up -> ev e = 0
                   | _ => True
                   end) l.
Definition wheels_ok (l : list call) : Prop := wheel_pairs (fun _ => None) l \/ zero_ups l.

Definition do_call (cs : list context) (c : call) (s : state) : state * sequence :=
  match c with
  | CInput e dev => update cs e dev s
  | CContexts l => set_active_client_contexts cs l s
  | CValidate f => (validate_state f s, [])
  end.

(** The state after a list of calls and everything that was output. *)
Fixpoint run (cs : list context) (l : list call) (s : state) : state * sequence :=
  match l with
  | [] => (s, [])
  | c :: r => let '(s1, o1) := do_call cs c s in
              let '(s2, o2) := run cs r s1 in (s2, o1 ++ o2)
  end.

(** * Histories *)

(** The states of the events of one key. *)
Definition track (k : key) (l : sequence) : list kstate := map es (filter (has_key k) l).

(** Press, release, press, ... starting with the key [down] or not. *)
Fixpoint strokes (down : bool) (l : list kstate) : Prop :=
  match l with
  | [] => True
  | Down :: r => down = false /\ strokes true r
  | Up :: r => down = true /\ strokes false r
  | _ :: _ => False
  end.

(** Each key is pressed and released alternately, starting with a press. *)
Definition alternates (l : sequence) : Prop := forall k, strokes false (track k l).
Definition wf_history (l : sequence) : Prop :=
  alternates l /\ Forall (fun e => ev e = 0) l.

(** * What the consumer of the output sees *)

(** The keys which are down after receiving [l], the last event of a key decides. *)
Definition is_down_after (l : sequence) (k : key) : bool :=
  match find_last (has_key k) l with
  | Some e => kstate_eqb (es e) Down
  | None => false
  end.

(** The key is listed as held down by the stage (and not only temporarily released),
    so that releasing the key which triggered it sends its release. *)
Definition held (s : state) (k : key) : Prop :=
  exists o, In o (s_down s) /\ od_key o = k /\ od_temp o = false.

(** In the two halves of an output (around ^) every release is preceded by a press of
    the same key.  [pressed] are the keys pressed so far. *)
Fixpoint balanced (pressed : list key) (l : sequence) : Prop :=
  match l with
  | [] => True
  | e :: r =>
      match es e with
      | Down => balanced (ek e :: pressed) r
      | Up => In (ek e) pressed /\ balanced pressed r
      | OutputOnRelease => balanced [] r
      | _ => balanced pressed r
      end
  end.
Definition balanced_config (cs : list context) : Prop :=
  Forall (fun c => Forall (balanced []) (cx_outputs c) /\
                   Forall (fun m => balanced [] (cm_out m)) (cx_commands c)) cs.

(** Calls which do not forget state behind the consumer's back. *)
Definition is_validate (c : call) : bool := match c with CValidate _ => true | _ => false end.
