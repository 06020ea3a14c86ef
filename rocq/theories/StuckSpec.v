(** Specification side of "no stuck keys": which configurations are covered and what
    the keys pressed on the devices are. *)
From Coq Require Import List Arith NArith ZArith Bool.
From Verif Require Import Base Key Match Stage StageSpec.
Import ListNotations.
Local Open Scope N_scope.

(** The events which were fed to the stage. *)
Definition inputs (l : list call) : sequence :=
  flat_map (fun c => match c with CInput e _ => [e] | _ => [] end) l.

(** The calls considered: presses and releases of keys, buttons and virtual keys,
    expired timeouts and changes of the active contexts. *)
Definition keys_only (c : call) : Prop :=
  match c with
  | CInput e _ => ek e <> k_any /\ ek e <> k_ContextActive /\ is_mouse_wheel (ek e) = false
  | CContexts _ => True
  | CValidate _ => False
  end.

(** Every release of the expression comes after a press of the key; [p] are the keys
    pressed so far. *)
Fixpoint releases_follow (p : list key) (l : sequence) : Prop :=
  match l with
  | [] => True
  | e :: r =>
      match es e with
      | Down => releases_follow (ek e :: p) r
      | Up | UpAsync | UpMatched => (In (ek e) p \/ ek e = k_timeout) /\ releases_follow p r
      | _ => releases_follow p r
      end
  end.

(** The last event of the expression which has to happen. *)
Definition completes (l : sequence) (e : event) : Prop :=
  find_last is_non_optional l = Some e.

(** Inputs without Any and ?, completed by the press or release of a key. *)
Definition plain_input (l : sequence) : Prop :=
  Forall (fun e => ek e <> k_any /\ es e <> NoMightMatch) l /\
  releases_follow [] l /\
  exists e, completes l e /\ ek e <> k_timeout.

Definition all_inputs (P : sequence -> Prop) (cs : list context) : Prop :=
  Forall (fun c => Forall (fun i => P (in_seq i)) (cx_inputs c)) cs.

(** The outputs an input can be mapped to. *)
Definition gives (cs : list context) (c : context) (i : input) (o : sequence) : Prop :=
  In i (cx_inputs c) /\
  (((0 <= in_out i)%Z /\ nth_error (cx_outputs c) (Z.to_nat (in_out i)) = Some o) \/
   ((in_out i < 0)%Z /\ exists c' m, In c' cs /\ In m (cx_commands c') /\
                                     cm_idx m = in_out i /\ cm_out m = o)).

Definition timeless (l : sequence) : Prop := Forall (fun e => ek e <> k_timeout) l.

(** No mapping outputs just the event which completes it (A >> A).  When there are
    mappings with timeouts, no mapping outputs just the press of a key which was
    released in the history. *)
Definition no_own_key (cs : list context) (h : sequence) : Prop :=
  forall c i o, In c cs -> gives cs c i o ->
    (forall e, completes (in_seq i) e -> o <> [e]) /\
    (all_inputs timeless cs \/ forall k, In (ev0 k Up) h -> o <> [ev0 k Down]).

(** No input waits for a context becoming active. *)
Definition no_context_active (l : sequence) : Prop :=
  match l with e :: _ => ek e <> k_ContextActive | [] => True end.
