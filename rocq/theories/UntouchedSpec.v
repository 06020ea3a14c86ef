(** Specification for keys which the configuration does not mention. *)
From Coq Require Import List NArith Bool.
From Verif Require Import Base Key Match Stage StageSpec.
Import ListNotations.
Local Open Scope N_scope.

(** Ordinary keys of a device: they have no value and no meaning of their own. *)
Definition device_button (k : key) : Prop :=
  k <> k_none /\ k <> k_any /\ k <> k_timeout /\ k <> k_ContextActive /\
  is_virtual_key k = false /\ is_mouse_wheel k = false.

(** All outputs of a context, of mappings and of commands. *)
Definition context_outputs (c : context) : list sequence := cx_outputs c ++ map cm_out (cx_commands c).

(** The key occurs in no mapping, neither by name nor as Any. *)
Definition unmentioned (k : key) (cs : list context) : Prop :=
  forall c, In c cs ->
    (forall i e, In i (cx_inputs c) -> In e (in_seq i) -> ek e <> k /\ ek e <> k_any) /\
    (forall o e, In o (context_outputs c) -> In e o -> ek e <> k /\ ek e <> k_any).

(** No output waits for a release (^) and no input starts with a question mark. *)
Definition no_history_input (cs : list context) : Prop :=
  forall c i e, In c cs -> In i (cx_inputs c) -> In e (in_seq i) -> es e <> NoMightMatch.
(** A question mark only stands in front of an input. *)
Definition question_first (cs : list context) : Prop :=
  forall c i, In c cs -> In i (cx_inputs c) ->
    Forall (fun e => es e <> NoMightMatch) (in_seq i) \/
    exists r, in_seq i = ev0 k_none NoMightMatch :: r /\ Forall (fun e => es e <> NoMightMatch) r.
Definition no_output_on_release (cs : list context) : Prop :=
  forall c o e, In c cs -> In o (context_outputs c) -> In e o -> es e <> OutputOnRelease.

(** The input needs a press of the key, and no release of the key which may come at any
    time precedes it. *)
Definition needs (j : key) (l : sequence) : Prop :=
  exists a x b, l = a ++ x :: b /\ ek x = j /\ es x = Down /\ (forall e, In e a -> ek e = j -> es e <> UpAsync).

(** Every mapping with the key [k] also needs a press of the key [j]; no mapping outputs
    [k] and none uses Any. *)
Definition incomplete (k j : key) (cs : list context) : Prop :=
  forall c, In c cs ->
    (forall i e, In i (cx_inputs c) -> In e (in_seq i) -> ek e <> k_any /\ (ek e = k -> needs j (in_seq i))) /\
    (forall o e, In o (context_outputs c) -> In e o -> ek e <> k /\ ek e <> k_any).

(** An event of a key of a device, neither of a timeout nor of a virtual key. *)
Definition device_event (e : event) : Prop :=
  ek e <> k_any /\ ek e <> k_timeout /\ is_virtual_key (ek e) = false.
