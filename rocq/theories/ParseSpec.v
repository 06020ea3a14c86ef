(** What users expect of parsed expressions (C36, C37). *)
From Coq Require Import String Ascii List NArith ZArith Bool.
From Verif Require Import Base Key Text Match.
Import ListNotations.
Local Open Scope N_scope.

(** Every release comes after a press of the same key. *)
Definition presses_first (l : sequence) : Prop :=
  forall a e b, l = a ++ e :: b -> es e = Up -> exists v, In (Ev (ek e) Down v) a.

(** The states the documentation gives outputs: press, release, `!Key` and `^`. *)
Definition output_state (e : event) : Prop :=
  es e = Down \/ es e = Up \/ es e = Not \/ (es e = OutputOnRelease /\ ek e = k_none).

(** The states of inputs: a press, a release in order or at any time, a press at any
    time, `!Key` and `!100ms`. *)
Definition input_state (e : event) : Prop :=
  es e = Down \/ es e = Up \/ es e = UpAsync \/ es e = DownAsync \/ es e = Not \/
  (es e = NotTimeoutUpDown /\ ek e = k_timeout).

(** A usable input: it has a press of a key (not only a delay), all states are ones of
    inputs, and `?` only stands in front. *)
Definition usable_input (l : sequence) : Prop :=
  exists m r, l = m ++ r /\ (m = [] \/ m = [ev0 k_none NoMightMatch]) /\
    Forall input_state r /\ exists e, In e r /\ es e = Down /\ ek e <> k_timeout.
