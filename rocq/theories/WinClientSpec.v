(** Specification side of the properties of the Windows client (C111). *)
From Coq Require Import List Bool NArith ZArith.
From Verif Require Import Base Key Text Stage Config Serial Client ClientSpec.
Import ListNotations.
Local Open Scope N_scope.

(** The trace as if the connection to the server had never been lost. *)
Definition unlost (t : trace) : trace :=
  List.filter (fun e => match e with FLost => false | _ => true end) t.

(** The state of a virtual key the server reported last, over whichever connection. *)
Definition ever_reported (k : key) (t : trace) : bool := reported k (unlost t).
(** Every answer which names a virtual key tells this state. *)
Definition answers_last (t : trace) : Prop :=
  forall p s k st q, t = p ++ FAnswer s (AVirtual k st) :: q -> is_virtual_key k = true ->
    k <> last_virtual -> st = if ever_reported k p then Down else Up.
(** The connections of keymapperctl which were accepted and not closed. *)
Definition kept_connections (t : trace) : conns := connections (unlost t).
