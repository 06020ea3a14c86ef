(** Specification side of "no stuck keys" for several stages. *)
From Coq Require Import List Arith NArith ZArith Bool.
From Verif Require Import Base Key Match Stage StageSpec StageShape MultiStage MultiSpec MultiProofs StuckSpec.
Import ListNotations.
Local Open Scope N_scope.

(** Keys which are not passed to later stages but handled by the server: timeouts,
    virtual keys and the actions of commands to run. *)
Definition server_key (k : key) : bool := (k =? k_timeout) || is_virtual_key k || is_action_key k.

(** Keys which the stage may be fed: no mouse wheels. *)
Definition feedable (k : key) : Prop :=
  k <> k_none /\ k <> k_any /\ k <> k_ContextActive /\ is_mouse_wheel k = false.

(** The keys which come out of a stage: those which come in and those of its outputs. *)
Definition adds (K : key -> Prop) (cs : list context) (k : key) : Prop := K k \/ named [cs] k.

(** The mappings of one stage which is fed keys of [K]: as in the statement about one
    stage.  Outputs name keys; values occur only with timeouts. *)
Record unstuck (K : key -> Prop) (cs : list context) : Prop := {
  un_feed : forall k, K k -> feedable k;
  un_values : wf_outputs no_none_key cs;
  un_balanced : balanced_config cs;
  un_plain : all_inputs plain_input cs;
  un_ctx : all_inputs no_context_active cs;
  un_own : forall c i o, In c cs -> gives cs c i o ->
    (forall e, completes (in_seq i) e -> o <> [e]) /\
    (all_inputs timeless cs \/ forall k, K k -> o <> [ev0 k Down])
}.
Fixpoint unstuck_stages (K : key -> Prop) (cfg : list (list context)) : Prop :=
  match cfg with
  | [] => True
  | cs :: r => unstuck K cs /\ unstuck_stages (adds K cs) r
  end.
