(** What is expected of getting connected (C110). *)
From Coq Require Import List Arith Bool Ascii.
From Verif Require Import Base Text Serial Host.
Import ListNotations.

(** A process of a version sends the hash of it, and waits for the answer. *)
Definition is_hash (b : bytes) : Prop := length b = hash_size.
(** Nobody gives up, and no process ends. *)
Definition patient (m : move) : Prop := match m with MGiveUp _ | MClose _ => False | _ => True end.
(** Nothing more can happen of itself. *)
Definition at_rest (own : bytes) (inherits : bool) (h : host) : Prop :=
  forall m, patient m -> move_run own inherits m h = None.
