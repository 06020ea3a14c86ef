(** Vocabulary for grabbed devices (C80 to C83), independent of the model's functions: what
    a device is, which devices are wanted, which ones the kernel has been told to grab. *)
From Coq Require Import String Ascii List Arith NArith ZArith Bool.
From Verif Require Import Base Key Text Stage Config Client ClientSpec Device Grab.
Import ListNotations.
Local Open Scope Z_scope.

(** ** Devices *)

(** The server knows keys with codes below 512. *)
Definition has_key_code (n : node) (k : N) : Prop := In k (n_keys n) /\ (k < 512)%N.
(** A device with 32 keys is a keyboard. *)
Definition is_keyboard (n : node) : Prop :=
  exists ks, NoDup ks /\ length ks = 32%nat /\ forall k, In k ks -> has_key_code n k.
(** A device with relative axes 0 or 1, which are x and y, is a mouse. *)
Definition is_mouse (n : node) : Prop := N.testbit (n_rel n) 0 = true \/ N.testbit (n_rel n) 1 = true.
(** Absolute axes apart from volume and misc, as gamepads and touchpads have them. *)
Definition has_axes (n : node) : Prop := exists a, In a (n_abs n) /\ fst a <> 0x20%N /\ fst a <> 0x28%N.
Definition has_switch (n : node) : Prop := n_switches n <> 0%N.

(** What is grabbed when the configuration does not say otherwise: keyboards, mice when
    the configuration maps buttons or wheels, and other devices with keys unless they have
    axes or switches. *)
Definition by_default (mice : bool) (n : node) : Prop :=
  is_keyboard n \/
  (exists k, has_key_code n k) /\
  ((is_mouse n /\ mice = true) \/ (~ is_mouse n /\ ~ has_axes n /\ ~ has_switch n)).

(** A name as the server gives it to its own devices *)
Definition own_name (t : text) : Prop := exists p, t = p ++ T "keymapper".

(** Devices which are to be grabbed: the last filter which selects the device decides, or
    the default. *)
Definition wanted (search : text -> text -> bool) (filters : list (filter * bool)) (mice : bool) (n : node) : Prop :=
  n_opens n = true /\ n_version n = true /\
  N.testbit (n_types n) 0 = true /\ N.testbit (n_types n) 1 = true /\
  ~ own_name (n_name n) /\
  exists default, (default = true <-> by_default mice n) /\
                  decides search filters (n_name n) (n_link n) default true.

(** ** The kernel *)

(** The device is grabbed after these calls. *)
Definition is_grabbed (l : list gcall) (dev : nat) : bool :=
  fold_left (fun b c =>
    match c with
    | GGrab d _ => if (d =? dev)%nat then true else b
    | GUngrab d _ => if (d =? dev)%nat then false else b
    end) l false.

(** Every name is the name of one device. *)
Definition proper (w : list node) : Prop := NoDup (map n_event w) /\ NoDup (map n_dev w).
(** No other device gets the number of a device which the server still has open. *)
Definition keeps_numbers (w : list node) (open : list node) : Prop :=
  forall n m, In n w -> In m open -> (n_event n = n_event m <-> n_dev n = n_dev m).
(** The devices which are open do not change what they report about themselves. *)
Definition keeps_properties (w : list node) (open : list node) : Prop :=
  forall n m, In n w -> In m open -> n_dev n = n_dev m ->
    n_name n = n_name m /\ n_keys n = n_keys m /\ n_rel n = n_rel m /\ n_abs n = n_abs m.
Definition open_nodes (g : gstate) : list node := map gd_node (gs_devices g).

Section Run.
Variable search : text -> text -> bool.
Variable held_keys : nat -> nat -> option (list N).
Variable monitor_ok : bool.
Variable write_ok create_ok : nat -> bool.

(** All devices come and go with a report of the kernel, and numbers are not reused too
    early. *)
Definition step_orderly (x : dstep) (y : dsys) : Prop :=
  match x with
  | DTurn _ None | DSend _ => True
  | DTurn _ (Some w) | DWorld w =>
      proper w /\ keeps_numbers w (open_nodes (ds_grab y)) /\ keeps_properties w (open_nodes (ds_grab y))
  | DSilent _ => False
  end.
Fixpoint orderly (l : list dstep) (y : dsys) : Prop :=
  match l with
  | [] => True
  | x :: r => step_orderly x y /\ orderly r (dstep_run search held_keys monitor_ok write_ok create_ok x y)
  end.
End Run.
