(** Vocabulary for the sessions of the server (C84 to C86), independent of the model's
    functions. *)
From Coq Require Import String Ascii List Arith NArith ZArith Bool.
From Verif Require Import Base Key Text Match Stage MultiStage Server Config Client ClientSpec Device Grab GrabSpec Session.
Import ListNotations.
Local Open Scope Z_scope.

(** The configuration of the client which is connected: the last one which was read. *)
Definition given_by (g : option (list sent_filter * mstage)) (m : umessage) : option (list sent_filter * mstage) :=
  match m with UConfig filters stage => Some (filters, stage) | UOther _ => g end.
Definition given (l : list umessage) : option (list sent_filter * mstage) := fold_left given_by l None.

(** A configuration which does something with buttons or wheels: they occur in an input or
    in a modifier filter. *)
Definition mouse_key (k : key) : bool := is_mouse_button k || is_mouse_wheel k.
Definition maps_mouse (m : mstage) : Prop :=
  exists st c e, In st (m_stages m) /\ In c (fst st) /\ mouse_key (ek e) = true /\
    (In e (cx_mods c) \/ exists i, In i (cx_inputs c) /\ In e (in_seq i)).

(** What a client sends: a read which fails brings nothing (messages are not malformed), and
    within what is read at once no configuration follows an empty one. *)
Fixpoint no_gap (l : list umessage) : Prop :=
  match l with
  | [] => True
  | UConfig _ stage :: r => (m_stages stage = [] -> forall f s, ~ In (UConfig f s) r) /\ no_gap r
  | UOther _ :: r => no_gap r
  end.
Definition well_sent (x : uevent) : Prop :=
  match x with
  | XRead l ok _ => (ok = false -> l = []) /\ no_gap l
  | XTurn t => (ut_ok t = false -> ut_messages t = []) /\ no_gap (ut_messages t)
  | _ => True
  end.

(** At most one configuration. *)
Definition one_config (l : list umessage) : Prop :=
  forall a f s b f' s', l = a ++ UConfig f s :: b -> ~ In (UConfig f' s') b.

Definition single (x : uevent) : Prop := match x with XRead l _ _ => one_config l | _ => True end.

(** Devices come and go with a report of the kernel, and numbers are not reused too early. *)
Definition devices_orderly (x : uevent) (u : usys) : Prop :=
  let comes w := proper w /\ keeps_numbers w (open_nodes (ds_grab (us_dev u))) /\ keeps_properties w (open_nodes (ds_grab (us_dev u))) in
  match x with
  | XTurn t => forall w, ut_during t = Some w -> comes w
  | XWorld w => comes w
  | XRead _ _ (Some w) | XAccept (AClient (Some w)) => proper w
  | _ => True
  end.

Section Run.
Variable search : text -> text -> bool.
Variable held_keys : nat -> nat -> nat -> option (list N).
Variable monitor_ok : bool.
Variable write_ok create_ok : nat -> nat -> bool.
Variable keyboard_ok : nat -> bool.
Variable clock : nat -> Z.
Variable send_ok : nat -> bool.
Fixpoint sessions_orderly (l : list uevent) (u : usys) : Prop :=
  match l with
  | [] => True
  | x :: r => devices_orderly x u /\ sessions_orderly r (ustep search held_keys monitor_ok write_ok create_ok keyboard_ok clock send_ok x u)
  end.
End Run.
