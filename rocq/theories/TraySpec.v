(** Specification side of the properties of the tray icon. *)
From Coq Require Import String Ascii List Arith NArith ZArith Bool.
From Verif Require Import Base Key Text Config Serial Client ClientSpec ClientMain ClientMainSpec Tray.
Import ListNotations.

Definition trace_of (d : desk) : trace := cl_trace (ap_client (dk_program d)).
(** Whether the user has keymapper active: the last change in the trace counts. *)
Definition really_active (d : desk) : bool := active_of (trace_of d).
(** How often the connection to the server was lost *)
Definition losses (t : trace) : nat :=
  length (List.filter (fun e => match e with FLost => true | _ => false end) t).
(** Pairs of a state and the next one *)
Definition moves (d : desk) (l : list desk) : list (desk * desk) := combine (d :: l) l.
(** The icon is made anew only while the client is active. *)
Definition made_active (x : desk * desk) : Prop :=
  dk_menu (fst x) = None \/ losses (trace_of (snd x)) <> losses (trace_of (fst x)) ->
  really_active (snd x) = true.
(** keymapperctl does not switch the configuration *)
Definition no_switch_step (s : dstep) : Prop :=
  match s with
  | DTurn t => forall socket name, ~ In (QConfig name) (fst (tu_control t socket))
  | _ => True
  end.
Definition options_in_use (d : desk) : list text := cfg_options (cl_config (ap_client (dk_program d))).
