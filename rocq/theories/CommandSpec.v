(** Which terminal commands are run (C46): a client, a server and the messages on their
    way between them. *)
From Coq Require Import List Arith NArith ZArith Bool.
From Verif Require Import Base Key Text Stage Config MultiStage Server ServerSpec.
Import ListNotations.
Local Open Scope N_scope.

(** The commands called for by queued events, and those the client was told to run *)
Definition trigger (e : event) : list N :=
  if is_action_key (ek e) && kstate_eqb (es e) Down then [ek e - first_action] else [].
Definition triggers (l : sequence) : list N := flat_map trigger l.
Definition told_one (x : effect) : list N := match x with EAction n => [n] | _ => [] end.
Definition told (tr : list effect) : list N := flat_map told_one (rev tr).

(** Commands by their numbers *)
Definition commands (table : list text) (l : list N) : list text :=
  flat_map (fun i => match nth_error table (N.to_nat i) with Some c => [c] | None => [] end) l.

(** What is new in a list which was extended *)
Definition added {A} (old new : list A) : list A := skipn (length old) new.

Section System.
Variable clock : nat -> Z.
Variable send_ok : nat -> bool.

(** The server; the commands of the configuration it holds; those of the configuration the
    client holds; the configurations on their way to the server; the numbers of commands on
    their way to the client; the commands which the mappings named when they were
    triggered; the commands which were run. *)
Record system : Type := Sys {
  y_server : server;
  y_held : list text;
  y_table : list text;
  y_up : list (mstage * list text);
  y_down : list N;
  y_named : list text;
  y_run : list text
}.
Definition start_system : system := Sys init_server [] [] [] [] [] [].

Inductive ystep : Type :=
| YServer (st : step)                       (* anything but a configuration happens to the server *)
| YSwitch (m : mstage) (table : list text)  (* the client loads and sends a configuration *)
| YReceive                                  (* the server gets it *)
| YRun.                                     (* the client gets the number of a command *)

(** The server's configuration is replaced after everything was released
    (ServerState.cpp:103-107). *)
Definition before_replacing (s : server) : server := fst (flush_send_buffer clock send_ok (release_all_keys s)).

Definition ystep_run (st : ystep) (y : system) : system :=
  let s := y_server y in
  let triggered (a b : server) := added (triggers (queued (sv_trace a))) (triggers (queued (sv_trace b))) in
  match st with
  | YServer st =>
      let s' := server_step clock send_ok st s in
      Sys s' (y_held y) (y_table y) (y_up y)
          (y_down y ++ added (told (sv_trace s)) (told (sv_trace s')))
          (y_named y ++ commands (y_held y) (triggered s s')) (y_run y)
  | YSwitch m table => Sys s (y_held y) table (y_up y ++ [(m, table)]) (y_down y) (y_named y) (y_run y)
  | YReceive =>
      match y_up y with
      | [] => y
      | (m, table) :: r =>
          let s' := server_step clock send_ok (SMessage (MConfig (Some m))) s in
          let s1 := before_replacing s in
          Sys s' table (y_table y) r
              (y_down y ++ added (told (sv_trace s)) (told (sv_trace s')))
              (y_named y ++ commands (y_held y) (triggered s s1) ++ commands table (triggered s1 s')) (y_run y)
      end
  | YRun =>
      match y_down y with
      | [] => y
      | i :: r => Sys s (y_held y) (y_table y) (y_up y) r (y_named y) (y_run y ++ commands (y_table y) [i])
      end
  end.
Definition system_run (l : list ystep) (y : system) : system := fold_left (fun y st => ystep_run st y) l y.

(** Steps of the server other than getting a configuration *)
Definition server_only (st : ystep) : Prop :=
  match st with YServer (SMessage (MConfig _)) => False | _ => True end.

(** Nothing which was triggered waits to be run, and no virtual key to be toggled. *)
Definition settled (y : system) : Prop :=
  y_down y = [] /\ triggers (sv_buf (y_server y)) = [] /\
  Forall (fun e => is_virtual_key (ek e) && kstate_eqb (es e) Down = false) (sv_buf (y_server y)).
(** This is so whenever a configuration is on its way. *)
Definition orderly (l : list ystep) : Prop :=
  forall a b, l = a ++ b -> let y := system_run a start_system in y_up y = [] \/ settled y.
End System.
