(** Model of main_loop in src/server/unix/main.cpp:88-165: one turn after waiting for the
    next input event.  What the platform delivers (time, input, changed devices, messages
    of the client) is given by a record per turn. *)
From Coq Require Import List Arith NArith ZArith Bool SpecFloat.
From Verif Require Import Base Key Match Stage MultiStage Server.
Import ListNotations.
Local Open Scope N_scope.

(** read_input_event and to_key_event, unix/main.cpp:108-128 *)
Inductive input : Type :=
| INone                       (* woken by a time limit or by the client *)
| IKey (e : event) (dev : Z)
| IOther.                     (* forwarded to the virtual device as it is *)

(** One turn of the loop: the value of Clock::now() at 115 (nanoseconds), the input, the
    devices when they changed, the messages received. *)
Record turn : Type := Turn {
  t_now : Z;
  t_input : input;
  t_devices : option (list device_desc);
  t_messages : list message
}.

(** [now >= timeout_start_at + timeout], unix/main.cpp:132-133.  The common type of
    nanoseconds (steady_clock) and Duration counts nanoseconds in a double. *)
Definition timeout_due (now : Z) (s : server) : bool :=
  match sv_start s with
  | Some t => SFleb (SFadd 53 1024 (f64_of_Z t)
                       (SFmul 53 1024 (sv_timeout s) (f64_of_Z 1000000000)))
                    (f64_of_Z now)
  | None => false
  end.

(** unix/main.cpp:139 *)
Definition flush_due (now : Z) (s : server) : bool :=
  match sv_flush s with Some t => (t <? now)%Z | None => true end.

Section Environment.
Variable clock : nat -> Z.
Variable send_ok : nat -> bool.

(** unix/main.cpp:117-137 *)
Definition turn_input (t : turn) (s : server) : server :=
  let s := match t_input t with
           | IKey e dev => if ek e =? k_none then s else server_step clock send_ok (SInput e dev) s
           | _ => s
           end in
  if timeout_due (t_now t) s then server_step clock send_ok SExpire s else s.

(** unix/main.cpp:146-162, ClientPort::read_messages *)
Definition turn_updates (t : turn) (s : server) : server :=
  let s := match t_devices t with
           | Some ds => server_step clock send_ok (SDevices ds) s
           | None => s
           end in
  fold_left (fun s m => server_step clock send_ok (SMessage m) s) (t_messages t) s.

(** unix/main.cpp:117-162.  The result is [false] when the loop is left because sending
    failed; the other ways to leave the loop (128-129 of the connection, shutdown) end the
    list of turns. *)
Definition server_turn (t : turn) (s : server) : server * bool :=
  match t_input t with
  | IOther => (s, true)
  | _ =>
      let s := turn_input t s in
      let '(s, ok) := if flush_due (t_now t) s then flush_send_buffer clock send_ok s
                      else (s, true) in
      if ok then (turn_updates t s, true) else (s, false)
  end.

Fixpoint server_turns (l : list turn) (s : server) : server * bool :=
  match l with
  | [] => (s, true)
  | t :: r => let '(s, ok) := server_turn t s in
              if ok then server_turns r s else (s, false)
  end.
End Environment.
