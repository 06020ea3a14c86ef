(** Model of src/server/unix/main.cpp: the life of the server from one connection of a client
    to the next, with the devices of Grab.v and the state of Server.v.

    Given from outside: who connects, what is read, the devices, the clock, which calls
    succeed.  Simplified: what the server puts out does not go on to the virtual devices
    here, only whether that succeeds is asked for (Device.v and ThroughProperties.v have the
    rest); the directives of a configuration have no effect on Linux. *)
From Coq Require Import String Ascii List Arith NArith ZArith Bool.
From Verif Require Import Base Key Text Match Stage MultiStage Server ServerLoop Config Client Device Grab.
Import ListNotations.
Local Open Scope Z_scope.

(** A filter as it is sent: string, invert, by_id; ClientPort.cpp:15-22 and 81-90 *)
Definition sent_filter : Type := (text * bool * bool)%type.
Definition read_grab_filter (x : sent_filter) : filter * bool :=
  let '(string, invert, by_id) := x in (Filter string (is_regex string) invert, by_id).

(** Messages, ClientPort.cpp:159-205.  Apart from configurations they concern the state of
    the server only. *)
Inductive umessage : Type :=
| UConfig (filters : list sent_filter) (stage : mstage)
| UOther (m : message).

(** Where the server is: waiting for a client (177), reading the initial configuration
    (188), in main_loop (210), done with an exit status *)
Inductive phase : Type :=
| PAccept
| PConfig
| PLoop
| PDone (status : Z).

(** main.cpp:22-28.  [us_signal] is g_shutdown as far as set by a signal or by main_loop;
    on_exit_requested (35-37) sets it when the server state logs EExit.  [us_number] counts
    the sessions.  Between sessions [us_dev] has no device open.  [us_read] is not in the code. *)
Record usys : Type := US {
  us_phase : phase;
  us_server : server;
  us_filters : list (filter * bool);     (* m_grab_device_filters *)
  us_changed : bool;                     (* g_grab_device_filters_changed *)
  us_signal : bool;
  us_number : nat;
  us_dev : dsys;
  us_read : list umessage                (* what was read since the client connected *)
}.
Definition put_phase x u := US x (us_server u) (us_filters u) (us_changed u) (us_signal u) (us_number u) (us_dev u) (us_read u).
Definition put_server x u := US (us_phase u) x (us_filters u) (us_changed u) (us_signal u) (us_number u) (us_dev u) (us_read u).
Definition put_filters x u := US (us_phase u) (us_server u) x (us_changed u) (us_signal u) (us_number u) (us_dev u) (us_read u).
Definition put_filters_changed x u := US (us_phase u) (us_server u) (us_filters u) x (us_signal u) (us_number u) (us_dev u) (us_read u).
Definition put_signal x u := US (us_phase u) (us_server u) (us_filters u) (us_changed u) x (us_number u) (us_dev u) (us_read u).
Definition put_number x u := US (us_phase u) (us_server u) (us_filters u) (us_changed u) (us_signal u) x (us_dev u) (us_read u).
Definition put_dev x u := US (us_phase u) (us_server u) (us_filters u) (us_changed u) (us_signal u) (us_number u) x (us_read u).

Definition put_reads x u := US (us_phase u) (us_server u) (us_filters u) (us_changed u) (us_signal u) (us_number u) (us_dev u) x.

Definition is_exit_effect (x : effect) : bool := match x with EExit => true | _ => false end.
(** g_shutdown *)
Definition shutdown (u : usys) : bool := us_signal u || existsb is_exit_effect (sv_trace (us_server u)).

(** ServerState.cpp:130-132 *)
Definition has_configuration (s : server) : bool :=
  match m_stages (sv_stage s) with [] => false | _ => true end.

(** main.cpp:50-56 *)
Definition same_filter (a b : filter * bool) : bool :=
  text_eqb (f_string (fst a)) (f_string (fst b)) && Bool.eqb (f_invert (fst a)) (f_invert (fst b)) &&
  Bool.eqb (snd a) (snd b).
Fixpoint same_filters (a b : list (filter * bool)) : bool :=
  match a, b with
  | [], [] => true
  | x :: a, y :: b => same_filter x y && same_filters a b
  | _, _ => false
  end.

(** A turn of main_loop: the time, what select reports, the devices there are when the
    directory is read, what is read from the client and whether that succeeds. *)
Record uturn : Type := UT {
  ut_now : Z;
  ut_ready : option ready;
  ut_during : option (list node);
  ut_messages : list umessage;
  ut_ok : bool
}.

Inductive accepted : Type :=
| AClient (during : option (list node))
| ANone
| AMismatch.

(** What happens.  [during] are the devices there are when they are grabbed, when they
    changed since. *)
Inductive uevent : Type :=
| XAccept (a : accepted)
| XRead (l : list umessage) (ok : bool) (during : option (list node))
| XTurn (t : uturn)
| XSignal
| XWorld (w : list node).

Section Session.
Variable search : text -> text -> bool.
Variable held_keys : nat -> nat -> nat -> option (list N).    (* of each session *)
Variable monitor_ok : bool.
Variable write_ok create_ok : nat -> nat -> bool.             (* of each session *)
Variable keyboard_ok : nat -> bool.                           (* create_keyboard_device of each session *)
Variable clock : nat -> Z.
Variable send_ok : nat -> bool.
(** VirtualDevicesLinux.cpp:337-339: before the virtual devices are created sending fails *)
Definition send_none (_ : nat) : bool := false.

(** main.cpp:39-63, ClientPort.cpp:163-168 *)
Definition on_umessage (send : nat -> bool) (m : umessage) (u : usys) : usys :=
  match m with
  | UConfig filters stage =>
      let s := us_server u in
      let filters := map read_grab_filter filters in
      let filters_changed := negb (same_filters (us_filters u) filters) in
      let changed := has_configuration s && filters_changed in
      let mouse_changed := has_configuration s && negb (Bool.eqb (m_has_mouse_mappings (sv_stage s)) (m_has_mouse_mappings stage)) in
      let u := put_filters filters (put_filters_changed (us_changed u || changed || mouse_changed) u) in
      put_server (server_step clock send (SMessage (MConfig (Some stage))) s) u
  | UOther (MConfig _) => u
  | UOther m => put_server (server_step clock send (SMessage m) (us_server u)) u
  end.
Definition on_umessages (send : nat -> bool) (l : list umessage) (u : usys) : usys :=
  fold_left (fun u m => on_umessage send m (put_reads (us_read u ++ [m]) u)) l u.

(** DeviceDesc.h *)
Definition codes (t : text) : list N := map N_of_ascii t.
Definition desc_of (x : gdesc) : device_desc := Dev (codes (gx_name x)) (codes (gx_id x)).
Definition descs_of (y : dsys) : list device_desc := map desc_of (ds_server y).

(** main.cpp:175: the loop is entered again *)
Definition next_connection (u : usys) : usys := put_phase (if shutdown u then PDone 0 else PAccept) u.

(** main.cpp:189-204 *)
Definition start_session (during : option (list node)) (u : usys) : usys :=
  let n := us_number u in
  let u := put_number (S n) u in
  if negb (keyboard_ok n) then put_phase (PDone 1) u
  else
    let y := session search (held_keys n) monitor_ok (create_ok n) (ds_world (us_dev u))
               (m_has_mouse_mappings (sv_stage (us_server u))) (us_filters u) during in
    let u := put_dev y u in
    if ds_over y then put_phase (PDone 1) u
    else put_phase PLoop (put_server (server_step clock send_ok (SDevices (descs_of y)) (us_server u)) u).

(** main.cpp:210-220: main_loop returned [result] *)
Definition end_session (result : bool) (u : usys) : usys :=
  let u := put_signal (us_signal u || negb result) u in
  let u := put_server (server_step clock send_ok SReset (us_server u)) u in
  let y := us_dev u in
  let u := put_dev (put_grab (ungrab_all (held_keys (pred (us_number u))) (ds_grab y)) y) u in
  next_connection u.

(** main.cpp:78-86, 188 *)
Definition read_initial (during : option (list node)) (u : usys) : usys :=
  if has_configuration (us_server u) then start_session during u else put_phase PConfig u.

(** main.cpp:117-165: what follows the reading of the devices in a turn *)
Definition turn_rest (t : uturn) (i : input) (y : dsys) (u : usys) : usys * option bool :=
  let n := pred (us_number u) in
  let s := ServerLoop.turn_input clock send_ok (ServerLoop.Turn (ut_now t) i None []) (us_server u) in
  let '(s, ok) := if flush_due (ut_now t) s then flush_send_buffer clock send_ok s else (s, true) in
  let u := put_server s (put_dev y u) in
  if negb ok then (u, Some true)
  else
    let changed := gs_changed (ds_grab y) in
    let y := update_devices search (held_keys n) monitor_ok (create_ok n) (ut_during t) y in
    let u := put_dev y u in
    if ds_over y then (u, Some true)
    else
      let u := if changed then put_server (server_step clock send_ok (SDevices (descs_of y)) (us_server u)) u else u in
      let u := on_umessages send_ok (ut_messages t) u in
      if negb (ut_ok t) then (u, Some true)
      else if us_changed u then (put_filters_changed false u, Some true)
      else if negb (has_configuration (us_server u)) then (u, Some true)
      else if m_should_exit (sv_stage (us_server u)) then (u, Some false)
      else (u, None).

(** main.cpp:88-167: one turn, and what main_loop returns if it does *)
Definition main_turn (t : uturn) (u : usys) : usys * option bool :=
  if shutdown u then (u, Some false) else
  let n := pred (us_number u) in
  let y := us_dev u in
  let r := option_map (fun r => Ready (ds_pending y) (sl_client r) (sl_read r)) (ut_ready t) in
  let '(result, g) := read_input_event r (ds_grab y) in
  let y := put_grab g y in
  match result with
  | RFailed | ROverflow => (put_dev y u, Some true)
  | RNothing => turn_rest t INone y u
  | REvent i e =>
      match to_key_event e with
      | None => (put_dev (put_read (DForward i e) (fst (forward_event (write_ok n) i e (ds_virtual y))) y) u, None)
      | Some k => if N.eqb (ek k) k_none then turn_rest t INone y u
                  else turn_rest t (IKey k (Z.of_nat i)) (put_read (DTranslate i k) (ds_virtual y) y) u
      end
  end.

Definition ustep (x : uevent) (u : usys) : usys :=
  match us_phase u, x with
  | _, XWorld w => put_dev (world_changes w (us_dev u)) u
  | PAccept, XAccept (AClient during) => read_initial during (put_reads [] u)
  | PAccept, XAccept ANone => u
  | PAccept, XAccept AMismatch => put_phase (PDone 1) u
  | PConfig, XRead l ok during =>
      let u := on_umessages send_none l u in
      if ok then read_initial during u else next_connection u
  | PLoop, XTurn t =>
      match main_turn t u with
      | (u, None) => u
      | (u, Some result) => end_session result u
      end
  (* main.cpp:169-172; elsewhere the signal ends the process *)
  | PLoop, XSignal => put_signal true u
  | PDone _, XSignal => u
  | _, XSignal => put_phase (PDone 143) u
  | _, _ => u
  end.
Definition urun (l : list uevent) (u : usys) : usys := fold_left (fun u x => ustep x u) l u.

Definition init_usys (w : list node) : usys :=
  US PAccept init_server [] false false 0 (DS w false (grab_begin monitor_ok false []) new_vdevices [] [] false) [].
End Session.
