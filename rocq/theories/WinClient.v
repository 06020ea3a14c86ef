(** Model of the Windows client's window procedure, src/client/windows/main.cpp.  The
    functions of ClientState and ControlPort it calls are those of Client.v.

    Each step is one message of the window.  Not modelled are the tray icon and its menu
    (a step is the choice of an entry), opening the configuration, help and about windows,
    and update_options (the options are those of ClientMain.v; here each timer tells
    whether auto update is on). *)
From Coq Require Import String Ascii List Arith NArith ZArith Bool.
From Verif Require Import Base Key Text ParseSeq Stage Config Serial Client WinCommand.
Import ListNotations.
Local Open Scope N_scope.

Inductive wstep : Type :=
| WRead (l : list ccall)                     (* FD_READ of the server: these are complete messages *)
| WClose (connects : bool)                   (* FD_CLOSE of the server; can it be connected again *)
| WAccept (socket : N)                       (* FD_ACCEPT of keymapperctl *)
| WControl (reads : N -> list rcall * bool)  (* FD_READ or FD_CLOSE of keymapperctl *)
| WContexts (inaccessible : bool)            (* TIMER_UPDATE_CONTEXT *)
| WFile (auto : bool)                        (* TIMER_UPDATE_CONFIG *)
| WToggle                                    (* IDI_ACTIVE or the middle button on the icon *)
| WReload                                    (* IDI_RELOAD_CONFIG *)
| WNextKey                                   (* IDI_NEXT_KEY_INFO *)
| WSession.                                  (* WM_WTSSESSION_CHANGE *)

(** The client and g_session_changed, g_was_inaccessible *)
Record wclient : Type := WC { wc_state : client; wc_valid : wvalid }.

Section Client.
Variable search : text -> text -> bool.
Variable typer : text -> list stroke.
Variable key_name : key -> option text.
Variable system : text.
Variable sent : nat -> bool.
Variable focus : nat -> option window.
Variable disk : nat -> files.
(** g_settings.config_file_path *)
Variable main : text.

(** main.cpp:222-232: the results of reading and sending are not looked at, but for a
    failing reconnect.  ServerPort::connect replaces the connection (ServerPort.cpp:85-88);
    on_server_disconnected is not called. *)
Definition reconnect (connects : bool) (c : client) : bool * client :=
  let c := emit FLost c in
  if connects then send_config search sent focus (c_sent false (cl_sends c) c) else (false, c).

(** main.cpp:279-283 with 107-122 *)
Definition context_timer (inaccessible : bool) (w : wclient) : wclient :=
  let '(changed, c) := update_active_contexts search focus (wc_state w) in
  let c := if changed then snd (send_active_contexts sent c) else c in
  let '(validate, v) := validate_state inaccessible (wc_valid w) in
  WC (if validate then snd (send sent SValidate c) else c) v.

(** main.cpp:284-290 *)
Definition config_timer (auto : bool) (c : client) : client :=
  if auto then
    let '(changed, c) := update_file disk true c in
    if changed then snd (send_config search sent focus c) else c
  else c.

(** main.cpp:253-258 *)
Definition reload (c : client) : client :=
  let '(ok, c) := load_config disk main c in
  if ok then snd (send_config search sent focus c) else c.

(** main.cpp:201-300; false when the client ends *)
Definition window_proc (s : wstep) (w : wclient) : bool * wclient :=
  let c := wc_state w in
  let on (c : client) := (true, WC c (wc_valid w)) in
  match s with
  | WRead l => on (fold_left (fun c m => on_server_message key_name system m c) l c)
  | WClose connects => let '(ok, c) := reconnect connects c in (ok, WC c (wc_valid w))
  | WAccept socket => on (accept_control socket c)
  | WControl reads => on (read_control_messages search typer sent focus disk reads c)
  | WContexts inaccessible => (true, context_timer inaccessible w)
  | WFile auto => on (config_timer auto c)
  | WToggle => on (toggle_active search sent focus c)
  | WReload => on (reload c)
  | WNextKey => on (snd (send sent SNextKey c))
  | WSession => (true, WC c (Wv true (wv_inaccessible (wc_valid w))))
  end.

(** main.cpp:424-427; after PostQuitMessage the loop ends.  The result: is the client
    still running *)
Fixpoint window_run (l : list wstep) (w : wclient) : bool * wclient :=
  match l with
  | [] => (true, w)
  | s :: r => let '(ok, w') := window_proc s w in if ok then window_run r w' else (false, w')
  end.

(** main.cpp:400-411 with an icon and a server which can be connected *)
Definition window_main (l : list wstep) : bool * wclient :=
  let c := snd (load_config disk main new_client) in
  window_run l (WC (snd (send_config search sent focus c)) (Wv false false)).
End Client.
