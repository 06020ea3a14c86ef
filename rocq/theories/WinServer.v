(** Model of the server as compiled for Windows: src/server/ServerState.cpp with the
    branches for _WIN32 and src/server/windows/main.cpp (the hooks, sending, timers and the
    window procedure).  Without the Interception driver.

    Simplified: a hook procedure runs to its end before the next one starts.  (While
    SendInput runs, Windows calls the hook for the events sent, which it lets through at
    once, main.cpp:212-228 and 280-283.) *)
From Coq Require Import List Arith NArith ZArith Bool SpecFloat.
From Verif Require Import Base Key Match Stage MultiStage Server.
Import ListNotations.
Local Open Scope N_scope.

(** * Keys *)

(** Key.h:187-276: the keys which have other codes on Windows, as far as the server refers
    to them.  The mapping engine only refers to keys which are the same everywhere. *)
Definition Pause_w : key := 0x45.
Definition NumLock_w : key := 0xE045.
Definition ControlRight_w : key := 0xE01D.
Definition AltRight_w : key := 0xE038.
Definition MetaLeft_w : key := 0xE05B.
Definition MetaRight_w : key := 0xE05C.

(** ServerState.cpp:279-283 *)
Definition is_control_up (e : event) : bool :=
  kstate_eqb (es e) Up && ((ek e =? ControlLeft) || (ek e =? ControlRight_w)).

(** * State *)

(** What happens, in order.  [WFed]: an event given to the mapping engine and what it puts
    out (without a request for a timeout); [WPut]: other events to put out.  Neither can be
    observed from outside.  Applications see what is sent and what is passed on. *)
Inductive weffect : Type :=
| WFed (e : event) (dev : Z) (out : sequence)  (* m_stage->update *)
| WPut (out : sequence)                        (* pushed to the send buffer otherwise *)
| WSent (e : event)                            (* on_send_key, unless the button is repeated *)
| WPassed (e : event)                          (* CallNextHookEx with the event *)
| WAction (n : N)
| WVirtual (k : key) (st : kstate)
| WNextKey (k : key) (d : option device_desc)
| WFlushTimer (v : N)                          (* SetTimer TIMER_FLUSH_SEND_BUFFER *)
| WTimeoutTimer (v : N)                        (* SetTimer TIMER_TIMEOUT *)
| WKillTimer                                   (* KillTimer TIMER_TIMEOUT *)
| WExit.                                       (* DestroyWindow *)

(** ServerState.h:60-71 and main.cpp:33-40.  [ws_trace] (newest first), [ws_ticks] and
    [ws_exited] are additions of the model; [ws_oof]: the recursion of translate_input went
    deeper than modelled. *)
Record wserver : Type := WS {
  ws_stage : mstage;
  ws_buf : sequence;
  ws_virtual : list key;
  ws_last : event;
  ws_sending : bool;
  ws_flush : bool;                    (* m_flush_scheduled_at is set *)
  ws_start : option Z;
  ws_timeout : spec_float;
  ws_on_up : bool;
  ws_devices : list device_desc;
  ws_next : bool;
  ws_buttons : list key;              (* g_buttons_down *)
  ws_hooked : bool;                   (* g_keyboard_hook and g_mouse_hook are set *)
  ws_trace : list weffect;
  ws_ticks : nat;
  ws_exited : bool;
  ws_oof : bool
}.

Definition init_wserver : wserver :=
  WS (MS [] [] []) [] [] (Ev k_none Up 0) false false None (S754_zero false) false [] false
     [] false [] 0 false false.

Definition w_stage x s := WS x (ws_buf s) (ws_virtual s) (ws_last s) (ws_sending s) (ws_flush s) (ws_start s) (ws_timeout s) (ws_on_up s) (ws_devices s) (ws_next s) (ws_buttons s) (ws_hooked s) (ws_trace s) (ws_ticks s) (ws_exited s) (ws_oof s).
Definition w_buf x s := WS (ws_stage s) x (ws_virtual s) (ws_last s) (ws_sending s) (ws_flush s) (ws_start s) (ws_timeout s) (ws_on_up s) (ws_devices s) (ws_next s) (ws_buttons s) (ws_hooked s) (ws_trace s) (ws_ticks s) (ws_exited s) (ws_oof s).
Definition w_virtual x s := WS (ws_stage s) (ws_buf s) x (ws_last s) (ws_sending s) (ws_flush s) (ws_start s) (ws_timeout s) (ws_on_up s) (ws_devices s) (ws_next s) (ws_buttons s) (ws_hooked s) (ws_trace s) (ws_ticks s) (ws_exited s) (ws_oof s).
Definition w_last x s := WS (ws_stage s) (ws_buf s) (ws_virtual s) x (ws_sending s) (ws_flush s) (ws_start s) (ws_timeout s) (ws_on_up s) (ws_devices s) (ws_next s) (ws_buttons s) (ws_hooked s) (ws_trace s) (ws_ticks s) (ws_exited s) (ws_oof s).
Definition w_sending x s := WS (ws_stage s) (ws_buf s) (ws_virtual s) (ws_last s) x (ws_flush s) (ws_start s) (ws_timeout s) (ws_on_up s) (ws_devices s) (ws_next s) (ws_buttons s) (ws_hooked s) (ws_trace s) (ws_ticks s) (ws_exited s) (ws_oof s).
Definition w_flush x s := WS (ws_stage s) (ws_buf s) (ws_virtual s) (ws_last s) (ws_sending s) x (ws_start s) (ws_timeout s) (ws_on_up s) (ws_devices s) (ws_next s) (ws_buttons s) (ws_hooked s) (ws_trace s) (ws_ticks s) (ws_exited s) (ws_oof s).
Definition w_start x t u s := WS (ws_stage s) (ws_buf s) (ws_virtual s) (ws_last s) (ws_sending s) (ws_flush s) x t u (ws_devices s) (ws_next s) (ws_buttons s) (ws_hooked s) (ws_trace s) (ws_ticks s) (ws_exited s) (ws_oof s).
Definition w_devices x s := WS (ws_stage s) (ws_buf s) (ws_virtual s) (ws_last s) (ws_sending s) (ws_flush s) (ws_start s) (ws_timeout s) (ws_on_up s) x (ws_next s) (ws_buttons s) (ws_hooked s) (ws_trace s) (ws_ticks s) (ws_exited s) (ws_oof s).
Definition w_next x s := WS (ws_stage s) (ws_buf s) (ws_virtual s) (ws_last s) (ws_sending s) (ws_flush s) (ws_start s) (ws_timeout s) (ws_on_up s) (ws_devices s) x (ws_buttons s) (ws_hooked s) (ws_trace s) (ws_ticks s) (ws_exited s) (ws_oof s).
Definition w_buttons x s := WS (ws_stage s) (ws_buf s) (ws_virtual s) (ws_last s) (ws_sending s) (ws_flush s) (ws_start s) (ws_timeout s) (ws_on_up s) (ws_devices s) (ws_next s) x (ws_hooked s) (ws_trace s) (ws_ticks s) (ws_exited s) (ws_oof s).
Definition w_hooked x s := WS (ws_stage s) (ws_buf s) (ws_virtual s) (ws_last s) (ws_sending s) (ws_flush s) (ws_start s) (ws_timeout s) (ws_on_up s) (ws_devices s) (ws_next s) (ws_buttons s) x (ws_trace s) (ws_ticks s) (ws_exited s) (ws_oof s).
Definition w_log (x : weffect) s := WS (ws_stage s) (ws_buf s) (ws_virtual s) (ws_last s) (ws_sending s) (ws_flush s) (ws_start s) (ws_timeout s) (ws_on_up s) (ws_devices s) (ws_next s) (ws_buttons s) (ws_hooked s) (x :: ws_trace s) (ws_ticks s) (ws_exited s) (ws_oof s).
Definition w_tick s := WS (ws_stage s) (ws_buf s) (ws_virtual s) (ws_last s) (ws_sending s) (ws_flush s) (ws_start s) (ws_timeout s) (ws_on_up s) (ws_devices s) (ws_next s) (ws_buttons s) (ws_hooked s) (ws_trace s) (S (ws_ticks s)) (ws_exited s) (ws_oof s).
Definition w_exited s := WS (ws_stage s) (ws_buf s) (ws_virtual s) (ws_last s) (ws_sending s) (ws_flush s) (ws_start s) (ws_timeout s) (ws_on_up s) (ws_devices s) (ws_next s) (ws_buttons s) (ws_hooked s) (ws_trace s) (ws_ticks s) true (ws_oof s).
Definition w_oof s := WS (ws_stage s) (ws_buf s) (ws_virtual s) (ws_last s) (ws_sending s) (ws_flush s) (ws_start s) (ws_timeout s) (ws_on_up s) (ws_devices s) (ws_next s) (ws_buttons s) (ws_hooked s) (ws_trace s) (ws_ticks s) (ws_exited s) true.

(** ServerState.cpp:76-79 *)
Definition w_push (l : sequence) (s : wserver) : wserver := w_buf (ws_buf s ++ l) s.
Definition w_put (l : sequence) (s : wserver) : wserver := w_push l (w_log (WPut l) s).

(** ServerState.cpp:67-74 *)
Definition w_release_all_keys (s : wserver) : wserver :=
  w_put (map (fun k => ev0 k Up) (m_output_keys_down (ws_stage s))) s.

(** main.cpp:105-121: whether the event is suppressed, and g_buttons_down afterwards *)
Definition prevent_button_repeat (e : event) (l : list key) : bool * list key :=
  if negb (is_mouse_button (ek e)) then (false, l)
  else match find_index (N.eqb (ek e)) l with
       | None => if kstate_eqb (es e) Down then (false, l ++ [ek e]) else (true, l)
       | Some i => if kstate_eqb (es e) Down then (true, l) else (false, remove_at i l)
       end.

(** main.cpp:169-182: on_send_key, which always returns true.  Which INPUT is sent is in
    WinInput.v. *)
Definition w_send (e : event) (s : wserver) : wserver :=
  let '(prevented, l) := prevent_button_repeat e (ws_buttons s) in
  let s := w_buttons l s in
  if prevented then s else w_log (WSent e) s.

Section Environment.

(** The results of the successive calls of Clock::now() (nanoseconds). *)
Variable clock : nat -> Z.

(** ServerState.cpp:343-349 and main.cpp:184-187 *)
Definition w_schedule_flush (v : N) (s : wserver) : wserver :=
  if ws_flush s then s else w_log (WFlushTimer v) (w_flush true s).

(** ServerState.cpp:355-360 and main.cpp:189-192 *)
Definition w_schedule_timeout (v : N) (on_up : bool) (s : wserver) : wserver :=
  w_log (WTimeoutTimer v)
        (w_tick (w_start (Some (clock (ws_ticks s))) (duration_of_ms v) on_up s)).

(** ServerState.cpp:370-374 and main.cpp:194-196 *)
Definition w_cancel_timeout (s : wserver) : wserver :=
  w_log WKillTimer (w_start None (S754_zero false) (ws_on_up s) s).

(** ServerState.cpp:172-176 *)
Definition w_device_desc (dev : Z) (s : wserver) : option device_desc :=
  if (0 <=? dev)%Z then nth_error (ws_devices s) (Z.to_nat dev) else None.

(** ServerState.cpp:254-258 *)
Definition is_translated (e : event) (numlock : bool) (out : sequence) : bool :=
  match out with
  | [x] => negb (ek x =? ek e) || xorb (kstate_eqb (es x) Up) (kstate_eqb (es e) Up) || numlock
  | _ => true
  end.

(** ServerState.cpp:226-277: the rest of translate_input.  [reset] is reset_configuration
    with a new empty configuration. *)
Definition w_translate_core (reset : wserver -> wserver) (cancelled numlock : bool)
  (e : event) (dev : Z) (s : wserver) : wserver * bool :=
  let s := if ek e =? k_timeout then s else w_last e s in
  let '(m, out) := m_update e dev (ws_stage s) in
  let s := w_stage m s in
  if m_should_exit (ws_stage s) then (w_log WExit (w_exited (reset s)), true)
  else
    let '(s, out) :=
      match back out with
      | Some r => if ek r =? k_timeout
                  then (w_schedule_timeout (ev r) (cancel_timeout_on_up (es r)) s, pop_back out)
                  else (s, out)
      | None => (s, out)
      end in
    let out := copy_delta e out in
    let s := w_log (WFed e dev out) s in
    let intercept := ws_flush s || cancelled || is_translated e numlock out
                     || (ek e =? AltRight_w) in
    let s := if intercept then w_push out s else s in
    (w_stage (m_reuse_buffer (ws_stage s)) s, intercept).

(** ServerState.cpp:199-209: whether a timeout was cancelled; [rec] is translate_input. *)
Definition w_cancel_pending (rec : event -> Z -> wserver -> wserver * bool)
  (e : event) (dev : Z) (s : wserver) : wserver * bool :=
  match ws_start s with
  | Some t =>
      if kstate_eqb (es e) Down || ws_on_up s then
        let s1 := w_cancel_timeout (w_tick s) in
        (fst (rec (elapsed_event (clock (ws_ticks s) - t)) dev s1), true)
      else (s, false)
  | None => (s, false)
  end.

(** ServerState.cpp:178-224 *)
Definition w_translate_step (reset : wserver -> wserver)
  (rec : event -> Z -> wserver -> wserver * bool)
  (e : event) (dev : Z) (s : wserver) : wserver * bool :=
  if event_eqb e (ws_last s)
     && (ws_flush s || match ws_start s with Some _ => true | None => false end)
  then (s, true)
  else if ws_next s && is_device_key (ek e) && negb (ek e =? ButtonLeft) && kstate_eqb (es e) Down
  then (w_next false (w_log (WNextKey (ek e) (w_device_desc dev s)) s), true)
  else
    let '(s, cancelled) := w_cancel_pending rec e dev s in
    let numlock := kstate_eqb (es e) (es (ws_last s)) && (ek e =? NumLock_w)
                   && (ek (ws_last s) =? Pause_w) in
    let e := if numlock then Ev Pause_w (es e) (ev e) else e in
    let s :=
      if is_mouse_wheel (ek e) && kstate_eqb (es e) Up
      then fst (rec (Ev (ek e) Down (ev e)) dev s)
      else s in
    w_translate_core reset cancelled numlock e dev s.

(** Deepest recursion: a wheel release, its press, the timeout cancelled by it. *)
Definition w_translate_with (reset : wserver -> wserver) : event -> Z -> wserver -> wserver * bool :=
  w_translate_step reset (w_translate_step reset (w_translate_step reset
    (fun _ _ s => (w_oof s, true)))).

(** ServerState.cpp:149-166 with the translate_input to use *)
Definition w_set_virtual_with (translate : event -> Z -> wserver -> wserver * bool)
  (k : key) (st : kstate) (s : wserver) : wserver :=
  let report st (s : wserver) := if is_virtual_key k then w_log (WVirtual k st) s else s in
  match find_index (N.eqb k) (ws_virtual s) with
  | None =>
      if negb (kstate_eqb st Up) then
        report Down (fst (translate (ev0 k Down) any_device (w_virtual (ws_virtual s ++ [k]) s)))
      else s
  | Some i =>
      if negb (kstate_eqb st Down) then
        report Up (fst (translate (ev0 k Up) any_device (w_virtual (remove_at i (ws_virtual s)) s)))
      else s
  end.

(** reset_configuration (ServerState.cpp:103-112) during a flush, as in Server.v *)
Definition w_clear_configuration (m : mstage) (s : wserver) : wserver :=
  let s := w_flush false (w_virtual [] (w_stage m s)) in
  w_start None (ws_timeout s) (ws_on_up s) s.
Definition w_reset_while_sending (s : wserver) : wserver :=
  w_clear_configuration (MS [] [] []) (w_release_all_keys s).
Definition w_toggle_virtual_key (k : key) (s : wserver) : wserver :=
  w_set_virtual_with (w_translate_with w_reset_while_sending) k Not s.

(** The loop of flush_send_buffer, ServerState.cpp:291-338, over the rest of the buffer,
    which only changes by toggling a virtual key; [again] continues after that unless too
    many were toggled. *)
Fixpoint w_scan (again : option (nat -> wserver -> wserver * nat)) (rest : sequence)
  (i : nat) (s : wserver) : wserver * nat :=
  match rest with
  | [] => (s, i)
  | e :: r =>
      if is_mouse_wheel (ek e) && kstate_eqb (es e) Down then w_scan again r (S i) s
      else if is_action_key (ek e) then
        w_scan again r (S i) (if kstate_eqb (es e) Down then w_log (WAction (ek e - first_action)) s else s)
      else if is_virtual_key (ek e) then
        if kstate_eqb (es e) Down then
          match again with
          | None => w_scan again r (S i) s
          | Some f => f (S i) (w_toggle_virtual_key (ek e) s)
          end
        else w_scan again r (S i) s
      else if ek e =? k_timeout then (w_schedule_flush (ev e) s, S i)
      else if negb (i =? 0)%nat && is_control_up e then (w_schedule_flush 10 s, i)
      else w_scan again r (S i) (w_send e s)
  end.
(** [left] is the number of toggles still allowed. *)
Fixpoint w_flush_loop (left : nat) (i : nat) (s : wserver) : wserver * nat :=
  w_scan (match left with O => None | S left' => Some (w_flush_loop left') end) (skipn i (ws_buf s)) i s.

(** ServerState.cpp:285-341 *)
Definition w_flush_send_buffer (s : wserver) : wserver :=
  if ws_sending s then s
  else
    let '(s, i) := w_flush_loop 9 0 (w_flush false (w_sending true s)) in
    w_sending false (w_buf (skipn i (ws_buf s)) s).

Definition w_flush_unless_scheduled (s : wserver) : wserver :=
  if ws_flush s then s else w_flush_send_buffer s.

(** ServerState.cpp:28-34 *)
Definition w_set_active_contexts (l : list Z) (s : wserver) : wserver :=
  let '(m, out) := m_set_active_client_contexts l (ws_stage s) in
  w_flush_unless_scheduled (w_put out (w_stage (m_reuse_buffer m) s)).

(** ServerState.cpp:119-128 *)
Definition w_evaluate_filters (s : wserver) : wserver :=
  if negb (m_has_device_filters (ws_stage s)) || match ws_devices s with [] => true | _ => false end
  then s
  else
    let s := w_stage (m_evaluate_device_filters (ws_devices s) (ws_stage s)) s in
    w_set_active_contexts (m_client (ws_stage s)) s.

(** ServerState.cpp:103-112 *)
Definition w_reset_configuration (m : option mstage) (s : wserver) : wserver :=
  let s := w_flush_send_buffer (w_release_all_keys s) in
  let m := match m with Some m => m | None => MS [] [] [] end in
  w_evaluate_filters (w_clear_configuration m s).

Definition w_translate_input : event -> Z -> wserver -> wserver * bool :=
  w_translate_with (w_reset_configuration None).

(** ServerState.cpp:53-58 *)
Fixpoint w_inject_input (l : sequence) (s : wserver) : wserver :=
  match l with
  | [] => s
  | e :: r =>
      w_inject_input r
        (if match es e with Up | Down => true | _ => false end && is_device_key (ek e)
         then let '(s, ok) := w_translate_input e no_device s in
              if ok then s else w_push [e] s
         else s)
  end.

(** ServerState.cpp:12-65 *)
Definition w_on_message (m : message) (s : wserver) : wserver :=
  match m with
  | MConfig None => s
  | MConfig (Some m) => w_reset_configuration (Some m) s
  | MContexts l => w_set_active_contexts l s
  | MVirtual k st => w_flush_unless_scheduled (w_set_virtual_with w_translate_input k st s)
  | MValidate f => w_stage (m_validate_state f (ws_stage s)) s
  | MNextKey => w_next true s
  | MInjectInput l => w_schedule_flush 0 (w_inject_input l s)
  | MInjectOutput l => w_schedule_flush 0 (w_put l s)
  end.

(** * Hooks and messages of the window *)

(** main.cpp:231-246: an event of the keyboard which is neither injected nor unknown *)
Definition keyboard_hook (e : event) (s : wserver) : wserver :=
  let '(s, intercept) := w_translate_input e 0 s in
  if intercept then w_flush_unless_scheduled s else w_log (WPassed e) s.

(** main.cpp:280-304 *)
Definition mouse_hook (e : event) (s : wserver) : wserver :=
  let '(s, intercept) := w_translate_input e 1 s in
  if intercept then w_schedule_flush 0 s
  else
    let '(prevented, l) := prevent_button_repeat e (ws_buttons s) in
    let s := w_buttons l s in
    if prevented then w_schedule_flush 0 s else w_log (WPassed e) s.

(** One call of the window procedure or of a hook (main.cpp:373-441).  Events of the devices
    reach the applications directly while nothing is hooked. *)
Inductive wstep : Type :=
| WKey (e : event)                   (* keyboard_hook_proc *)
| WMouse (e : event)                 (* mouse_hook_proc *)
| WMessages (l : list message)       (* FD_READ: read_messages and apply_updates *)
| WClosed                            (* FD_CLOSE *)
| WFlushExpired                      (* TIMER_FLUSH_SEND_BUFFER *)
| WTimeoutExpired                    (* TIMER_TIMEOUT *)
| WDevices (ds : list device_desc).  (* set_device_descs *)

Definition w_step (x : wstep) (s : wserver) : wserver :=
  match x with
  | WKey e => if ws_hooked s then keyboard_hook e s else w_log (WPassed e) s
  | WMouse e => if ws_hooked s then mouse_hook e s else w_log (WPassed e) s
  | WMessages l => w_hooked true (fold_left (fun s m => w_on_message m s) l s)
  | WClosed => w_hooked false (w_reset_configuration None s)
  | WFlushExpired => w_flush_send_buffer s
  | WTimeoutExpired =>
      let e := expired_event (ws_timeout s) in
      w_flush_unless_scheduled (fst (w_translate_input e any_device (w_cancel_timeout s)))
  | WDevices ds => w_evaluate_filters (w_devices ds s)
  end.

(** DestroyWindow ends the loop once the current call returns (main.cpp:376-379, 492-495). *)
Fixpoint w_run (l : list wstep) (s : wserver) : wserver :=
  match l with
  | [] => s
  | x :: r => if ws_exited s then s else w_run r (w_step x s)
  end.

End Environment.
