(** Model of src/server/ServerState.cpp and src/server/ServerState.h (as compiled for
    Linux: without the branches for _WIN32), of the conversions of src/runtime/Timeout.h
    which go through std::chrono::duration<double>, and of the calls the loop in
    src/server/unix/main.cpp makes. *)
From Coq Require Import List Arith NArith ZArith Bool SpecFloat.
From Verif Require Import Base Key Match Stage MultiStage.
Import ListNotations.
Local Open Scope N_scope.

(** * Time *)

(** IEEE 754 binary64 arithmetic (round to nearest even), SpecFloat of Coq's library. *)
Definition f64_of_Z (z : Z) : spec_float :=
  match z with
  | Z0 => S754_zero false
  | Zpos p => binary_normalize 53 1024 (Zpos p) 0 false
  | Zneg p => binary_normalize 53 1024 (Zneg p) 0 false
  end.
(** Conversion to an integer type: truncation towards zero. *)
Definition f64_trunc (f : spec_float) : Z :=
  match f with
  | S754_finite sgn m e =>
      let a := match e with
               | Z0 => Zpos m
               | Zpos p => (Zpos m * 2 ^ Zpos p)%Z
               | Zneg p => (Zpos m / 2 ^ Zpos p)%Z
               end in
      if sgn then (- a)%Z else a
  | _ => 0%Z
  end.

(** common/Duration.h:5: Duration is std::chrono::duration<double> (seconds).  The
    conversion of std::chrono::milliseconds (Timeout.h:19-21) divides by 1000. *)
Definition duration_of_ms (v : N) : spec_float :=
  SFdiv 53 1024 (f64_of_Z (Z.of_N v)) (f64_of_Z 1000).
(** std::chrono::duration_cast of a Duration multiplies by the number of ticks per
    second and truncates. *)
Definition duration_ticks (per_second : Z) (d : spec_float) : Z :=
  f64_trunc (SFmul 53 1024 d (f64_of_Z per_second)).

(** static_cast<int> of a 64 bit count, Timeout.h:15 *)
Definition to_int32 (z : Z) : Z := ((z + 2 ^ 31) mod 2 ^ 32 - 2 ^ 31)%Z.

(** Timeout.h:23-26 with a Duration (unix/main.cpp:134) *)
Definition expired_event (d : spec_float) : event :=
  make_input_timeout_event (to_int32 (duration_ticks 1000 d)).
(** Timeout.h:23-26 with a difference of steady_clock time points, which count
    nanoseconds (ServerState.cpp:204-207) *)
Definition elapsed_event (ns : Z) : event :=
  make_input_timeout_event (to_int32 (Z.quot ns 1000000)).

(** * State *)

(** What the server does, in order: calls of the virtual functions and of the client
    port, and (not observable from outside) pushes to the send buffer and calls of
    MultiStage::update. *)
Inductive effect : Type :=
| EFeed (e : event) (dev : Z)       (* m_stage->update *)
| EQueue (e : event)                (* m_send_buffer.push_back *)
| ESend (e : event) (ok : bool)     (* on_send_key and its result *)
| EAction (n : N)                   (* m_client->send_triggered_action *)
| EVirtual (k : key) (st : kstate)  (* m_client->send_virtual_key_state *)
| ENextKey (k : key) (d : option device_desc) (* m_client->send_next_key_info *)
| EFlushAt (v : N)                  (* on_flush_scheduled, milliseconds *)
| ETimeout (v : N) (on_up : bool)   (* on_timeout_scheduled, milliseconds *)
| ECancel                           (* on_timeout_cancelled *)
| EExit.                            (* on_exit_requested *)

(** ServerState.h:60-71.  [sv_trace] (newest first), [sv_ticks] and [sv_sends] (how
    often the clock was read and on_send_key was called) are additions of the model;
    [sv_oof]: the bounded recursion of translate_input was too short. *)
Record server : Type := SV {
  sv_stage : mstage;
  sv_buf : sequence;                  (* m_send_buffer *)
  sv_virtual : list key;              (* m_virtual_keys_down *)
  sv_last : event;                    (* m_last_key_event *)
  sv_sending : bool;                  (* m_sending_key *)
  sv_flush : option Z;                (* m_flush_scheduled_at *)
  sv_start : option Z;                (* m_timeout_start_at *)
  sv_timeout : spec_float;            (* m_timeout *)
  sv_on_up : bool;                    (* m_cancel_timeout_on_up *)
  sv_devices : list device_desc;      (* m_device_descs *)
  sv_next : bool;                     (* m_next_key_info_requested *)
  sv_trace : list effect;
  sv_ticks : nat;
  sv_sends : nat;
  sv_oof : bool
}.

Definition init_server : server :=
  SV (MS [] [] []) [] [] (Ev k_none Up 0) false None None (S754_zero false) false [] false
     [] 0 0 false.

Definition put_stage x s := SV x (sv_buf s) (sv_virtual s) (sv_last s) (sv_sending s) (sv_flush s) (sv_start s) (sv_timeout s) (sv_on_up s) (sv_devices s) (sv_next s) (sv_trace s) (sv_ticks s) (sv_sends s) (sv_oof s).
Definition put_buf x s := SV (sv_stage s) x (sv_virtual s) (sv_last s) (sv_sending s) (sv_flush s) (sv_start s) (sv_timeout s) (sv_on_up s) (sv_devices s) (sv_next s) (sv_trace s) (sv_ticks s) (sv_sends s) (sv_oof s).
Definition put_virtual x s := SV (sv_stage s) (sv_buf s) x (sv_last s) (sv_sending s) (sv_flush s) (sv_start s) (sv_timeout s) (sv_on_up s) (sv_devices s) (sv_next s) (sv_trace s) (sv_ticks s) (sv_sends s) (sv_oof s).
Definition put_last x s := SV (sv_stage s) (sv_buf s) (sv_virtual s) x (sv_sending s) (sv_flush s) (sv_start s) (sv_timeout s) (sv_on_up s) (sv_devices s) (sv_next s) (sv_trace s) (sv_ticks s) (sv_sends s) (sv_oof s).
Definition put_sending x s := SV (sv_stage s) (sv_buf s) (sv_virtual s) (sv_last s) x (sv_flush s) (sv_start s) (sv_timeout s) (sv_on_up s) (sv_devices s) (sv_next s) (sv_trace s) (sv_ticks s) (sv_sends s) (sv_oof s).
Definition put_flush x s := SV (sv_stage s) (sv_buf s) (sv_virtual s) (sv_last s) (sv_sending s) x (sv_start s) (sv_timeout s) (sv_on_up s) (sv_devices s) (sv_next s) (sv_trace s) (sv_ticks s) (sv_sends s) (sv_oof s).
Definition put_start x t u s := SV (sv_stage s) (sv_buf s) (sv_virtual s) (sv_last s) (sv_sending s) (sv_flush s) x t u (sv_devices s) (sv_next s) (sv_trace s) (sv_ticks s) (sv_sends s) (sv_oof s).
Definition put_devices x s := SV (sv_stage s) (sv_buf s) (sv_virtual s) (sv_last s) (sv_sending s) (sv_flush s) (sv_start s) (sv_timeout s) (sv_on_up s) x (sv_next s) (sv_trace s) (sv_ticks s) (sv_sends s) (sv_oof s).
Definition put_next x s := SV (sv_stage s) (sv_buf s) (sv_virtual s) (sv_last s) (sv_sending s) (sv_flush s) (sv_start s) (sv_timeout s) (sv_on_up s) (sv_devices s) x (sv_trace s) (sv_ticks s) (sv_sends s) (sv_oof s).
Definition log (x : effect) s := SV (sv_stage s) (sv_buf s) (sv_virtual s) (sv_last s) (sv_sending s) (sv_flush s) (sv_start s) (sv_timeout s) (sv_on_up s) (sv_devices s) (sv_next s) (x :: sv_trace s) (sv_ticks s) (sv_sends s) (sv_oof s).
Definition tick s := SV (sv_stage s) (sv_buf s) (sv_virtual s) (sv_last s) (sv_sending s) (sv_flush s) (sv_start s) (sv_timeout s) (sv_on_up s) (sv_devices s) (sv_next s) (sv_trace s) (S (sv_ticks s)) (sv_sends s) (sv_oof s).
Definition count_send s := SV (sv_stage s) (sv_buf s) (sv_virtual s) (sv_last s) (sv_sending s) (sv_flush s) (sv_start s) (sv_timeout s) (sv_on_up s) (sv_devices s) (sv_next s) (sv_trace s) (sv_ticks s) (S (sv_sends s)) (sv_oof s).
Definition put_oof s := SV (sv_stage s) (sv_buf s) (sv_virtual s) (sv_last s) (sv_sending s) (sv_flush s) (sv_start s) (sv_timeout s) (sv_on_up s) (sv_devices s) (sv_next s) (sv_trace s) (sv_ticks s) (sv_sends s) true.

(** m_send_buffer.push_back *)
Definition push (e : event) (s : server) : server := log (EQueue e) (put_buf (sv_buf s ++ [e]) s).

(** ServerState.cpp:76-79 *)
Definition send_key_sequence (l : sequence) (s : server) : server := fold_left (fun s e => push e s) l s.

(** ServerState.cpp:67-74 *)
Definition release_all_keys (s : server) : server :=
  send_key_sequence (map (fun k => ev0 k Up) (m_output_keys_down (sv_stage s))) s.

Section Environment.

(** The results of the successive calls of Clock::now() (nanoseconds), of on_send_key
    and of on_validate_key_is_down (ServerState.h:42-47). *)
Variable clock : nat -> Z.
Variable send_ok : nat -> bool.

(** ServerState.cpp:343-349 *)
Definition schedule_flush (v : N) (s : server) : server :=
  match sv_flush s with
  | Some _ => s
  | None =>
      log (EFlushAt v)
          (tick (put_flush (Some (clock (sv_ticks s)
                                  + duration_ticks 1000000000 (duration_of_ms v))%Z) s))
  end.

(** ServerState.cpp:355-360 *)
Definition schedule_timeout (v : N) (on_up : bool) (s : server) : server :=
  log (ETimeout v on_up)
      (tick (put_start (Some (clock (sv_ticks s))) (duration_of_ms v) on_up s)).

(** ServerState.cpp:370-374 *)
Definition cancel_timeout (s : server) : server :=
  log ECancel (put_start None (S754_zero false) (sv_on_up s) s).

(** ServerState.cpp:172-176 *)
Definition get_device_desc (dev : Z) (s : server) : option device_desc :=
  if (0 <=? dev)%Z then nth_error (sv_devices s) (Z.to_nat dev) else None.

(** ServerState.cpp:247-251 *)
Definition copy_delta (e : event) (l : sequence) : sequence :=
  if is_mouse_wheel (ek e)
  then map (fun x => if is_mouse_wheel (ek x) && (ev x =? 0) then Ev (ek x) (es x) (ev e) else x) l
  else l.

(** ServerState.cpp:226-276: the part of translate_input without recursion.  [reset] is
    reset_configuration with a new empty configuration. *)
Definition translate_core (reset : server -> server) (e : event) (dev : Z) (s : server)
  : server * bool :=
  let s := if ek e =? k_timeout then s else put_last e s in
  let '(m, out) := m_update e dev (sv_stage s) in
  let s := put_stage m (log (EFeed e dev) s) in
  if m_should_exit (sv_stage s) then (log EExit (reset s), true)
  else
    let '(s, out) :=
      match back out with
      | Some r => if ek r =? k_timeout
                  then (schedule_timeout (ev r) (cancel_timeout_on_up (es r)) s, pop_back out)
                  else (s, out)
      | None => (s, out)
      end in
    let s := send_key_sequence (copy_delta e out) s in
    (put_stage (m_reuse_buffer (sv_stage s)) s, true).

(** ServerState.cpp:178-277 *)
Fixpoint translate_with (reset : server -> server) (fuel : nat) (e : event) (dev : Z)
  (s : server) : server * bool :=
  match fuel with
  | O => (put_oof s, true)
  | S fuel =>
      if event_eqb e (sv_last s)
         && (match sv_flush s with Some _ => true | None => false end
             || match sv_start s with Some _ => true | None => false end)
      then (s, true)
      else if sv_next s && is_device_key (ek e) && negb (ek e =? ButtonLeft)
              && kstate_eqb (es e) Down
      then (put_next false (log (ENextKey (ek e) (get_device_desc dev s)) s), true)
      else
        let s :=
          match sv_start s with
          | Some t =>
              if kstate_eqb (es e) Down || sv_on_up s then
                let s1 := cancel_timeout (tick s) in
                fst (translate_with reset fuel (elapsed_event (clock (sv_ticks s) - t)) dev s1)
              else s
          | None => s
          end in
        let s :=
          if is_mouse_wheel (ek e) && kstate_eqb (es e) Up
          then fst (translate_with reset fuel (Ev (ek e) Down (ev e)) dev s)
          else s in
        translate_core reset e dev s
  end.

(** Deepest recursion: a wheel release, its press, the timeout cancelled by it. *)
Definition translate_depth : nat := 3.

(** ServerState.cpp:149-166 with the translate_input to use *)
Definition set_virtual_with (translate : event -> Z -> server -> server * bool)
  (k : key) (st : kstate) (s : server) : server :=
  let it := find_index (N.eqb k) (sv_virtual s) in
  let report st (s : server) := if is_virtual_key k then log (EVirtual k st) s else s in
  match it with
  | None =>
      if negb (kstate_eqb st Up) then
        let s := put_virtual (sv_virtual s ++ [k]) s in
        report Down (fst (translate (ev0 k Down) any_device s))
      else s
  | Some i =>
      if negb (kstate_eqb st Down) then
        let s := put_virtual (remove_at i (sv_virtual s)) s in
        report Up (fst (translate (ev0 k Up) any_device s))
      else s
  end.

(** reset_configuration (ServerState.cpp:103-112) without a new configuration while a
    flush is running: flush_send_buffer returns at once (286-287) and the empty
    configuration has no device filters. *)
Definition clear_configuration (m : mstage) (s : server) : server :=
  let s := put_virtual [] (put_stage m s) in
  let s := put_flush None s in
  put_start None (sv_timeout s) (sv_on_up s) s.
Definition reset_while_sending (s : server) : server :=
  clear_configuration (MS [] [] []) (release_all_keys s).

(** toggle_virtual_key (ServerState.cpp:168-170) as called during a flush *)
Definition toggle_virtual_key (k : key) (s : server) : server :=
  set_virtual_with (translate_with reset_while_sending translate_depth) k Not s.

(** The body of the loop in flush_send_buffer, ServerState.cpp:294-337, with the number
    [n] of toggled virtual keys. *)
Inductive flush_result : Type :=
| FNext (s : server) (i n : nat)
| FStop (s : server) (i : nat) (ok : bool).
Definition flush_body (s : server) (i n : nat) : flush_result :=
  match nth_error (sv_buf s) i with
  | None => FStop s i true
  | Some e =>
      if is_mouse_wheel (ek e) && kstate_eqb (es e) Down then FNext s (S i) n
      else if is_action_key (ek e) then
        FNext (if kstate_eqb (es e) Down then log (EAction (ek e - first_action)) s else s) (S i) n
      else if is_virtual_key (ek e) then
        if kstate_eqb (es e) Down then
          let n := S n in
          FNext (if (n <? 10)%nat then toggle_virtual_key (ek e) s else s) (S i) n
        else FNext s (S i) n
      else if ek e =? k_timeout then FStop (schedule_flush (ev e) s) (S i) true
      else if send_ok (sv_sends s)
      then FNext (log (ESend e true) (count_send s)) (S i) n
      else FStop (log (ESend e false) (count_send s)) i false
  end.

(** The loop.  [left] is the number of toggles still allowed; the inner recursion is
    over the rest of the buffer, which only changes by toggling.  That this is what
    iterating [flush_body] computes is proved in ServerQueue.v (flush_loop_body). *)
Fixpoint flush_loop (left : nat) (i : nat) (s : server) {struct left} : server * nat * bool :=
  (fix scan (rest : sequence) (i : nat) (s : server) {struct rest} : server * nat * bool :=
     match rest with
     | [] => (s, i, true)
     | e :: r =>
         if is_mouse_wheel (ek e) && kstate_eqb (es e) Down then scan r (S i) s
         else if is_action_key (ek e) then
           scan r (S i) (if kstate_eqb (es e) Down then log (EAction (ek e - first_action)) s else s)
         else if is_virtual_key (ek e) then
           if kstate_eqb (es e) Down then
             match left with
             | O => scan r (S i) s
             | S left' => flush_loop left' (S i) (toggle_virtual_key (ek e) s)
             end
           else scan r (S i) s
         else if ek e =? k_timeout then (schedule_flush (ev e) s, S i, true)
         else if send_ok (sv_sends s)
         then scan r (S i) (log (ESend e true) (count_send s))
         else (log (ESend e false) (count_send s), i, false)
     end) (skipn i (sv_buf s)) i s.

(** ServerState.cpp:285-341 *)
Definition flush_send_buffer (s : server) : server * bool :=
  if sv_sending s then (s, true)
  else
    let s := put_flush None (put_sending true s) in
    let '(s, i, ok) := flush_loop 9 0 s in
    (put_sending false (put_buf (skipn i (sv_buf s)) s), ok).

Definition flush_unless_scheduled (s : server) : server :=
  match sv_flush s with
  | None => fst (flush_send_buffer s)
  | Some _ => s
  end.

(** ServerState.cpp:28-34 *)
Definition set_active_contexts (l : list Z) (s : server) : server :=
  let '(m, out) := m_set_active_client_contexts l (sv_stage s) in
  let s := send_key_sequence out (put_stage m s) in
  flush_unless_scheduled (put_stage (m_reuse_buffer (sv_stage s)) s).

(** ServerState.cpp:119-128 *)
Definition evaluate_filters (s : server) : server :=
  if negb (m_has_device_filters (sv_stage s))
     || match sv_devices s with [] => true | _ => false end
  then s
  else
    let s := put_stage (m_evaluate_device_filters (sv_devices s) (sv_stage s)) s in
    set_active_contexts (m_client (sv_stage s)) s.

(** ServerState.cpp:114-117 *)
Definition set_device_descs (ds : list device_desc) (s : server) : server :=
  evaluate_filters (put_devices ds s).

(** ServerState.cpp:103-112 *)
Definition reset_configuration (m : option mstage) (s : server) : server :=
  let s := fst (flush_send_buffer (release_all_keys s)) in
  let m := match m with Some m => m | None => MS [] [] [] end in
  evaluate_filters (clear_configuration m s).

(** ServerState.cpp:178-277 as called outside of a flush *)
Definition translate_input (e : event) (dev : Z) (s : server) : server * bool :=
  translate_with (reset_configuration None) translate_depth e dev s.

(** * Messages of the client, ServerState.cpp:12-65 *)
Inductive message : Type :=
| MConfig (m : option mstage)
| MContexts (l : list Z)
| MVirtual (k : key) (st : kstate)
| MValidate (is_down : key -> bool)
| MNextKey
| MInjectInput (l : sequence)
| MInjectOutput (l : sequence).

(** ServerState.cpp:53-58 *)
Fixpoint inject_input (l : sequence) (s : server) : server :=
  match l with
  | [] => s
  | e :: r =>
      inject_input r
        (if match es e with Up | Down => true | _ => false end && is_device_key (ek e)
         then let '(s, ok) := translate_input e no_device s in
              if ok then s else push e s
         else s)
  end.

Definition on_message (m : message) (s : server) : server :=
  match m with
  | MConfig None => s
  | MConfig (Some m) => reset_configuration (Some m) s
  | MContexts l => set_active_contexts l s
  | MVirtual k st =>
      flush_unless_scheduled
        (set_virtual_with translate_input k st s)
  | MValidate f => put_stage (m_validate_state f (sv_stage s)) s
  | MNextKey => put_next true s
  | MInjectInput l => schedule_flush 0 (inject_input l s)
  | MInjectOutput l => schedule_flush 0 (send_key_sequence l s)
  end.

(** * The calls of the main loop, unix/main.cpp:88-164 *)
Inductive step : Type :=
| SInput (e : event) (dev : Z)      (* 117-124 *)
| SExpire                           (* 132-137 with the condition fulfilled *)
| SFlush                            (* 139-144 with the condition fulfilled *)
| SDevices (ds : list device_desc)  (* 146-153 and connection_loop 204 *)
| SMessage (m : message)            (* 156-162 *)
| SReset.                           (* connection_loop 212 *)

Definition server_step (x : step) (s : server) : server :=
  match x with
  | SInput e dev => fst (translate_input e dev s)
  | SExpire =>
      match sv_start s with
      | Some _ =>
          let e := expired_event (sv_timeout s) in
          fst (translate_input e any_device (cancel_timeout s))
      | None => s
      end
  | SFlush => fst (flush_send_buffer s)
  | SDevices ds => set_device_descs ds s
  | SMessage m => on_message m s
  | SReset => reset_configuration None s
  end.

Fixpoint server_run (l : list step) (s : server) : server :=
  match l with
  | [] => s
  | x :: r => server_run r (server_step x s)
  end.

End Environment.
