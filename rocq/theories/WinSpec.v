(** What is expected of the server on Windows. *)
From Coq Require Import List Arith NArith ZArith Bool.
From Verif Require Import Base Key Match Stage MultiStage Server WinServer.
Import ListNotations.
Local Open Scope N_scope.

(** A key which is pressed (false) or released (true). *)
Definition stroke : Type := (key * bool)%type.

(** What an event the engine puts out is for the applications: virtual keys, commands and
    delays are for the server itself, and a wheel turns when it is released. *)
Definition shown (e : event) : list stroke :=
  if is_virtual_key (ek e) || is_action_key (ek e) || (ek e =? k_timeout)
     || is_mouse_wheel (ek e) && kstate_eqb (es e) Down
  then [] else [(ek e, kstate_eqb (es e) Up)].

(** The strokes the engine (or the client) put out, in order. *)
Definition put_out (x : weffect) : list stroke :=
  match x with
  | WFed _ _ out | WPut out => flat_map shown out
  | _ => []
  end.
Definition wanted (t : list weffect) : list stroke := flat_map put_out (rev t).

(** The strokes the applications see, in order. *)
Definition visible (x : weffect) : list stroke :=
  match x with
  | WSent e | WPassed e => [(ek e, kstate_eqb (es e) Up)]
  | _ => []
  end.
Definition seen (t : list weffect) : list stroke := flat_map visible (rev t).

(** Mouse buttons are pressed and released, not held back (as an output !ButtonLeft which
    is injected would). *)
Definition proper (e : event) : bool :=
  negb (is_mouse_button (ek e)) || match es e with Up | Down => true | _ => false end.
Definition proper_effect (x : weffect) : bool :=
  match x with
  | WFed _ _ out | WPut out => forallb proper out
  | _ => true
  end.
Definition proper_buttons (t : list weffect) : bool := forallb proper_effect t.

(** A mouse button is neither pressed while it is held nor released while it is not. *)
Definition hold (k : key) (b : bool) (held : key -> bool) : key -> bool :=
  fun x => if x =? k then b else held x.
Fixpoint settle (held : key -> bool) (l : list stroke) : list stroke :=
  match l with
  | [] => []
  | (k, up) :: r =>
      if is_mouse_button k then
        if Bool.eqb (held k) up then (k, up) :: settle (hold k (negb up) held) r
        else settle held r
      else (k, up) :: settle held r
  end.

(** The events of devices which were given to the engine, in order. *)
Definition fed_device (x : weffect) : list event :=
  match x with
  | WFed e _ _ => if is_device_key (ek e) then [e] else []
  | _ => []
  end.
Definition fed (t : list weffect) : list event := flat_map fed_device (rev t).

(** The event the engine gets for an event of a device: NumLock following Pause is part of
    the Pause key. *)
Definition given_event (e last : event) : event :=
  if kstate_eqb (es e) (es last) && (ek e =? NumLock_w) && (ek last =? Pause_w) then Ev Pause_w (es e) (ev e) else e.

(** No virtual key is toggled. *)
Definition no_virtual (l : sequence) : bool := forallb (fun e => negb (is_virtual_key (ek e) && kstate_eqb (es e) Down)) l.

(** Turning a wheel which is not mapped while the engine holds nothing back: it puts out
    the press of the wheel as it is. *)
Definition plain_wheel (e : event) (s : wserver) : Prop :=
  ws_start s = None /\
  exists m v, m_update (Ev (ek e) Down (ev e)) 1 (ws_stage s) = (m, [Ev (ek e) Down v]).

(** Replacing the configuration leaves nothing to be sent later. *)
Definition nothing_waits (clock : nat -> Z) (s : wserver) : Prop :=
  ws_buf (w_flush_send_buffer clock (w_release_all_keys s)) = [].

(** Messages of the client which are covered. *)
Definition fine_message (clock : nat -> Z) (m : message) (s : wserver) : Prop :=
  match m with
  | MConfig (Some _) => nothing_waits clock s
  | MVirtual k _ => is_virtual_key k = true
  | MInjectInput l => Forall (fun e => is_mouse_wheel (ek e) = false) l
  | _ => True
  end.
Fixpoint fine_messages (clock : nat -> Z) (l : list message) (s : wserver) : Prop :=
  match l with
  | [] => True
  | m :: r => fine_message clock m s /\ fine_messages clock r (w_on_message clock m s)
  end.

Definition fine_step (clock : nat -> Z) (x : wstep) (s : wserver) : Prop :=
  match x with
  | WKey e => ws_hooked s = true /\ is_keyboard_key (ek e) = true
  | WMouse e =>
      ws_hooked s = true /\
      (is_mouse_button (ek e) = true /\ (es e = Up \/ es e = Down)
       \/ is_mouse_wheel (ek e) = true /\ es e = Up /\ plain_wheel e s)
  | WMessages l => fine_messages clock l s
  | WClosed => nothing_waits clock s
  | _ => True
  end.
Fixpoint fine_run (clock : nat -> Z) (l : list wstep) (s : wserver) : Prop :=
  match l with
  | [] => True
  | x :: r => fine_step clock x s /\ fine_run clock r (w_step clock x s)
  end.

(** The same without conditions on the state, apart from being connected. *)
Definition usual_message (m : message) : Prop :=
  match m with
  | MVirtual k _ => is_virtual_key k = true
  | MInjectInput l => Forall (fun e => is_mouse_wheel (ek e) = false) l
  | _ => True
  end.
Definition usual_step (x : wstep) (s : wserver) : Prop :=
  match x with
  | WKey e => ws_hooked s = true /\ is_keyboard_key (ek e) = true
  | WMouse e =>
      ws_hooked s = true /\
      (is_mouse_button (ek e) = true /\ (es e = Up \/ es e = Down)
       \/ is_mouse_wheel (ek e) = true /\ es e = Up)
  | WMessages l => Forall usual_message l
  | _ => True
  end.
Fixpoint usual_run (clock : nat -> Z) (l : list wstep) (s : wserver) : Prop :=
  match l with
  | [] => True
  | x :: r => usual_step x s /\ usual_run clock r (w_step clock x s)
  end.

(** Whether a key is pressed after these strokes *)
Definition pressed_after (l : list stroke) (k : key) : bool :=
  fold_left (fun d x => if fst x =? k then negb (snd x) else d) l false.

(** What applications see is what was put out, in order, as far as it does not wait. *)
Definition in_order (s : wserver) : Prop :=
  exists c, wanted (ws_trace s) = c ++ flat_map shown (ws_buf s) /\
    seen (ws_trace s) = settle (fun _ => false) c.
