(** Model of src/runtime/Key.h, src/runtime/KeyEvent.h and src/runtime/Timeout.h. *)
From Coq Require Import List NArith ZArith Bool.
From Verif Require Import Base.
Import ListNotations.
Open Scope N_scope.

(** Key.h:7-485 `enum class Key : uint16_t`; a key is its code.  Only the codes
    the runtime refers to by name are listed here. *)
Definition key := N.
Definition k_none : key := 0.            (* Key.h `none` *)
Definition Escape : key := 0x01.
Definition ShiftLeft : key := 0x2A.
Definition ShiftRight : key := 0x36.
Definition ControlLeft : key := 0x1D.
Definition ControlRight : key := 0x61.
Definition AltLeft : key := 0x38.
Definition AltRight : key := 0x64.
Definition MetaLeft : key := 0x7D.
Definition MetaRight : key := 0x7E.
Definition K_K : key := 0x25.
Definition ButtonLeft : key := 0x110.    (* Key.h:454 *)
Definition ButtonForward : key := 0x114. (* Key.h:458 *)
Definition WheelUp : key := 0x150.       (* Key.h:460 *)
Definition WheelRight : key := 0x153.    (* Key.h:463 *)
Definition k_any : key := 0xF000.        (* Key.h:465 *)
Definition k_timeout : key := 0xF001.
Definition k_ContextActive : key := 0xF002.
Definition k_unicode_output : key := 0xF003.
Definition last_keyboard_key : key := 0xEFFF.
Definition first_virtual : key := 0xF100.
Definition last_virtual : key := 0xF1FF.
Definition first_action : key := 0xF200.
Definition last_action : key := 0xF2FF.
Definition first_logical : key := 0xF300.
Definition last_logical : key := 0xF3FF.

Definition in_range (lo hi k : N) : bool := (lo <=? k) && (k <=? hi).

(** Key.h:489-491 *)
Definition is_virtual_key (k : key) : bool := in_range first_virtual last_virtual k.
(** Key.h:493-495 *)
Definition is_mouse_button (k : key) : bool := in_range ButtonLeft ButtonForward k.
(** Key.h:497-499 *)
Definition is_mouse_wheel (k : key) : bool := in_range WheelUp WheelRight k.
(** Key.h:501-505 *)
Definition is_keyboard_key (k : key) : bool :=
  (k_none <? k) && (k <=? last_keyboard_key)
  && negb (is_mouse_button k) && negb (is_mouse_wheel k).
(** Key.h:507-511 *)
Definition is_device_key (k : key) : bool :=
  is_keyboard_key k || is_mouse_button k || is_mouse_wheel k.
(** Key.h:513-515 *)
Definition is_action_key (k : key) : bool := in_range first_action last_action k.
(** Key.h:517-532 *)
Definition is_common_modifier (k : key) : bool :=
  existsb (N.eqb k) [ShiftLeft; ShiftRight; ControlLeft; ControlRight;
                     AltLeft; AltRight; MetaLeft; MetaRight].

(** KeyEvent.h:14-30 `enum class KeyState`; the timeout states are aliases:
    NotTimeout_cancel_on_down = Not, Timeout_cancel_on_up_down = Up,
    Timeout_cancel_on_down = Down. *)
Inductive kstate : Type :=
| Up | Down | Not | UpAsync | DownAsync | NoMightMatch | OutputOnRelease
| DownMatched | UpMatched | NotTimeoutUpDown.

Definition kstate_eqb (a b : kstate) : bool :=
  match a, b with
  | Up, Up | Down, Down | Not, Not | UpAsync, UpAsync | DownAsync, DownAsync
  | NoMightMatch, NoMightMatch | OutputOnRelease, OutputOnRelease
  | DownMatched, DownMatched | UpMatched, UpMatched
  | NotTimeoutUpDown, NotTimeoutUpDown => true
  | _, _ => false
  end.

(** KeyEvent.h:32-55 `struct KeyEvent`; value has 12 bits (0..4095), which is a
    well-formedness condition here ([wf_value]). *)
Record event : Type := Ev { ek : key; es : kstate; ev : N }.
Definition ev0 (k : key) (s : kstate) : event := Ev k s 0.
Definition event_eqb (a b : event) : bool :=
  (ek a =? ek b) && kstate_eqb (es a) (es b) && (ev a =? ev b).
Definition set_es (s : kstate) (e : event) : event := Ev (ek e) s (ev e).
Definition wf_value (e : event) : Prop := ev e < 4096.

(** KeyEvent.h:58-61 *)
Definition is_not_timeout (s : kstate) : bool :=
  match s with Not | NotTimeoutUpDown => true | _ => false end.
(** KeyEvent.h:63-66 *)
Definition cancel_timeout_on_up (s : kstate) : bool :=
  match s with NotTimeoutUpDown | Up => true | _ => false end.

Definition sequence := list event.

(** Timeout.h:9-17 duration_to_timeout: clamp of a millisecond count.  The cast
    to int of the 64-bit count is the identity for counts below 2^31. *)
Definition duration_to_timeout (ms : Z) : N :=
  Z.to_N (Z.max 0 (Z.min ms 4095)).
(** Timeout.h:23-26 make_input_timeout_event *)
Definition make_input_timeout_event (ms : Z) : event :=
  Ev k_timeout Up (duration_to_timeout ms).
(** Timeout.h:28-32 sum_timeouts *)
Definition sum_timeouts (a b : N) : N := N.min (a + b) 4095.
