(** Model of the Linux devices: src/server/unix/VirtualDevicesLinux.cpp, and of
    src/server/unix/GrabbedDevicesLinux.cpp the conversions of input events.  Opening,
    grabbing and enumerating devices is in Grab.v. *)
From Coq Require Import List Arith NArith ZArith Bool.
From Verif Require Import Base Key.
Import ListNotations.
Local Open Scope Z_scope.

(** linux/input-event-codes.h *)
Definition EV_SYN : N := 0.
Definition EV_KEY : N := 1.
Definition EV_REL : N := 2.
Definition EV_ABS : N := 3.
Definition REL_HWHEEL : N := 6.
Definition REL_WHEEL : N := 8.
Definition REL_WHEEL_HI_RES : N := 11.
Definition REL_HWHEEL_HI_RES : N := 12.
Definition ABS_VOLUME : N := 0x20.
Definition ABS_MISC : N := 0x28.
Definition KEY_NUMERIC_0 : N := 0x200.

(** struct input_event without the time *)
Record ievent : Type := IE { ie_type : N; ie_code : N; ie_value : Z }.

(** ** Input, GrabbedDevicesLinux.cpp *)

(** GrabbedDevicesLinux.cpp:20-25 IntRange, default_abs_range *)
Record range : Type := Rg { r_min : Z; r_max : Z }.
Definition default_abs_range : range := Rg 0 1023.

Definition int_fits (z : Z) : bool := (-2147483648 <=? z) && (z <=? 2147483647).

(** GrabbedDevicesLinux.cpp:38-43.  None: an int overflows. *)
Definition map_to_range (value : Z) (from to : range) : option Z :=
  let d := r_max from - r_min from in
  if negb (int_fits d) then None
  else if d =? 0 then Some (r_min to)
  else
    let a := value - r_min from in
    let p := a * (r_max to - r_min to) in
    if negb (int_fits a) || negb (int_fits p) then None
    else Some (Z.quot p d + r_min to).

(** GrabbedDevicesLinux.cpp:294-301 Device, what is used of it *)
Record grabbed : Type := G {
  g_volume : range;
  g_misc : range;
  g_highres : bool
}.

(** GrabbedDevicesLinux.cpp:74-79 has_highres_wheel, from the bits of the relative axes *)
Definition has_highres_wheel (rel_axes : N) : bool :=
  N.testbit rel_axes REL_WHEEL_HI_RES || N.testbit rel_axes REL_HWHEEL_HI_RES.

(** GrabbedDevicesLinux.cpp:392-413: the event read from a device.  None: an int
    overflows. *)
Definition read_conversion (g : grabbed) (e : ievent) : option ievent :=
  let scaled (code : N) :=
    let v := ie_value e * 120 in
    if int_fits v then Some (IE (ie_type e) code v) else None in
  let mapped (r : range) :=
    option_map (IE (ie_type e) (ie_code e)) (map_to_range (ie_value e) r default_abs_range) in
  if N.eqb (ie_type e) EV_ABS then
    if N.eqb (ie_code e) ABS_VOLUME then mapped (g_volume g)
    else if N.eqb (ie_code e) ABS_MISC then mapped (g_misc g)
    else Some e
  else if N.eqb (ie_type e) EV_REL then
    if N.eqb (ie_code e) REL_WHEEL && negb (g_highres g) then scaled REL_WHEEL_HI_RES
    else if N.eqb (ie_code e) REL_HWHEEL && negb (g_highres g) then scaled REL_HWHEEL_HI_RES
    else Some e
  else Some e.

Definition WheelDown : key := 0x151%N.
Definition WheelLeft : key := 0x152%N.

(** GrabbedDevicesLinux.cpp:575-602; None: the event is forwarded.  The value is cut to
    the 12 bits of KeyEvent::value. *)
Definition to_key_event (e : ievent) : option event :=
  if N.eqb (ie_type e) EV_KEY then
    Some (ev0 (ie_code e) (if ie_value e =? 0 then Up else Down))
  else if N.eqb (ie_type e) EV_REL then
    if N.eqb (ie_code e) REL_WHEEL || N.eqb (ie_code e) REL_HWHEEL then Some (ev0 k_none Down)
    else if N.eqb (ie_code e) REL_WHEEL_HI_RES then
      Some (Ev (if ie_value e <? 0 then WheelDown else WheelUp) Up
               (N.modulo (Z.to_N (Z.abs (ie_value e))) 4096))
    else if N.eqb (ie_code e) REL_HWHEEL_HI_RES then
      Some (Ev (if ie_value e <? 0 then WheelLeft else WheelRight) Up
               (N.modulo (Z.to_N (Z.abs (ie_value e))) 4096))
    else None
  else None.

(** ** Output, VirtualDevicesLinux.cpp *)

(** The virtual keyboard, and the devices created for grabbed ones (by event_id). *)
Inductive vid : Type := VKeyboard | VForward (event_id : Z).
Definition vid_eqb (a b : vid) : bool :=
  match a, b with
  | VKeyboard, VKeyboard => true
  | VForward x, VForward y => x =? y
  | _, _ => false
  end.

(** DeviceDescLinux.h:6-28, what is used here *)
Record vdesc : Type := Desc {
  d_id : Z;
  d_keys : list N;
  d_rel : N;                       (* bits of the relative axes *)
  d_abs : list (N * range)
}.

(** VirtualDevicesLinux.cpp:44-70: what the virtual keyboard announces.  The buttons of
    57-58 are among the keys. *)
Definition keyboard_desc : vdesc :=
  Desc (-1) (map N.of_nat (seq 1 511))
       (N.shiftl 1 REL_WHEEL + N.shiftl 1 REL_HWHEEL + N.shiftl 1 REL_WHEEL_HI_RES + N.shiftl 1 REL_HWHEEL_HI_RES)
       [(ABS_VOLUME, Rg 0 1023); (ABS_MISC, Rg 0 1023)].

(** VirtualDevicesLinux.cpp:161-163.  REL_X | REL_Y is 0 | 1. *)
Definition desc_has_mouse_axes (d : vdesc) : bool := negb (N.eqb (N.land (d_rel d) 1) 0).

(** VirtualDevicesLinux.cpp:165-236 VirtualDevice.  m_highres_wheel_accumulators is the
    pair of the horizontal and the vertical one. *)
Record vdevice : Type := VD {
  vd_mouse : bool;
  vd_down : list key;
  vd_horizontal : Z;
  vd_vertical : Z
}.
Definition new_vdevice (mouse : bool) : vdevice := VD mouse [] 0 0.

(** What the kernel is told: writes to a device and whether they succeeded, devices
    created and destroyed. *)
Inductive vwrite : Type :=
| WEvent (d : vid) (e : ievent) (ok : bool)
| WCreate (d : vdesc)
| WDestroy (id : Z).

(** VirtualDevicesLinux.cpp:241-246 VirtualDevicesImpl, with m_keyboard created.
    [vs_ub]: m_devices was accessed out of range. *)
Record vdevices : Type := VS {
  vs_keyboard : vdevice;
  vs_forward : list (Z * vdevice);
  vs_devices : list vid;
  vs_last : option vid;
  vs_log : list vwrite;
  vs_ub : bool
}.

(** VirtualDevicesLinux.cpp:249-255 create_keyboard_device of a new VirtualDevicesImpl *)
Definition new_vdevices : vdevices := VS (new_vdevice false) [] [] None [] false.

Definition vlog (w : vwrite) (s : vdevices) : vdevices :=
  VS (vs_keyboard s) (vs_forward s) (vs_devices s) (vs_last s) (vs_log s ++ [w]) (vs_ub s).
Definition set_last (l : option vid) (s : vdevices) : vdevices :=
  VS (vs_keyboard s) (vs_forward s) (vs_devices s) l (vs_log s) (vs_ub s).
Definition get_forward (id : Z) (l : list (Z * vdevice)) : option vdevice :=
  option_map snd (find (fun x => fst x =? id) l).
Definition get_vdevice (d : vid) (s : vdevices) : vdevice :=
  match d with
  | VKeyboard => vs_keyboard s
  | VForward id => match get_forward id (vs_forward s) with Some x => x | None => new_vdevice false end
  end.
Definition put_vdevice (d : vid) (x : vdevice) (s : vdevices) : vdevices :=
  match d with
  | VKeyboard => VS x (vs_forward s) (vs_devices s) (vs_last s) (vs_log s) (vs_ub s)
  | VForward id =>
      VS (vs_keyboard s) (map (fun y => if fst y =? id then (id, x) else y) (vs_forward s))
         (vs_devices s) (vs_last s) (vs_log s) (vs_ub s)
  end.

(** VirtualDevicesLinux.cpp:190-209 *)
Definition update_key_state (e : event) (x : vdevice) : Z * vdevice :=
  let found := existsb (N.eqb (ek e)) (vd_down x) in
  let set l := VD (vd_mouse x) l (vd_horizontal x) (vd_vertical x) in
  if kstate_eqb (es e) Up then
    (0, if found then set (List.filter (fun k => negb (N.eqb k (ek e))) (vd_down x)) else x)
  else if found then (2, x)
  else (1, set (vd_down x ++ [ek e])).

(** VirtualDevicesLinux.cpp:211-217 *)
Definition update_lowres_wheel (vertical : bool) (highres : Z) (x : vdevice) : Z * vdevice :=
  let a := (if vertical then vd_vertical x else vd_horizontal x) + highres in
  let lowres := Z.quot a 120 in
  let a := a - lowres * 120 in
  (lowres, if vertical then VD (vd_mouse x) (vd_down x) (vd_horizontal x) a
           else VD (vd_mouse x) (vd_down x) a (vd_vertical x)).

Section Devices.
(** Whether the n-th write to a device succeeds. *)
Variable write_ok : nat -> bool.
(** Whether create_forward_device succeeds. *)
Variable create_ok : nat -> bool.

(** VirtualDevicesLinux.cpp:219-235 *)
Definition send_event (d : vid) (e : ievent) (s : vdevices) : vdevices * bool :=
  let ok := write_ok (length (vs_log s)) in
  (vlog (WEvent d e ok) s, ok).

Definition syn : ievent := IE EV_SYN 0 0.

(** VirtualDevicesLinux.cpp:294-314 *)
Definition send_key_event (e : event) (s : vdevices) : vdevices * bool :=
  let d := match vs_last s with
           | Some m => if is_mouse_button (ek e) || is_mouse_wheel (ek e) then m else VKeyboard
           | None => VKeyboard
           end in
  if is_mouse_wheel (ek e) then
    let vertical := N.eqb (ek e) WheelUp || N.eqb (ek e) WheelDown in
    let negative := N.eqb (ek e) WheelDown || N.eqb (ek e) WheelLeft in
    let value := (if N.eqb (ev e) 0 then 120 else Z.of_N (ev e)) * (if negative then -1 else 1) in
    let s := fst (send_event d (IE EV_REL (if vertical then REL_WHEEL_HI_RES else REL_HWHEEL_HI_RES) value) s) in
    let '(lowres, x) := update_lowres_wheel vertical value (get_vdevice d s) in
    let s := put_vdevice d x s in
    let s := if lowres =? 0 then s
             else fst (send_event d (IE EV_REL (if vertical then REL_WHEEL else REL_HWHEEL) lowres) s) in
    send_event d syn s
  else
    let '(value, x) := update_key_state e (get_vdevice d s) in
    let s := put_vdevice d x s in
    let '(s, ok) := send_event d (IE EV_KEY (ek e) value) s in
    if ok then send_event d syn s else (s, false).

(** VirtualDevicesLinux.cpp:285-292 *)
Definition forward_event (index : nat) (e : ievent) (s : vdevices) : vdevices * bool :=
  match nth_error (vs_devices s) index with
  | None => (VS (vs_keyboard s) (vs_forward s) (vs_devices s) (vs_last s) (vs_log s) true, false)
  | Some d =>
      let s := if vd_mouse (get_vdevice d s) then set_last (Some d) s else s in
      send_event d e s
  end.

(** VirtualDevicesLinux.cpp:262-281: the loop; [prev] are the devices of before which
    were not reused yet. *)
Fixpoint update_loop (l : list (option vdesc)) (prev : list (Z * vdevice)) (s : vdevices)
    : list (Z * vdevice) * vdevices * bool :=
  match l with
  | [] => (prev, s, true)
  | None :: r =>
      update_loop r prev (VS (vs_keyboard s) (vs_forward s) (vs_devices s ++ [VKeyboard]) (vs_last s) (vs_log s) (vs_ub s))
  | Some d :: r =>
      match get_forward (d_id d) prev with
      | Some x =>
          update_loop r (List.filter (fun y => negb (fst y =? d_id d)) prev)
            (VS (vs_keyboard s) (vs_forward s ++ [(d_id d, x)]) (vs_devices s ++ [VForward (d_id d)])
                (vs_last s) (vs_log s) (vs_ub s))
      | None =>
          if create_ok (length (vs_log s)) then
            update_loop r prev
              (VS (vs_keyboard s) (vs_forward s ++ [(d_id d, new_vdevice (desc_has_mouse_axes d))])
                  (vs_devices s ++ [VForward (d_id d)]) (vs_last s) (vs_log s ++ [WCreate d]) (vs_ub s))
          else
            (prev, VS (vs_keyboard s) (vs_forward s) (vs_devices s ++ [VKeyboard]) (vs_last s) (vs_log s) (vs_ub s), false)
      end
  end.

(** VirtualDevicesLinux.cpp:257-283.  The devices which were not reused are destroyed
    with [prev]. *)
Definition update_forward_devices (l : list (option vdesc)) (s : vdevices) : vdevices * bool :=
  let '(prev, s, ok) :=
    update_loop l (vs_forward s) (VS (vs_keyboard s) [] [] None (vs_log s) (vs_ub s)) in
  (fold_left (fun s x => vlog (WDestroy (fst x)) s) prev s, ok).

(** The calls made by main_loop (unix/main.cpp:88-165) and on_send_key (30-32). *)
Inductive vcall : Type :=
| VSend (e : event)
| VForwarded (index : nat) (e : ievent)
| VUpdate (l : list (option vdesc)).

Definition vstep (c : vcall) (s : vdevices) : vdevices :=
  match c with
  | VSend e => fst (send_key_event e s)
  | VForwarded i e => fst (forward_event i e s)
  | VUpdate l => fst (update_forward_devices l s)
  end.
Definition vrun (l : list vcall) (s : vdevices) : vdevices := fold_left (fun s c => vstep c s) l s.
End Devices.
