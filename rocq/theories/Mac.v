(** Model of the devices on macOS: src/server/unix/VirtualDevicesMacOS.cpp and
    src/server/unix/GrabbedDevicesMacOS.cpp. *)
From Coq Require Import List Arith NArith ZArith Bool.
From Verif Require Import Base Key Stage.
Import ListNotations.
Local Open Scope N_scope.

(** * The virtual keyboard *)

(** The reports (VirtualDevicesMacOS.cpp:20-23).  The keys of a report are a set; that it has
    32 places is not modelled. *)
Inductive report : Type := RKeyboard | RConsumer | RDesktop | RTopCase.
Definition report_eqb (a b : report) : bool :=
  match a, b with
  | RKeyboard, RKeyboard | RConsumer, RConsumer | RDesktop, RDesktop | RTopCase, RTopCase => true
  | _, _ => false
  end.

(** VirtualDevicesMacOS.cpp:13 and 20-25: macos_toggle_fn, the reports, m_fn_key_hold and
    m_hold_function_keys.  The connection to the driver is there (m_state). *)
Record mac : Type := Mac {
  ma_toggle_fn : bool;
  ma_reports : report -> list N;
  ma_fn : bool;
  ma_hold : list key
}.
Definition new_mac : mac := Mac false (fun _ => []) false [].

Definition insert_usage (u : N) (l : list N) : list N := if existsb (N.eqb u) l then l else l ++ [u].
Definition erase_usage (u : N) (l : list N) : list N := List.filter (fun x => negb (x =? u)) l.
(** VirtualDevicesMacOS.cpp:27-36 *)
Definition toggle_key (r : report) (usage : N) (down : bool) (m : mac) : mac :=
  Mac (ma_toggle_fn m)
    (fun x => if report_eqb x r then (if down then insert_usage else erase_usage) usage (ma_reports m x) else ma_reports m x)
    (ma_fn m) (ma_hold m).

(** Key.h:335-372, for macOS *)
Definition Backspace_m : key := 0x2A.
Definition F1_m : key := 0x3A.
Definition F12_m : key := 0x45.
Definition Home_m : key := 0x4A.
Definition PageUp_m : key := 0x4B.
Definition Delete_m : key := 0x4C.
Definition End_m : key := 0x4D.
Definition PageDown_m : key := 0x4E.
Definition ArrowRight_m : key := 0x4F.
Definition ArrowUp_m : key := 0x52.

(** VirtualDevicesMacOS.cpp:109-113 *)
Definition is_function_key (k : key) : bool :=
  ((F1_m <=? k) && (k <=? F12_m)) || ((ArrowRight_m <=? k) && (k <=? ArrowUp_m)) || (k =? Backspace_m).

(** VirtualDevicesMacOS.cpp:115-132 *)
Definition toggle_function_key (e : event) (m : mac) : bool * mac :=
  let put l := Mac (ma_toggle_fn m) (ma_reports m) (ma_fn m) l in
  if kstate_eqb (es e) Down then
    if Bool.eqb (ma_toggle_fn m) (ma_fn m) then (true, put (ma_hold m ++ [ek e])) else (false, m)
  else
    match find_index (N.eqb (ek e)) (ma_hold m) with
    | Some i => (true, put (remove_at i (ma_hold m)))
    | None => (false, m)
    end.

(** VirtualDevicesMacOS.cpp:136-155 *)
Definition function_usage (k : key) : report * N :=
  match k with
  | 0x3A => (RConsumer, 0x70) | 0x3B => (RConsumer, 0x6F) | 0x3C => (RConsumer, 0x29F)
  | 0x3D => (RConsumer, 0x221) | 0x3E => (RConsumer, 0xCF) | 0x3F => (RDesktop, 0x9B)
  | 0x40 => (RConsumer, 0xB6) | 0x41 => (RConsumer, 0xCD) | 0x42 => (RConsumer, 0xB5)
  | 0x43 => (RConsumer, 0xE2) | 0x44 => (RConsumer, 0xEA) | 0x45 => (RConsumer, 0xE9)
  | 0x4F => (RKeyboard, End_m) | 0x50 => (RKeyboard, Home_m)
  | 0x51 => (RKeyboard, PageDown_m) | 0x52 => (RKeyboard, PageUp_m)
  | 0x2A => (RKeyboard, Delete_m)
  | _ => (RKeyboard, k)
  end.

(** VirtualDevicesMacOS.cpp:103-158 *)
Definition mac_send (e : event) (m : mac) : mac :=
  let down := kstate_eqb (es e) Down in
  if is_function_key (ek e) then
    let '(b, m) := toggle_function_key e m in
    let '(r, u) := if b then function_usage (ek e) else (RKeyboard, ek e) in
    toggle_key r u down m
  else toggle_key RKeyboard (ek e) down m.

(** VirtualDevicesMacOS.cpp:164-183 *)
Definition mac_forward (page usage : N) (value : Z) (m : mac) : mac :=
  let down := negb (value =? 0)%Z in
  if page =? 0x0C then toggle_key RConsumer usage down m
  else if page =? 0xFF then
    let m := toggle_key RTopCase usage down m in
    Mac (ma_toggle_fn m) (ma_reports m) down (ma_hold m)
  else m.

(** main.cpp:72-73: a directive of the configuration *)
Definition mac_directive (b : bool) (m : mac) : mac := Mac b (ma_reports m) (ma_fn m) (ma_hold m).

Inductive mstep : Type :=
| MaKey (e : event)
| MaForward (page usage : N) (value : Z)
| MaDirective (b : bool).
Definition mac_step (x : mstep) (m : mac) : mac :=
  match x with
  | MaKey e => mac_send e m
  | MaForward p u v => mac_forward p u v m
  | MaDirective b => mac_directive b m
  end.
Definition mac_run (l : list mstep) (m : mac) : mac := fold_left (fun m x => mac_step x m) l m.

(** * Input *)

(** GrabbedDevices.h: Event *)
Record mevent : Type := ME { me_index : nat; me_page : N; me_usage : N; me_value : Z }.

(** GrabbedDevicesMacOS.cpp:337-349 *)
Definition mac_key_event (e : mevent) : option event :=
  if negb (me_page e =? 7) || (me_usage e <? 4) || (0xE7 <? me_usage e) then None
  else Some (ev0 (me_usage e) (if (me_value e =? 0)%Z then Up else Down)).

(** GrabbedDevicesMacOS.cpp:231-242; [iso]: macos_iso_keyboard, [builtin]: is_builtin_device *)
Definition swap_keys (iso builtin : bool) (page usage : N) : N :=
  if iso && (page =? 7) && builtin then
    if usage =? 0x64 then 0x35 else if usage =? 0x35 then 0x64 else usage
  else usage.

(** * Devices *)

Section Devices.
(** What is known about a device (a pointer, which is not null): whether it is one of the
    server's own (by its vendor), its name and identifier, and whether the filters want it
    (evaluate_grab_filters with is_grabbed_by_default, GrabbedDevicesMacOS.cpp:274-275). *)
Variable virtual : N -> bool.
Variable desc : N -> device_desc.
Variable wanted : N -> bool.
Variable builtin : N -> bool.
Variable iso : bool.

(** GrabbedDevicesMacOS.cpp:113-120.  [mg_open] are the devices which are opened and seized. *)
Record mgrab : Type := MG {
  mg_devices : list N;
  mg_descs : list device_desc;
  mg_queue : list mevent;
  mg_changed : bool;
  mg_open : list N
}.
Definition new_mgrab : mgrab := MG [] [] [] false [].

(** GrabbedDevicesMacOS.cpp:260-292: [previous] with null pointers (0) for those which stay;
    the devices which are grabbed and the ones which are open.  [ok]: whether
    IOHIDDeviceOpen succeeds. *)
Fixpoint grab_wanted (ok : N -> bool) (l previous grabbed open : list N) : list N * list N * list N :=
  match l with
  | [] => (previous, grabbed, open)
  | d :: r =>
      if virtual d then grab_wanted ok r previous grabbed open
      else match dev_name (desc d) with
           | [] => grab_wanted ok r previous grabbed open
           | _ =>
               if wanted d then
                 match find_index (N.eqb d) previous with
                 | None => if ok d then grab_wanted ok r previous (grabbed ++ [d]) (open ++ [d])
                           else grab_wanted ok r previous grabbed open
                 | Some i => grab_wanted ok r (update_at i (fun _ => 0) previous) (grabbed ++ [d]) open
                 end
               else grab_wanted ok r previous grabbed open
           end
  end.

(** GrabbedDevicesMacOS.cpp:294-299.  None: m_grabbed_device_descs[i] is out of range. *)
Fixpoint ungrab (previous : list N) (descs : list device_desc) (open : list N) : option (list N) :=
  match previous with
  | [] => Some open
  | d :: r =>
      if d =? 0 then ungrab r (tl descs) open
      else match descs with
           | [] => None
           | _ :: ds => ungrab r ds (List.filter (fun x => negb (x =? d)) open)
           end
  end.

(** GrabbedDevicesMacOS.cpp:247-307: [present] are the devices, sorted. *)
Definition mac_update (ok : N -> bool) (present : list N) (g : mgrab) : option mgrab :=
  let '(previous, grabbed, open) := grab_wanted ok present (mg_devices g) [] (mg_open g) in
  match ungrab previous (mg_descs g) open with
  | None => None
  | Some open => Some (MG grabbed (map desc grabbed) (mg_queue g) (mg_changed g) open)
  end.

(** GrabbedDevicesMacOS.cpp:227-245: std::find gives the end for a device which is not there *)
Definition mac_input (d page usage : N) (value : Z) (g : mgrab) : mgrab :=
  let i := match find_index (N.eqb d) (mg_devices g) with Some i => i | None => length (mg_devices g) end in
  MG (mg_devices g) (mg_descs g) (mg_queue g ++ [ME i page (swap_keys iso (builtin d) page usage) value])
    (mg_changed g) (mg_open g).

(** What happens while the run loop runs (GrabbedDevicesMacOS.cpp:174): input, and devices
    which come or go; and a turn of main_loop (main.cpp:110-154): an event is read
    (GrabbedDevicesMacOS.cpp:149-179), and unless it is forwarded the devices are updated
    (181-188).  The answer is the event with the description the server has for it. *)
Inductive gstep : Type :=
| GInput (d page usage : N) (value : Z)
| GChanged
| GTurn (ok : N -> bool) (present : list N).
Definition g_update (ok : N -> bool) (present : list N) (g : mgrab) : option mgrab :=
  if mg_changed g then
    option_map (fun g => MG (mg_devices g) (mg_descs g) (mg_queue g) false (mg_open g)) (mac_update ok present g)
  else Some g.
Definition g_step (x : gstep) (g : mgrab) : option (mgrab * list (mevent * option device_desc)) :=
  match x with
  | GInput d page usage value => Some (mac_input d page usage value g, [])
  | GChanged => Some (MG (mg_devices g) (mg_descs g) (mg_queue g) true (mg_open g), [])
  | GTurn ok present =>
      match mg_queue g with
      | [] => option_map (fun g => (g, [])) (g_update ok present g)
      | e :: q =>
          let g' := MG (mg_devices g) (mg_descs g) q (mg_changed g) (mg_open g) in
          let a := [(e, nth_error (mg_descs g) (me_index e))] in
          match mac_key_event e with
          | None => Some (g', a)
          | Some _ => option_map (fun g => (g, a)) (g_update ok present g')
          end
      end
  end.
Fixpoint g_run (l : list gstep) (g : mgrab) : option (mgrab * list (mevent * option device_desc)) :=
  match l with
  | [] => Some (g, [])
  | x :: r =>
      match g_step x g with
      | Some (g, a) => match g_run r g with Some (g, b) => Some (g, a ++ b) | None => None end
      | None => None
      end
  end.
End Devices.
