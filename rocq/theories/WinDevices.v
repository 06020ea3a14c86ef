(** Model of src/server/windows/Devices.cpp: the conversions for the Interception driver,
    the lists of devices, and how an event of the driver is attributed to a device. *)
From Coq Require Import List Arith NArith ZArith Bool.
From Verif Require Import Base Key Text Stage WinServer WinInput.
Import ListNotations.
Local Open Scope N_scope.

(** * Strokes of the driver *)

(** interception.h: InterceptionKeyStroke; the bits of the state are UP 1, E0 2, E1 4.
    InterceptionMouseStroke without flags and information. *)
Record key_stroke : Type := KStroke { ks_code : N; ks_state : N }.
Record mouse_stroke : Type := MStroke { mo_state : N; mo_rolling : Z; mo_x : Z; mo_y : Z }.
Inductive istroke : Type := SKey (s : key_stroke) | SMouse (s : mouse_stroke).

Definition bits_set (mask n : N) : bool := negb (N.land n mask =? 0).

(** Devices.cpp:18-24 *)
Definition i_key_event (s : key_stroke) : event :=
  ev0 (N.lor (ks_code s) (if bits_set 2 (ks_state s) then 0xE000 else 0)) (if bits_set 1 (ks_state s) then Up else Down).

(** Devices.cpp:26-61; None is a KeyEvent without a key *)
Definition i_mouse_event (s : mouse_stroke) : option event :=
  let is mask := bits_set mask (mo_state s) in
  if is 0x001 then Some (ev0 ButtonLeft Down)
  else if is 0x002 then Some (ev0 ButtonLeft Up)
  else if is 0x004 then Some (ev0 ButtonRight Down)
  else if is 0x008 then Some (ev0 ButtonRight Up)
  else if is 0x010 then Some (ev0 ButtonMiddle Down)
  else if is 0x020 then Some (ev0 ButtonMiddle Up)
  else if is 0x040 then Some (ev0 ButtonBack Down)
  else if is 0x080 then Some (ev0 ButtonBack Up)
  else if is 0x100 then Some (ev0 ButtonForward Down)
  else if is 0x200 then Some (ev0 ButtonForward Up)
  else if is 0xC00 then
    let k := if is 0x400 then (if (mo_rolling s <? 0)%Z then WheelDown else WheelUp)
             else (if (mo_rolling s <? 0)%Z then WheelLeft else WheelRight) in
    Some (Ev k Up (Z.to_N (Z.abs (mo_rolling s)) mod 4096))
  else None.

(** Devices.cpp:63-72 *)
Definition i_key_stroke (e : event) : key_stroke :=
  let state := if kstate_eqb (es e) Up then 1 else 0 in
  if bits_set 0xE000 (ek e) then KStroke (N.ldiff (ek e) 0xE000) (N.lor state 2)
  else KStroke (ek e) state.

(** Devices.cpp:74-106 *)
Definition i_mouse_stroke (e : event) : mouse_stroke :=
  let down := kstate_eqb (es e) Down in
  let state :=
    if ek e =? ButtonLeft then (if down then 0x001 else 0x002)
    else if ek e =? ButtonRight then (if down then 0x004 else 0x008)
    else if ek e =? ButtonMiddle then (if down then 0x010 else 0x020)
    else if ek e =? ButtonBack then (if down then 0x040 else 0x080)
    else if ek e =? ButtonForward then (if down then 0x100 else 0x200)
    else if (ek e =? WheelDown) || (ek e =? WheelUp) then 0x400
    else if (ek e =? WheelLeft) || (ek e =? WheelRight) then 0x800
    else 0 in
  MStroke state (if is_mouse_wheel (ek e) then wheel_value e else 0%Z) 0 0.

(** Devices.cpp:400-408 send_input, with 209-221.  interception_send succeeds. *)
Definition i_send (e : event) : istroke :=
  if is_keyboard_key (ek e) then SKey (i_key_stroke e) else SMouse (i_mouse_stroke e).

(** Devices.cpp:257-261: the event for a stroke which was received *)
Definition i_event (s : istroke) : option event :=
  match s with
  | SKey s => let e := i_key_event s in if ek e =? k_none then None else Some e
  | SMouse s => i_mouse_event s
  end.

(** * Devices *)

Section Devices.
Variable filters : Type.
(** evaluate_grab_filters of a device which is grabbed by default (Filter.h:35-44) *)
Variable grabs : filters -> device_desc -> bool.

(** Devices.h:32-39 without the driver.  A HANDLE is a number which is not 0. *)
Record wdevices : Type := WD {
  wd_filters : filters;
  wd_handles : list N;
  wd_descs : list device_desc;
  wd_ignored_handles : list N;
  wd_ignored_descs : list device_desc
}.

(** Devices.cpp:416-425 *)
Definition reset_device_filters (d : wdevices) : wdevices :=
  WD (wd_filters d) (wd_handles d ++ wd_ignored_handles d) (wd_descs d ++ wd_ignored_descs d) [] [].

(** Devices.cpp:427-443.  None: m_device_handles[i] is out of range.  [fuel] bounds the
    number of iterations. *)
Fixpoint apply_loop (fuel i : nat) (d : wdevices) : option wdevices :=
  match fuel with
  | O => Some d
  | S fuel =>
      match nth_error (wd_descs d) i with
      | None => Some d
      | Some desc =>
          match nth_error (wd_handles d) i with
          | None => None
          | Some handle =>
              if grabs (wd_filters d) desc then apply_loop fuel (S i) d
              else apply_loop fuel i
                     (WD (wd_filters d) (remove_at i (wd_handles d)) (remove_at i (wd_descs d))
                         (wd_ignored_handles d ++ [handle]) (wd_ignored_descs d ++ [desc]))
          end
      end
  end.
Definition apply_device_filters (d : wdevices) : option wdevices :=
  apply_loop (S (length (wd_descs d))) 0 d.

(** Devices.cpp:391-398; None is -1 *)
Definition get_device_index (h : N) (d : wdevices) : option nat :=
  if h =? 0 then None else find_index (N.eqb h) (wd_handles d).

(** Devices.cpp:316-375: [desc] is what Windows tells about the device, None when a call
    fails. *)
Definition on_device_attached (h : N) (desc : option device_desc) (d : wdevices) : option wdevices :=
  match desc with
  | None => Some d
  | Some x =>
      let d := reset_device_filters d in
      apply_device_filters (WD (wd_filters d) (wd_handles d ++ [h]) (wd_descs d ++ [x]) (wd_ignored_handles d) (wd_ignored_descs d))
  end.

(** Devices.cpp:381-389.  None also when m_device_descs[index] is out of range. *)
Definition on_device_removed (h : N) (d : wdevices) : option wdevices :=
  let d := reset_device_filters d in
  match get_device_index h d with
  | None => apply_device_filters d
  | Some i =>
      match nth_error (wd_descs d) i with
      | None => None
      | Some _ =>
          apply_device_filters (WD (wd_filters d) (remove_at i (wd_handles d)) (remove_at i (wd_descs d))
                                   (wd_ignored_handles d) (wd_ignored_descs d))
      end
  end.

(** Devices.cpp:410-414 *)
Definition set_grab_filters (f : filters) (d : wdevices) : option wdevices :=
  let d := reset_device_filters d in
  apply_device_filters (WD f (wd_handles d) (wd_descs d) (wd_ignored_handles d) (wd_ignored_descs d)).
Definition new_devices (f : filters) : wdevices := WD f [] [] [] [].
End Devices.
Arguments WD {filters}.
Arguments wd_filters {filters}.
Arguments wd_handles {filters}.
Arguments wd_descs {filters}.
Arguments wd_ignored_handles {filters}.
Arguments wd_ignored_descs {filters}.
Arguments get_device_index {filters}.
Arguments new_devices {filters}.

(** * Which device a stroke is of *)

(** A list of hardware identifiers: characters, each identifier ended by a zero.  The rest
    of the string is read up to a zero (a std::wstring is followed by one). *)
Fixpoint upto_zero (l : list N) : list N :=
  match l with [] => [] | c :: r => if c =? 0 then [] else c :: upto_zero r end.
Definition entry_at (l : list N) (pos : nat) : list N := upto_zero (skipn pos l).
(** find(L'\0', pos) + 1; npos + 1 is 0. *)
Definition next_entry (l : list N) (pos : nat) : nat :=
  match find_index (N.eqb 0) (skipn pos l) with Some i => S (pos + i) | None => O end.

Section Identifiers.
(** Devices.cpp:108-113: the numbers of the vendor, the product and the revision *)
Variable vid_pid_rev : list N -> option (N * N * N).

Definition same_numbers (a b : option (N * N * N)) : bool :=
  match a, b with
  | Some (v, p, r), Some (v', p', r') => (v =? v') && (p =? p') && (r =? r')
  | _, _ => false
  end.
Fixpoint same_entry (a b : list N) : bool :=
  match a, b with
  | [], [] => true
  | x :: a, y :: b => (x =? y) && same_entry a b
  | _, _ => false
  end.

(** Devices.cpp:120-129.  None: [fuel] did not suffice. *)
Fixpoint match_entry (fuel : nat) (a b : list N) (pos : nat) : option bool :=
  match fuel with
  | O => None
  | S fuel =>
      if (pos <? length b)%nat then
        if same_entry a (entry_at b pos) || same_numbers (vid_pid_rev a) (vid_pid_rev (entry_at b pos)) then Some true
        else match_entry fuel a b (next_entry b pos)
      else Some false
  end.
(** Devices.cpp:115-132 *)
Fixpoint match_ids (fuel : nat) (a b : list N) (pos : nat) : option bool :=
  match fuel with
  | O => None
  | S f =>
      if (pos <? length a)%nat then
        let e := entry_at a pos in
        match (if existsb (N.eqb 92) e then match_entry (S (length b)) e b 0 else Some false) with
        | None => None
        | Some true => Some true
        | Some false => match_ids f a b (next_entry a pos)
        end
      else Some false
  end.

(** Devices.cpp:153-155: m_handle_with_hardware_ids and m_handle_by_device *)
Record attribution : Type := At {
  at_ids : list (N * list N);
  at_cache : list (N * N)
}.
(** Devices.cpp:233-238; 0 is no handle *)
Fixpoint handle_by_ids (ids : list N) (l : list (N * list N)) : N :=
  match l with
  | [] => 0
  | (h, x) :: r => match match_ids (S (length x)) x ids 0 with Some true => h | _ => handle_by_ids ids r end
  end.
(** Devices.cpp:240-248.  [ids] is what the driver tells about the device. *)
Definition get_device_handle (device : N) (ids : list N) (a : attribution) : N * attribution :=
  match find (fun x => fst x =? device) (at_cache a) with
  | Some (_, h) => (h, a)
  | None =>
      let h := handle_by_ids ids (at_ids a) in
      (h, if h =? 0 then a else At (at_ids a) ((device, h) :: at_cache a))
  end.
(** Devices.cpp:205-207 *)
Definition set_device_ids (h : N) (ids : list N) (a : attribution) : attribution :=
  At (at_ids a ++ [(h, ids)]) (at_cache a).
End Identifiers.

(** * Devices with the driver *)

Section Driver.
Variable filters : Type.
Variable grabs : filters -> device_desc -> bool.
Variable vid_pid_rev : list N -> option (N * N * N).

Record wdriver : Type := DR { dr_devices : wdevices filters; dr_at : attribution }.

(** What happens: a device is attached (what Windows tells about it: its description and its
    hardware identifiers), a device is removed, there are other filters, or a stroke of a
    device of the driver is received (Devices.cpp:262 and main.cpp:411-416). *)
Inductive rstep : Type :=
| RAttached (h : N) (info : option (device_desc * list N))
| RRemoved (h : N)
| RFilters (f : filters)
| RStroke (device : N) (ids : list N).

(** The answer for a stroke is the index of the device, or None: then it is not translated *)
Definition r_step (x : rstep) (r : wdriver) : option (wdriver * list (option nat)) :=
  match x with
  | RAttached h info =>
      option_map (fun d => (DR d match info with Some (_, ids) => set_device_ids h ids (dr_at r) | None => dr_at r end, []))
        (on_device_attached filters grabs h (option_map fst info) (dr_devices r))
  | RRemoved h => option_map (fun d => (DR d (dr_at r), [])) (on_device_removed filters grabs h (dr_devices r))
  | RFilters f => option_map (fun d => (DR d (dr_at r), [])) (set_grab_filters filters grabs f (dr_devices r))
  | RStroke device ids =>
      let '(h, a) := get_device_handle vid_pid_rev device ids (dr_at r) in
      Some (DR (dr_devices r) a, [if h =? 0 then None else get_device_index h (dr_devices r)])
  end.
Fixpoint r_run (l : list rstep) (r : wdriver) : option (wdriver * list (option nat)) :=
  match l with
  | [] => Some (r, [])
  | x :: l =>
      match r_step x r with
      | Some (r, a) => match r_run l r with Some (r, b) => Some (r, a ++ b) | None => None end
      | None => None
      end
  end.
Definition new_driver (f : filters) : wdriver := DR (new_devices f) (At [] []).
End Driver.
Arguments DR {filters}.
Arguments dr_devices {filters}.
Arguments dr_at {filters}.
Arguments RAttached {filters}.
Arguments RRemoved {filters}.
Arguments RFilters {filters}.
Arguments RStroke {filters}.
Arguments new_driver {filters}.
