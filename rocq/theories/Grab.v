(** Model of src/server/unix/GrabbedDevicesLinux.cpp: which devices are grabbed, how they
    are read, and the part of main_loop (src/server/unix/main.cpp) which concerns devices.

    The kernel is given from outside: the devices in /dev/input, what select reports, which
    keys are held when the server asks.  Simplified: a name in the directory is the number
    sscanf reads from it, names for which it reads none are left out; an ioctl only fails on
    a device which is gone, apart from EVIOCGRAB; dup succeeds.  Verbose output is left out. *)
From Coq Require Import String Ascii List Arith NArith ZArith Bool.
From Verif Require Import Base Key Text Stage Config Client Device.
Import ListNotations.
Local Open Scope Z_scope.

(** A device in /dev/input.  [n_dev] identifies the device behind the name: the kernel uses
    the number of a removed device for the next one. *)
Record node : Type := Node {
  n_event : Z;                     (* the number of /dev/input/event%d *)
  n_dev : nat;
  n_opens : bool;                  (* open and is_character_file succeed *)
  n_grabs : bool;                  (* EVIOCGRAB succeeds *)
  n_version : bool;                (* EVIOCGVERSION reports EV_VERSION *)
  n_name : text;
  n_link : text;                   (* the name in /dev/input/by-id, empty when there is none *)
  n_types : N;                     (* bits of the types of events *)
  n_keys : list N;
  n_rel : N;                       (* bits of the relative axes *)
  n_abs : list (N * range);        (* the absolute axes *)
  n_switches : N                   (* bits of the switches *)
}.

(** GrabbedDevicesLinux.cpp:29-32 *)
Definition ends_with (t e : text) : bool :=
  (length e <=? length t)%nat && text_eqb (skipn (length t - length e) t) e.
(** VirtualDevices.h:11 *)
Definition virtual_name : text := T "keymapper".
(** GrabbedDevicesLinux.cpp:34-36 *)
Definition is_virtual_device (name : text) : bool := ends_with name virtual_name.

(** GrabbedDevicesLinux.cpp:45-52: the array has room for 512 keys *)
Definition key_bits (n : node) : list N :=
  List.filter (fun c => existsb (N.eqb c) (n_keys n)) (map N.of_nat (seq 0 512)).
Definition get_num_keys (n : node) : nat := length (key_bits n).
(** GrabbedDevicesLinux.cpp:54-58 *)
Definition has_switches (n : node) : bool := negb (N.eqb (n_switches n) 0).
(** GrabbedDevicesLinux.cpp:60-65: REL_X is 0, REL_Y is 1 *)
Definition has_mouse_axes (n : node) : bool := negb (N.eqb (N.land (n_rel n) 3) 0).
(** GrabbedDevicesLinux.cpp:67-72 *)
Definition has_uncommon_abs_axes (n : node) : bool :=
  existsb (fun a => negb (N.eqb (fst a) ABS_VOLUME || N.eqb (fst a) ABS_MISC)) (n_abs n).

(** GrabbedDevicesLinux.cpp:81-96 *)
Definition is_supported_device (n : node) : bool :=
  n_version n && N.testbit (n_types n) EV_SYN && N.testbit (n_types n) EV_KEY.

(** GrabbedDevicesLinux.cpp:98-117 *)
Definition is_grabbed_by_default (n : node) (grab_mice : bool) : bool :=
  let num_keys := get_num_keys n in
  if (num_keys =? 0)%nat then false
  else if (32 <=? num_keys)%nat then true
  else if has_mouse_axes n then grab_mice
  else if has_uncommon_abs_axes n then false
  else if has_switches n then false
  else true.

(** GrabbedDevicesLinux.cpp:199-204.  The kernel reports zeros for an axis which a device
    with other axes does not have, and an error for a device without axes. *)
Definition get_device_abs_axis_range (n : node) (code : N) : range :=
  match n_abs n with
  | [] => default_abs_range
  | l => match find (fun a => N.eqb (fst a) code) l with Some a => snd a | None => Rg 0 0 end
  end.

(** GrabbedDevicesLinux.cpp:288-295 Device; [gd_node] is the device the descriptor belongs
    to. *)
Record gdevice : Type := GD {
  gd_event : Z;
  gd_node : node;
  gd_caps : grabbed;
  gd_disappeared : bool
}.

(** What the kernel is asked: grabbing and releasing devices, and when. *)
Inductive gcall : Type :=
| GGrab (dev : nat) (at_poll : nat)
| GUngrab (dev : nat) (at_poll : nat).

(** common/DeviceDesc.h: a device as the rest of the server sees it; [gx_ext] is given
    for devices with a virtual device of their own. *)
Record gdesc : Type := GX { gx_name : text; gx_id : text; gx_ext : option vdesc }.

(** GrabbedDevicesLinux.cpp:297-303 GrabbedDevicesImpl; [gs_monitor] is whether the
    directory is monitored, [gs_polls] counts how often the keys held were asked for. *)
Record gstate : Type := GS {
  gs_mice : bool;
  gs_filters : list (filter * bool);
  gs_monitor : bool;
  gs_devices : list gdevice;
  gs_descs : list gdesc;
  gs_changed : bool;
  gs_log : list gcall;
  gs_polls : nat
}.
Definition new_gstate : gstate := GS false [] false [] [] false [] 0.

Definition put_gdevices x s := GS (gs_mice s) (gs_filters s) (gs_monitor s) x (gs_descs s) (gs_changed s) (gs_log s) (gs_polls s).
Definition put_descs x s := GS (gs_mice s) (gs_filters s) (gs_monitor s) (gs_devices s) x (gs_changed s) (gs_log s) (gs_polls s).
Definition put_changed x s := GS (gs_mice s) (gs_filters s) (gs_monitor s) (gs_devices s) (gs_descs s) x (gs_log s) (gs_polls s).
Definition put_monitor x s := GS (gs_mice s) (gs_filters s) x (gs_devices s) (gs_descs s) (gs_changed s) (gs_log s) (gs_polls s).
Definition put_polls x s := GS (gs_mice s) (gs_filters s) (gs_monitor s) (gs_devices s) (gs_descs s) (gs_changed s) (gs_log s) x.
Definition glog x s := GS (gs_mice s) (gs_filters s) (gs_monitor s) (gs_devices s) (gs_descs s) (gs_changed s) (gs_log s ++ [x]) (gs_polls s).

Section Grab.
(** std::regex_search with the regular expression written as the first text. *)
Variable search : text -> text -> bool.
(** The keys of a device which are held when the server asks for the n-th time; None:
    EVIOCGKEY fails. *)
Variable held_keys : nat -> nat -> option (list N).
(** Whether inotify can be set up. *)
Variable monitor_ok : bool.

(** GrabbedDevicesLinux.cpp:229-248.  The time of a poll is its number: 5 ms pass after
    each which finds a key. *)
Fixpoint wait_loop (retries : nat) (dev : nat) (poll : nat) : nat * bool :=
  match retries with
  | O => (poll, false)
  | S r =>
      match held_keys poll dev with
      | None => (poll, false)
      | Some [] => (poll, true)
      | Some _ => wait_loop r dev (S poll)
      end
  end.
Definition wait_retries : nat := 1000.
Definition wait_until_keys_released (dev : nat) (s : gstate) : gstate :=
  put_polls (fst (wait_loop wait_retries dev (gs_polls s))) s.

(** GrabbedDevicesLinux.cpp:437-450 *)
Definition grab_device (n : node) (s : gstate) : gstate :=
  let s := wait_until_keys_released (n_dev n) s in
  if n_grabs n then
    let s := glog (GGrab (n_dev n) (gs_polls s)) s in
    put_gdevices (gs_devices s ++
      [GD (n_event n) n
          (G (get_device_abs_axis_range n ABS_VOLUME) (get_device_abs_axis_range n ABS_MISC)
             (has_highres_wheel (n_rel n))) false]) s
  else s.

(** GrabbedDevicesLinux.cpp:452-456 *)
Definition ungrab_device (d : gdevice) (s : gstate) : gstate :=
  let s := wait_until_keys_released (n_dev (gd_node d)) s in
  glog (GUngrab (n_dev (gd_node d)) (gs_polls s)) s.

(** GrabbedDevicesLinux.cpp:483-484 *)
Definition selected (n : node) (s : gstate) : bool :=
  evaluate_grab_filters search (gs_filters s) (n_name n) (n_link n) (is_grabbed_by_default n (gs_mice s)).

Fixpoint reappear (event_id : Z) (l : list gdevice) : list gdevice :=
  match l with
  | [] => []
  | d :: r => if gd_event d =? event_id then GD (gd_event d) (gd_node d) (gd_caps d) false :: r
              else d :: reappear event_id r
  end.

(** GrabbedDevicesLinux.cpp:469-509: an entry of the directory *)
Definition scan_entry (n : node) (s : gstate) : gstate :=
  if n_opens n then
    if is_supported_device n && negb (is_virtual_device (n_name n)) then
      if selected n s then
        if existsb (fun d => gd_event d =? n_event n) (gs_devices s)
        then put_gdevices (reappear (n_event n) (gs_devices s)) s
        else grab_device n s
      else s
    else s
  else s.

(** GrabbedDevicesLinux.cpp:511-521 *)
Fixpoint ungrab_loop (l : list gdevice) (kept : list gdevice) (s : gstate) : list gdevice * gstate :=
  match l with
  | [] => (kept, s)
  | d :: r => if gd_disappeared d then ungrab_loop r kept (ungrab_device d s)
              else ungrab_loop r (kept ++ [d]) s
  end.

(** GrabbedDevicesLinux.cpp:180-188 *)
Definition get_device_keys (n : node) : list N := key_bits n.

(** Whether the device is still there. *)
Definition alive (w : list node) (n : node) : bool := existsb (fun m => (n_dev m =? n_dev n)%nat) w.
(** GrabbedDevicesLinux.cpp:124-139: the link of whatever has the number now *)
Definition get_device_input_id (w : list node) (event_id : Z) : text :=
  match find (fun m => n_event m =? event_id) w with Some m => n_link m | None => [] end.

(** GrabbedDevicesLinux.cpp:523-548; no ioctl succeeds on a device which is gone. *)
Definition describe (w : list node) (d : gdevice) : gdesc :=
  let n := gd_node d in
  let there := alive w n in
  GX (if there then n_name n else [])
     (get_device_input_id w (gd_event d))
     (if there && (has_mouse_axes n || has_uncommon_abs_axes n)
      then Some (Desc (gd_event d) (get_device_keys n) (n_rel n) (n_abs n))
      else None).

(** GrabbedDevicesLinux.cpp:459-549 update: the new monitor *)
Definition update_begin (s : gstate) : gstate := put_monitor monitor_ok s.
(** The rest of update, with the devices there are now *)
Definition update_scan (w : list node) (s : gstate) : gstate :=
  let s := put_gdevices (map (fun d => GD (gd_event d) (gd_node d) (gd_caps d) true) (gs_devices s)) s in
  let s := fold_left (fun s n => scan_entry n s) w s in
  let '(kept, s) := ungrab_loop (gs_devices s) [] s in
  let s := put_gdevices kept s in
  put_descs (map (describe w) kept) s.

(** GrabbedDevicesLinux.cpp:319-324 initialize of a new GrabbedDevicesImpl, in two parts *)
Definition grab_begin (grab_mice : bool) (filters : list (filter * bool)) : gstate :=
  update_begin (GS grab_mice filters false [] [] false [] 0).

(** What select reports: an error, or what can be read. [sl_read] is the event a device
    has to read, when it has one; None of it: the read fails. *)
Record ready : Type := Ready {
  sl_monitor : bool;
  sl_client : bool;
  sl_read : nat -> option (option ievent)
}.
Inductive read_result : Type :=
| RFailed
| RNothing
| REvent (index : nat) (e : ievent)
| ROverflow.

(** GrabbedDevicesLinux.cpp:384-418 *)
Fixpoint read_devices (l : list gdevice) (index : nat) (r : ready) : read_result :=
  match l with
  | [] => RNothing
  | d :: t =>
      match sl_read r (n_dev (gd_node d)) with
      | None => read_devices t (S index) r
      | Some None => RFailed
      | Some (Some e) =>
          match read_conversion (gd_caps d) e with
          | Some e => REvent index e
          | None => ROverflow
          end
      end
  end.

(** GrabbedDevicesLinux.cpp:339-421; None: select failed *)
Definition read_input_event (r : option ready) (s : gstate) : read_result * gstate :=
  match r with
  | None => (RFailed, s)
  | Some r =>
      if gs_monitor s && sl_monitor r then (RNothing, put_changed true s)
      else if sl_client r then (RNothing, s)
      else (read_devices (gs_devices s) 0 r, s)
  end.

(** GrabbedDevicesLinux.cpp:305-312 ~GrabbedDevicesImpl *)
Definition ungrab_all (s : gstate) : gstate :=
  put_gdevices [] (fold_left (fun s d => ungrab_device d s) (gs_devices s) s).

(** * The devices in main_loop *)

Variable write_ok create_ok : nat -> bool.

(** What reaches the rest of the server *)
Inductive dread : Type :=
| DTranslate (index : nat) (e : event)       (* translate_input *)
| DForward (index : nat) (e : ievent).       (* forward_event *)

Record dsys : Type := DS {
  ds_world : list node;            (* the devices there are *)
  ds_pending : bool;               (* the monitor has something to report *)
  ds_grab : gstate;
  ds_virtual : vdevices;
  ds_server : list gdesc;          (* m_device_descs of the server *)
  ds_reads : list dread;
  ds_over : bool                   (* main_loop returned *)
}.

(** unix/main.cpp:151-157 and 199-204: the devices were grabbed *)
Definition devices_updated (y : dsys) : dsys :=
  let '(v, ok) := update_forward_devices create_ok (map gx_ext (gs_descs (ds_grab y))) (ds_virtual y) in
  if ok then DS (ds_world y) (ds_pending y) (ds_grab y) v (gs_descs (ds_grab y)) (ds_reads y) (ds_over y)
  else DS (ds_world y) (ds_pending y) (ds_grab y) v (ds_server y) (ds_reads y) true.

(** What happens around the server: devices come and go.  The monitor reports it. *)
Definition world_changes (w : list node) (y : dsys) : dsys :=
  DS w (gs_monitor (ds_grab y)) (ds_grab y) (ds_virtual y) (ds_server y) (ds_reads y) (ds_over y).
Definition world_may_change (w : option (list node)) (y : dsys) : dsys :=
  match w with Some w => world_changes w y | None => y end.

(** A new monitor has nothing to report. *)
Definition put_grab_begin (g : gstate) (y : dsys) : dsys :=
  DS (ds_world y) false g (ds_virtual y) (ds_server y) (ds_reads y) (ds_over y).
Definition put_grab (g : gstate) (y : dsys) : dsys :=
  DS (ds_world y) (ds_pending y) g (ds_virtual y) (ds_server y) (ds_reads y) (ds_over y).
Definition put_read (r : dread) (v : vdevices) (y : dsys) : dsys :=
  DS (ds_world y) (ds_pending y) (ds_grab y) v (ds_server y) (ds_reads y ++ [r]) (ds_over y).
Definition put_over (y : dsys) : dsys :=
  DS (ds_world y) (ds_pending y) (ds_grab y) (ds_virtual y) (ds_server y) (ds_reads y) true.

(** unix/main.cpp:188-204: a client is connected, the devices are grabbed.  [during] are
    the devices there are when the directory is read, when they changed after the monitor
    was set up. *)
Definition session (w : list node) (grab_mice : bool) (filters : list (filter * bool)) (during : option (list node)) : dsys :=
  let y := DS w false (grab_begin grab_mice filters) new_vdevices [] [] false in
  let y := world_may_change during y in
  devices_updated (put_grab (update_scan (ds_world y) (ds_grab y)) y).

(** unix/main.cpp:150-158 *)
Definition update_devices (during : option (list node)) (y : dsys) : dsys :=
  if gs_changed (ds_grab y) then
    let y := put_grab_begin (update_begin (ds_grab y)) y in
    let y := world_may_change during y in
    devices_updated (put_grab (put_changed false (update_scan (ds_world y) (ds_grab y))) y)
  else y.

(** unix/main.cpp:88-171: a turn of main_loop, the part about devices.  [r] is what select
    reports, the monitor excepted. *)
Definition loop_turn (r : option ready) (during : option (list node)) (y : dsys) : dsys :=
  if ds_over y then y else
  let r := option_map (fun r => Ready (ds_pending y) (sl_client r) (sl_read r)) r in
  let '(result, g) := read_input_event r (ds_grab y) in
  let y := put_grab g y in
  match result with
  | RFailed | ROverflow => put_over y
  | RNothing => update_devices during y
  | REvent i e =>
      match to_key_event e with
      | None => put_read (DForward i e) (fst (forward_event write_ok i e (ds_virtual y))) y
      | Some k =>
          update_devices during
            (if N.eqb (ek k) k_none then y else put_read (DTranslate i k) (ds_virtual y) y)
      end
  end.

(** A session: turns of the loop, keys the server puts out (30-32) and changes of the
    devices in between.  Changes below /dev/input/by-id are not reported by the monitor. *)
Inductive dstep : Type :=
| DTurn (r : option ready) (during : option (list node))
| DSend (e : event)
| DWorld (w : list node)
| DSilent (w : list node).
Definition dstep_run (x : dstep) (y : dsys) : dsys :=
  match x with
  | DTurn r during => loop_turn r during y
  | DSend e => DS (ds_world y) (ds_pending y) (ds_grab y) (fst (send_key_event write_ok e (ds_virtual y))) (ds_server y) (ds_reads y) (ds_over y)
  | DWorld w => world_changes w y
  | DSilent w => DS w (ds_pending y) (ds_grab y) (ds_virtual y) (ds_server y) (ds_reads y) (ds_over y)
  end.
Definition drun (l : list dstep) (y : dsys) : dsys := fold_left (fun y x => dstep_run x y) l y.
End Grab.

(** VirtualDevicesLinux.cpp:15-17 and 87: the name a forward device gets, UINPUT_MAX_NAME_SIZE
    is 80 *)
Definition get_forward_device_name (name : text) : text := name ++ T "; " ++ virtual_name.
Definition forward_node_name (name : text) : text := firstn 79 (get_forward_device_name name).
