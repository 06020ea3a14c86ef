(** What applications get from the virtual devices.  The kernel (drivers/input/input.c of
    Linux, input_get_disposition) drops events a device did not announce, keeps track of
    the keys each device holds, and drops presses of keys which are held already (other
    than repeats) and releases of keys which are not. *)
From Coq Require Import List Arith NArith ZArith Bool.
From Verif Require Import Base Key Device.
Import ListNotations.
Local Open Scope Z_scope.

(** A device delivers only what it announced. *)
Definition announces (x : vdesc) (e : ievent) : bool :=
  if N.eqb (ie_type e) EV_KEY then existsb (N.eqb (ie_code e)) (d_keys x)
  else if N.eqb (ie_type e) EV_REL then N.testbit (d_rel x) (ie_code e)
  else if N.eqb (ie_type e) EV_ABS then existsb (fun a => N.eqb (ie_code e) (fst a)) (d_abs x)
  else true.

Record kernel : Type := Kernel {
  kn_desc : vid -> option vdesc;
  kn_held : vid -> N -> bool;
  kn_delivered : list (vid * ievent)
}.
Definition kernel_init : kernel :=
  Kernel (fun d => match d with VKeyboard => Some keyboard_desc | _ => None end) (fun _ _ => false) [].

Definition change_device (d : vid) (x : option vdesc) (s : kernel) : kernel :=
  Kernel (fun d' => if vid_eqb d' d then x else kn_desc s d')
         (fun d' k => if vid_eqb d' d then false else kn_held s d' k) (kn_delivered s).

Definition kernel_step (s : kernel) (w : vwrite) : kernel :=
  match w with
  | WCreate x => change_device (VForward (d_id x)) (Some x) s
  | WDestroy id => change_device (VForward id) None s
  | WEvent d e ok =>
      match kn_desc s d with
      | Some x =>
          if ok && announces x e then
            Kernel (kn_desc s)
              (fun d' k =>
                 if N.eqb (ie_type e) EV_KEY && vid_eqb d' d && N.eqb k (ie_code e) && negb (ie_value e =? 2)
                 then negb (ie_value e =? 0)
                 else kn_held s d' k)
              (kn_delivered s ++
                 if N.eqb (ie_type e) EV_KEY && negb (ie_value e =? 2)
                    && Bool.eqb (kn_held s d (ie_code e)) (negb (ie_value e =? 0))
                 then [] else [(d, e)])
          else s
      | None => s
      end
  end.
Definition kernel_run (t : list vwrite) : kernel := fold_left kernel_step t kernel_init.

(** Key [k] is held on device [d]; on some device. *)
Definition held_on (d : vid) (k : N) (t : list vwrite) : Prop := kn_held (kernel_run t) d k = true.
Definition held_somewhere (k : N) (t : list vwrite) : Prop := exists d, held_on d k t.

(** What the server sent last for a key. *)
Definition holds (k : key) (l : list vcall) : bool :=
  fold_left (fun b c => match c with
                        | VSend e => if N.eqb (ek e) k then kstate_eqb (es e) Down else b
                        | _ => b
                        end) l false.

(** Calls as main_loop makes them: only what to_key_event does not take is forwarded. *)
Definition loop_call (c : vcall) : Prop :=
  match c with VForwarded _ e => to_key_event e = None | _ => True end.
(** The server sends presses and releases of [k]. *)
Definition stroke_call (k : key) (c : vcall) : Prop :=
  match c with VSend e => ek e = k -> es e = Up \/ es e = Down | _ => True end.

(** *** The mouse which was used last *)

Definition is_mouse (x : vdesc) : bool := N.testbit (d_rel x) 0.

(** The grabbed devices, and the mouse of which something was forwarded last since they
    changed. *)
Definition mouse_step (s : list (option vdesc) * option Z) (c : vcall) : list (option vdesc) * option Z :=
  match c with
  | VSend _ => s
  | VForwarded i _ =>
      match nth_error (fst s) i with
      | Some (Some x) => if is_mouse x then (fst s, Some (d_id x)) else s
      | _ => s
      end
  | VUpdate l => (l, None)
  end.
Definition listed (l : list vcall) : list (option vdesc) := fst (fold_left mouse_step l ([], None)).
Definition active_mouse (l : list vcall) : option Z := snd (fold_left mouse_step l ([], None)).

(** No other mouse is used, and no device comes or goes, while [k] is held. *)
Definition steady (k : key) (l : list vcall) : Prop :=
  forall a c b, l = a ++ c :: b -> holds k a = true -> active_mouse (a ++ [c]) = active_mouse a.

(** Every device announces itself in the same way each time it is listed, and once per
    list. *)
Definition devices_of (l : list vcall) : list vdesc :=
  flat_map (fun c => match c with
                     | VUpdate l => flat_map (fun x => match x with Some d => [d] | None => [] end) l
                     | _ => []
                     end) l.
Definition listed_once (l : list vcall) : Prop :=
  forall c, In c l -> NoDup (map d_id (devices_of [c])).
Definition same_devices (l : list vcall) : Prop :=
  (forall x y, In x (devices_of l) -> In y (devices_of l) -> d_id x = d_id y -> x = y) /\
  listed_once l.

(** Every mouse has the button [k]. *)
Definition mice_have (k : key) (l : list vcall) : Prop :=
  forall x, In x (devices_of l) -> is_mouse x = true -> In k (d_keys x).

(** *** The wheel *)

(** The motion of a wheel event, in 120ths of a step. *)
Definition motion (e : event) : Z :=
  (if N.eqb (ek e) WheelDown || N.eqb (ek e) WheelLeft then -1 else 1) *
  (if N.eqb (ev e) 0 then 120 else Z.of_N (ev e)).
Definition vertical_wheel (k : key) : bool := N.eqb k WheelUp || N.eqb k WheelDown.

Definition wheel_code (high vertical : bool) : N :=
  match high, vertical with
  | true, true => REL_WHEEL_HI_RES | true, false => REL_HWHEEL_HI_RES
  | false, true => REL_WHEEL | false, false => REL_HWHEEL
  end.

(** What was written for an axis of a device since it exists, in all. *)
Definition written (d : vid) (high vertical : bool) (t : list vwrite) : Z :=
  fold_left (fun n w => match w with
                        | WEvent d' e _ =>
                            if vid_eqb d' d && N.eqb (ie_type e) EV_REL && N.eqb (ie_code e) (wheel_code high vertical)
                            then n + ie_value e else n
                        | WCreate x => if vid_eqb (VForward (d_id x)) d then 0 else n
                        | WDestroy id => if vid_eqb (VForward id) d then 0 else n
                        end) t 0.

(** The values written for an axis of any device, in order. *)
Definition steps_written (high vertical : bool) (t : list vwrite) : list Z :=
  flat_map (fun w => match w with
                     | WEvent _ e _ =>
                         if N.eqb (ie_type e) EV_REL && N.eqb (ie_code e) (wheel_code high vertical)
                         then [ie_value e] else []
                     | _ => []
                     end) t.

(** The wheel events among the calls *)
Definition wheel_sent (vertical : bool) (l : list vcall) : list Z :=
  flat_map (fun c => match c with
                     | VSend e => if is_mouse_wheel (ek e) && Bool.eqb (vertical_wheel (ek e)) vertical
                                  then [motion e] else []
                     | _ => []
                     end) l.

(** *** Absolute axes *)

Definition in_axis (r : range) (v : Z) : Prop := r_min r <= v <= r_max r.
(** Every delivered position is within the range its device announced. *)
Definition positions_fit (t : list vwrite) : Prop :=
  forall a d e b x r, t = a ++ WEvent d e true :: b ->
    ie_type e = EV_ABS -> kn_desc (kernel_run a) d = Some x -> In (ie_code e, r) (d_abs x) ->
    in_axis r (ie_value e).

(** A position as the device reports it *)
Definition reported (g : grabbed) (x : option vdesc) (e : ievent) : Prop :=
  (ie_code e = ABS_VOLUME -> in_axis (g_volume g) (ie_value e)) /\
  (ie_code e = ABS_MISC -> in_axis (g_misc g) (ie_value e)) /\
  (forall y r, x = Some y -> In (ie_code e, r) (d_abs y) -> in_axis r (ie_value e)).
(** The positions forwarded were read from the devices, which report what they announced. *)
Definition read_positions (l : list vcall) : Prop :=
  forall a i e b x, l = a ++ VForwarded i e :: b -> nth_error (listed a) i = Some x -> ie_type e = EV_ABS ->
    exists g raw, read_conversion g raw = Some e /\ reported g x raw.

(** No device with a virtual device of its own has one of the two axes which are mapped
    to the range of the virtual keyboard. *)
Definition no_mapped_axes (l : list vcall) : Prop :=
  forall x r, In x (devices_of l) -> ~ In (ABS_VOLUME, r) (d_abs x) /\ ~ In (ABS_MISC, r) (d_abs x).
