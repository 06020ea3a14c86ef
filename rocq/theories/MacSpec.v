(** What the devices on macOS are meant to do, in terms of what went in, newest first. *)
From Coq Require Import List Arith NArith ZArith Bool.
From Verif Require Import Base Key Stage Mac.
Import ListNotations.
Local Open Scope N_scope.

(** * Output *)

(** Whether Fn is held, and whether the directive swaps the meaning of Fn. *)
Fixpoint fn_held (h : list mstep) : bool :=
  match h with
  | [] => false
  | MaForward 0xFF _ v :: _ => negb (v =? 0)%Z
  | _ :: r => fn_held r
  end.
Fixpoint fn_swapped (h : list mstep) : bool :=
  match h with
  | [] => false
  | MaDirective b :: _ => b
  | _ :: r => fn_swapped r
  end.

(** The keys which are different with Fn. *)
Definition special : list (N * (report * N)) :=
  [(0x3A, (RConsumer, 0x70)); (0x3B, (RConsumer, 0x6F)); (0x3C, (RConsumer, 0x29F));
   (0x3D, (RConsumer, 0x221)); (0x3E, (RConsumer, 0xCF)); (0x3F, (RDesktop, 0x9B));
   (0x40, (RConsumer, 0xB6)); (0x41, (RConsumer, 0xCD)); (0x42, (RConsumer, 0xB5));
   (0x43, (RConsumer, 0xE2)); (0x44, (RConsumer, 0xEA)); (0x45, (RConsumer, 0xE9));
   (0x4F, (RKeyboard, 0x4D)); (0x50, (RKeyboard, 0x4A)); (0x51, (RKeyboard, 0x4E));
   (0x52, (RKeyboard, 0x4B)); (0x2A, (RKeyboard, 0x4C))].
Fixpoint special_usage (k : N) (l : list (N * (report * N))) : option (report * N) :=
  match l with
  | [] => None
  | (a, t) :: r => if k =? a then Some t else special_usage k r
  end.
(** What key [k] means after [h]. *)
Definition meaning (h : list mstep) (k : N) : report * N :=
  match special_usage k special with
  | Some t => if Bool.eqb (fn_swapped h) (fn_held h) then t else (RKeyboard, k)
  | None => (RKeyboard, k)
  end.

(** Key [k] is down since [h']: what it meant when it was pressed. *)
Fixpoint down_as (h : list mstep) (k : N) : option (report * N) :=
  match h with
  | [] => None
  | MaKey e :: r =>
      if ek e =? k then (if kstate_eqb (es e) Down then Some (meaning r k) else None) else down_as r k
  | _ :: r => down_as r k
  end.

(** The usage a step presses or releases: a key is released as it was pressed. *)
Definition acts (h : list mstep) (x : mstep) : option (report * N * bool) :=
  match x with
  | MaKey e =>
      if kstate_eqb (es e) Down then Some (meaning h (ek e), true)
      else match down_as h (ek e) with
           | Some t => Some (t, false)
           | None => Some ((RKeyboard, ek e), false)
           end
  | MaForward 0x0C u v => Some ((RConsumer, u), negb (v =? 0)%Z)
  | MaForward 0xFF u v => Some ((RTopCase, u), negb (v =? 0)%Z)
  | _ => None
  end.
(** The newest step which is about usage [u] of report [r] pressed it. *)
Fixpoint lit (h : list mstep) (r : report) (u : N) : bool :=
  match h with
  | [] => false
  | x :: h' =>
      match acts h' x with
      | Some (r', u', b) => if report_eqb r' r && (u' =? u) then b else lit h' r u
      | None => lit h' r u
      end
  end.

(** No key is pressed which is down. *)
Fixpoint pressed_once (h : list mstep) : Prop :=
  match h with
  | [] => True
  | MaKey e :: r => (es e = Down -> down_as r (ek e) = None) /\ pressed_once r
  | _ :: r => pressed_once r
  end.

(** What can hold a usage: a key, or an element of the keyboard which is forwarded. *)
Inductive source : Type := SKey (k : N) | SForward (page usage : N).
Definition source_eqb (a b : source) : bool :=
  match a, b with
  | SKey a, SKey b => a =? b
  | SForward p u, SForward q v => (p =? q) && (u =? v)
  | _, _ => false
  end.
Definition source_of (x : mstep) : option source :=
  match x with
  | MaKey e => Some (SKey (ek e))
  | MaForward p u _ => Some (SForward p u)
  | MaDirective _ => None
  end.
Definition presses (x : mstep) : bool :=
  match x with
  | MaKey e => kstate_eqb (es e) Down
  | MaForward _ _ v => negb (v =? 0)%Z
  | MaDirective _ => false
  end.
(** Source [s] is held: the newest step of it pressed it. *)
Fixpoint source_held (h : list mstep) (s : source) : bool :=
  match h with
  | [] => false
  | x :: r =>
      match source_of x with
      | Some s' => if source_eqb s' s then presses x else source_held r s
      | None => source_held r s
      end
  end.

(** * Input *)

Section Devices.
Variable virtual : N -> bool.
Variable desc : N -> device_desc.
Variable wanted : N -> bool.
(** The devices the server is to grab. *)
Definition to_grab (d : N) : Prop := virtual d = false /\ dev_name (desc d) <> [] /\ wanted d = true.
Variable builtin : N -> bool.
Variable iso : bool.

(** The devices a turn finds are different ones. *)
Definition real_devices (x : gstep) : Prop :=
  match x with GTurn _ present => NoDup present /\ ~ In 0 present | _ => True end.

(** Input comes from devices which are grabbed, and no devices come or go while more events
    are waiting than the one which is read next. *)
Fixpoint calm (l : list gstep) (g : mgrab) : Prop :=
  match l with
  | [] => True
  | x :: r =>
      match x with
      | GInput d _ _ _ => In d (mg_devices g)
      | GChanged => True
      | GTurn _ _ => mg_changed g = true -> (length (mg_queue g) <= 1)%nat
      end /\
      match g_step virtual desc wanted builtin iso x g with
      | Some (g, _) => calm r g
      | None => True
      end
  end.
(** What came in, with the device it came from. *)
Fixpoint came_in (l : list gstep) : list (N * N * Z * option device_desc) :=
  match l with
  | [] => []
  | GInput d p u v :: r => (p, swap_keys iso (builtin d) p u, v, Some (desc d)) :: came_in r
  | _ :: r => came_in r
  end.
Definition tell (a : mevent * option device_desc) : N * N * Z * option device_desc :=
  (me_page (fst a), me_usage (fst a), me_value (fst a), snd a).
(** What the server would say of the events which are still waiting. *)
Definition waiting (g : mgrab) : list (mevent * option device_desc) :=
  map (fun e => (e, nth_error (mg_descs g) (me_index e))) (mg_queue g).
End Devices.
