(** What applications on Windows get by the input which is sent to them, and what is
    expected of the typer (C101, C102). *)
From Coq Require Import String Ascii List Arith NArith ZArith Bool.
From Verif Require Import Base Key Text TyperSpec WinServer WinInput.
Import ListNotations.
Local Open Scope N_scope.

(** ** Keys on the keyboard *)

(** A physical key: its scan code of one byte, and whether the prefix E0 precedes it. *)
Definition physical : Type := (N * bool)%type.

(** The key an INPUT stands for.  Windows uses the low byte of a scan code; the keys which
    are sent by their virtual key code. *)
Definition physical_of (x : winput) : option (physical * bool) :=
  match x with
  | IScan scan extended up => Some ((scan mod 256, extended), up)
  | IVk 0xA1 up => Some ((0x36, false), up)
  | IVk 0x13 up => Some ((0x45, false), up)
  | IVk 0x90 up => Some ((0x45, true), up)
  | IVk 0x5B up => Some ((0x5B, true), up)
  | IVk 0x5C up => Some ((0x5C, true), up)
  | _ => None
  end.
(** The hook reports the right Shift key with the prefix, which it does not have. *)
Definition reported (p : physical) : physical :=
  if (fst p =? 0x36) && snd p then (0x36, false) else p.

(** The code of a key in configurations *)
Definition code_of (p : physical) : key := fst p + if snd p then 0xE000 else 0.

(** ** Reading *)

Definition w_modifiers : list key := [ShiftLeft; ShiftRight; ControlLeft; ControlRight_w; AltLeft; AltRight_w].
Definition is_w_modifier (k : key) : bool := existsb (N.eqb k) w_modifiers.
(** The sum of Shift 1, Alt 2, AltGr 4, Control 8 *)
Definition w_mods_held (held : key -> bool) : N :=
  (if held ShiftLeft || held ShiftRight then 1 else 0) + (if held AltLeft then 2 else 0)
  + (if held AltRight_w then 4 else 0) + (if held ControlLeft || held ControlRight_w then 8 else 0).

Definition chars_of (r : tresult) : list N := match r with TChars l => l | _ => [] end.

(** An application which reads characters: the modifiers which are held and the dead key
    which is pending. *)
Definition reader : Type := ((key -> bool) * option N)%type.
Definition fresh_reader : reader := (fun _ => false, None).
Definition read_input (lay : wlayout) (st : reader) (x : winput) : reader * list N :=
  match x with
  | IUnicode c up => (st, if up then [] else [c])
  | _ =>
      match physical_of x with
      | None => (st, [])
      | Some (p, up) =>
          let k := code_of p in
          if is_w_modifier k then ((fun y => if y =? k then negb up else fst st y, snd st), [])
          else if up then (st, [])
          else let '(dead, r) := lay (snd st) k (w_mods_held (fst st)) in ((fst st, dead), chars_of r)
      end
  end.
Fixpoint read_inputs (lay : wlayout) (st : reader) (l : list winput) : reader * list N :=
  match l with
  | [] => (st, [])
  | x :: r =>
      let '(st, a) := read_input lay st x in
      let '(st, b) := read_inputs lay st r in (st, a ++ b)
  end.

(** UTF-16 (RFC 2781) *)
Definition utf16 (c : N) : list N :=
  if c <? 0x10000 then [c]
  else [0xD800 + N.shiftr (c - 0x10000) 10; 0xDC00 + N.land (c - 0x10000) 0x3FF].

(** ** Layouts *)

(** A key of the typer: a scan code without prefix which is no modifier (nor Pause). *)
Definition w_typing_key (k : key) : Prop := 0 < k < 0x100 /\ is_w_modifier k = false /\ k <> 0x45.

(** What pressing keys one after the other gives *)
Fixpoint press_keys (lay : wlayout) (dead : option N) (l : list (key * N)) : option N * list N :=
  match l with
  | [] => (dead, [])
  | (k, m) :: r =>
      let '(dead, x) := lay dead k m in
      let '(dead, y) := press_keys lay dead r in (dead, chars_of x ++ y)
  end.
Definition entry_keys (e : wentry) : list (key * N) :=
  (if fst (we_dead e) =? 0 then [] else [we_dead e]) ++ [we_key e].

(** Each entry of a dictionary gives its character, and leaves no dead key pending. *)
Definition w_right_for (lay : wlayout) (d : wdictionary) : Prop :=
  forall c e, look_up c d = Some e ->
    (forall x, In x (entry_keys e) -> w_typing_key (fst x) /\ In (snd x) [0; 1; 4]) /\
    press_keys lay None (entry_keys e) = (None, [c]).

(** A layout on which dead keys are not chained: a key is a dead key or gives characters (or
    nothing).  After a dead key it gives characters, or nothing, which leaves the dead key
    pending; without modifiers it does give characters. *)
Record simple_layout (lay : wlayout) (keys : list key) : Prop := {
  sl_first : forall k m, In k keys -> In m [0; 1; 4] ->
    (exists d, lay None k m = (Some d, TDead)) \/ (exists l, lay None k m = (None, TChars l)) \/
    lay None k m = (None, TNothing);
  sl_second : forall d k m, In k keys -> In m [0; 1; 4] ->
    (exists l, lay (Some d) k m = (None, TChars l)) \/ lay (Some d) k m = (Some d, TNothing);
  sl_plain : forall d k, In k keys -> exists l, lay (Some d) k 0 = (None, TChars l)
}.

(** There is no key with the scan code 0. *)
Definition no_zero_key (lay : wlayout) : Prop := forall dead m, lay dead 0xE000 m = (dead, TNothing).

(** ** Text on its way *)

(** The events which were sent, in order *)
Definition sent_event (x : weffect) : list event := match x with WSent e => [e] | _ => [] end.
Definition sent (t : list weffect) : list event := flat_map sent_event (rev t).
