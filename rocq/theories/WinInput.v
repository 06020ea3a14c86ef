(** Model of how the server on Windows reads events of the hooks and sends its own
    (src/server/windows/main.cpp:42-182) and of the string typer of Windows
    (src/client/windows/StringTyper.cpp).  The conversions for the Interception driver are
    in WinDevices.v. *)
From Coq Require Import String Ascii List Arith NArith ZArith Bool.
From Verif Require Import Base Key Text ParseSeq Typer Client WinServer.
Import ListNotations.
Local Open Scope N_scope.

(** * Keys *)

(** KBDLLHOOKSTRUCT and the message (main.cpp:42), as far as they are looked at *)
Record kbd : Type := Kbd {
  kb_scan : N;          (* scanCode *)
  kb_vk : N;            (* vkCode *)
  kb_extended : bool;   (* flags & LLKHF_EXTENDED *)
  kb_down : bool;       (* WM_KEYDOWN or WM_SYSKEYDOWN *)
  kb_extra : N          (* dwExtraInfo *)
}.
(** main.cpp:30 and 218 *)
Definition injected_ident : N := 0xADDED.
Definition remote_ident : N := 0x4321DCBA.

(** main.cpp:42-63 get_key_event; None is a KeyEvent without a key.  [vk_to_scan] is
    MapVirtualKeyW(.., MAPVK_VK_TO_VSC). *)
Definition get_key_event (vk_to_scan : N -> N) (x : kbd) : option event :=
  if 0xFF <? kb_scan x then None
  else
    let code := if kb_scan x =? 0 then vk_to_scan (kb_vk x) else kb_scan x in
    if code =? 0 then None
    else
      let code := if kb_extended x then N.lor code 0xE000 else code in
      let code := if code =? 0xE036 then ShiftRight else code in
      Some (ev0 code (if kb_down x then Down else Up)).

(** main.cpp:212-231 translate_keyboard_input up to the call of translate_input: what
    happens to an event.  [HPass]: it is passed on. *)
Inductive hook_input : Type := HPass | HBlock | HTranslate (e : event).
Definition hook_input_of (vk_to_scan : N -> N) (sending : bool) (x : kbd) : hook_input :=
  if kb_extra x =? injected_ident then HPass
  else if kb_extra x =? remote_ident then HPass
  else match get_key_event vk_to_scan x with
       | Some e => HTranslate e
       | None => if kb_scan x =? 0x21D then (if sending then HPass else HBlock) else HPass
       end.

(** INPUT, as the server fills it in *)
Inductive winput : Type :=
| IScan (scan : N) (extended up : bool)   (* KEYEVENTF_SCANCODE *)
| IVk (vk : N) (up : bool)
| IUnicode (c : N) (up : bool)            (* KEYEVENTF_UNICODE *)
| IMouse (flags : N) (data : Z).

(** main.cpp:76-77: s_high_byte_down and s_high_byte_up *)
Definition high_bytes : Type := (N * N)%type.
Definition no_high_bytes : high_bytes := (0, 0).

(** main.cpp:65-103 make_key_input.  wScan has 16 bits. *)
Definition make_key_input (e : event) (hb : high_bytes) : option winput * high_bytes :=
  let up := kstate_eqb (es e) Up in
  if ek e =? k_unicode_output then
    let high := if up then snd hb else fst hb in
    let put x := if up then (fst hb, x) else (x, snd hb) in
    if high =? 0 then (None, put (N.lor 0x8000 (ev e)))
    else (Some (IUnicode (N.lor (N.shiftl high 8) (ev e) mod 0x10000) up), put 0)
  else if ek e =? ShiftRight then (Some (IVk 0xA1 up), hb)
  else if ek e =? Pause_w then (Some (IVk 0x13 up), hb)
  else if ek e =? NumLock_w then (Some (IVk 0x90 up), hb)
  else if ek e =? MetaLeft_w then (Some (IVk 0x5B up), hb)
  else if ek e =? MetaRight_w then (Some (IVk 0x5C up), hb)
  else (Some (IScan (ek e) (negb (N.land (ek e) 0xE000 =? 0)) up), hb).

(** * Mouse buttons and wheels *)

(** Key.h:454-463 *)
Definition ButtonRight : key := 0x111.
Definition ButtonMiddle : key := 0x112.
Definition ButtonBack : key := 0x113.
Definition WheelDown : key := 0x151.
Definition WheelLeft : key := 0x152.

(** main.cpp:248-278 get_button_event: the message and the high word of mouseData, a signed
    number for wheels.  The value has 12 bits. *)
Definition get_button_event (message : N) (high : Z) : option event :=
  let x_button := if Z.odd high then ButtonBack else ButtonForward in
  let wheel neg pos := Some (Ev (if (high <? 0)%Z then neg else pos) Up (Z.to_N (Z.abs high) mod 4096)) in
  match message with
  | 0x201 => Some (ev0 ButtonLeft Down)
  | 0x204 => Some (ev0 ButtonRight Down)
  | 0x207 => Some (ev0 ButtonMiddle Down)
  | 0x202 => Some (ev0 ButtonLeft Up)
  | 0x205 => Some (ev0 ButtonRight Up)
  | 0x208 => Some (ev0 ButtonMiddle Up)
  | 0x20B => Some (ev0 x_button Down)
  | 0x20C => Some (ev0 x_button Up)
  | 0x20A => wheel WheelDown WheelUp
  | 0x20E => wheel WheelLeft WheelRight
  | _ => None
  end.

(** main.cpp:151-155; also Devices.cpp:101-104 *)
Definition wheel_value (e : event) : Z :=
  let v := if ev e =? 0 then 120%Z else Z.of_N (ev e) in
  if (ek e =? WheelDown) || (ek e =? WheelLeft) then (- v)%Z else v.

(** main.cpp:123-162 make_button_input *)
Definition make_button_input (e : event) : option winput :=
  let down := kstate_eqb (es e) Down in
  if ek e =? ButtonLeft then Some (IMouse (if down then 0x2 else 0x4) 0)
  else if ek e =? ButtonRight then Some (IMouse (if down then 0x8 else 0x10) 0)
  else if ek e =? ButtonMiddle then Some (IMouse (if down then 0x20 else 0x40) 0)
  else if ek e =? ButtonBack then Some (IMouse (if down then 0x80 else 0x100) 1)
  else if ek e =? ButtonForward then Some (IMouse (if down then 0x80 else 0x100) 2)
  else if (ek e =? WheelUp) || (ek e =? WheelDown) then Some (IMouse 0x800 (wheel_value e))
  else if (ek e =? WheelLeft) || (ek e =? WheelRight) then Some (IMouse 0x1000 (wheel_value e))
  else None.

(** main.cpp:176-180 the rest of on_send_key without the driver: what SendInput gets *)
Definition send_input (e : event) (hb : high_bytes) : list winput * high_bytes :=
  match make_button_input e with
  | Some x => ([x], hb)
  | None => match make_key_input e hb with
            | (Some x, hb) => ([x], hb)
            | (None, hb) => ([], hb)
            end
  end.
Fixpoint send_inputs (l : sequence) (hb : high_bytes) : list winput * high_bytes :=
  match l with
  | [] => ([], hb)
  | e :: r =>
      let '(x, hb) := send_input e hb in
      let '(y, hb) := send_inputs r hb in (x ++ y, hb)
  end.

(** * The string typer *)

(** StringTyper.cpp:29-37: a key and its modifiers, and the dead key in front of it (whose
    key is none when there is none); :41 m_dictionary *)
Record wentry : Type := WEntry { we_dead : key * N; we_key : key * N }.
Definition wdictionary : Type := list (N * wentry).
Fixpoint look_up (c : N) (d : wdictionary) : option wentry :=
  match d with
  | [] => None
  | (x, e) :: r => if x =? c then Some e else look_up c r
  end.
(** std::map::emplace, which keeps an entry there is *)
Definition emplace (c : N) (e : wentry) (d : wdictionary) : wdictionary :=
  match look_up c d with Some _ => d | None => d ++ [(c, e)] end.

(** ToUnicodeEx: what a key gives while modifiers are held, after the dead key which is
    pending; the dead key which is pending afterwards.  [TDead]: a negative result,
    [TNothing]: zero.  The virtual key and the scan code of a key are one here. *)
Inductive tresult : Type := TNothing | TDead | TChars (l : list N).
Definition wlayout : Type := option N -> key -> N -> option N * tresult.

Section Dictionary.
Variable lay : wlayout.
(** get_vk_scan_codes (StringTyper.cpp:11-21) *)
Variable keys : list key.

(** StringTyper.cpp:46-47 *)
Definition typed_modifiers : list N := [0; 1; 4].
Definition pairs_to_try : list (key * N) := flat_map (fun m => map (fun k => (k, m)) keys) typed_modifiers.

(** StringTyper.cpp:64-81: the dead keys, and the dead key which is pending *)
Fixpoint find_dead (l : list (key * N)) (st : option N) : list (key * N) * option N :=
  match l with
  | [] => ([], st)
  | (k, m) :: r =>
      match lay st k m with
      | (st, TDead) => let '(ds, st) := find_dead r (fst (lay st k 0)) in ((k, m) :: ds, st)
      | (st, _) => find_dead r st
      end
  end.

(** StringTyper.cpp:83-121, for one dead key (or none) *)
Fixpoint find_chars (deads : list (key * N)) (dead : option (key * N)) (l : list (key * N))
  (d : wdictionary) (st : option N) : wdictionary * option N :=
  match l with
  | [] => (d, st)
  | (k, m) :: r =>
      match dead with
      | None => if existsb (fun x => (fst x =? k) && (snd x =? m)) deads then find_chars deads dead r d st
                else match lay st k m with
                     | (st, TChars [c]) => find_chars deads dead r (emplace c (WEntry (0, 0) (k, m)) d) st
                     | (st, _) => find_chars deads dead r d st
                     end
      | Some (dk, dm) =>
          match lay (fst (lay st dk dm)) k m with
          | (st, TChars [c]) => find_chars deads dead r (emplace c (WEntry (dk, dm) (k, m)) d) st
          | (st, TNothing) => find_chars deads dead r d (fst (lay st k 0))
          | (st, _) => find_chars deads dead r d st
          end
      end
  end.

(** StringTyper.cpp:44-122 *)
Definition make_dictionary : wdictionary :=
  let '(deads, st) := find_dead pairs_to_try None in
  let step (x : wdictionary * option N) (dead : option (key * N)) := find_chars deads dead pairs_to_try (fst x) (snd x) in
  fst (fold_left step (None :: map Some deads) ([], st)).
End Dictionary.

(** win.cpp:17-26 utf8_to_wide.  None: not modelled (Windows puts replacement characters
    for what is no character). *)
Definition wide (c : N) : list N :=
  if c <? 0x10000 then [c]
  else [0xD800 + (c - 0x10000) / 1024; 0xDC00 + (c - 0x10000) mod 1024].
Definition utf8_to_wide (t : text) : option (list N) := option_map (flat_map wide) (utf8_to_utf32 t).

(** StringTyper.cpp:130-142, a character *)
Definition w_type_char (d : wdictionary) (c : N) : list stroke :=
  match look_up c d with
  | Some e =>
      (if fst (we_dead e) =? 0 then [] else [Stroke (fst (we_dead e)) (snd (we_dead e)) 0])
      ++ [Stroke (fst (we_key e)) (snd (we_key e)) 0]
  | None => [Stroke k_unicode_output 0 (N.land (N.shiftr c 8) 0xFF); Stroke k_unicode_output 0 (N.land c 0xFF)]
  end.
(** StringTyper.cpp:124-143 *)
Definition w_type_string (d : wdictionary) (t : text) : option (list stroke) :=
  match utf8_to_wide t with
  | None => None
  | Some l =>
      let l := replace_all 92 110 13 l in
      let l := replace_all 92 114 13 l in
      let l := replace_all 92 116 9 l in
      Some (flat_map (w_type_char d) l)
  end.

(** ParseKeySequence.cpp:249-252 with the keys of Windows *)
Definition w_mod_keys : list (N * key) :=
  [(1, first_logical); (2, AltLeft); (4, AltRight_w); (8, first_logical + 1)].
(** ParseKeySequence.cpp:234-269 add_string_typing_output, outside of a group *)
Fixpoint w_type_output (l : list stroke) (prev : N) : sequence * N :=
  match l with
  | [] => ([], prev)
  | x :: r =>
      let ms := flat_map (type_output_mod (st_mods x) prev) w_mod_keys in
      let '(rest, p) := w_type_output r (st_mods x) in
      (ms ++ [Ev (st_key x) Down (st_value x); Ev (st_key x) Up (st_value x)] ++ rest, p)
  end.
Definition w_release_mods (prev : N) : sequence :=
  flat_map (fun mk : N * key => if has_bits (fst mk) prev then [ev0 (snd mk) Up] else []) w_mod_keys.
Definition w_string_output (l : list stroke) : sequence :=
  let '(sq, prev) := w_type_output l 0 in ev0 k_any Not :: sq ++ w_release_mods prev.

(** What the client sends to the server for a text in quotes (ClientState.cpp:258-279): the
    parser (ParseKeySequence.cpp:324-340 and the end of the sequence, as in ParseSeq.v) with
    the keys of Windows. *)
Definition w_injected (l : list stroke) : sequence :=
  let sq := w_string_output l in
  let sq := if negb (strokes_have_modifier l) && all_pressed_at_once sq then remove_all_from_end Up sq else sq in
  ensure_all_keys_up (replace_logical_keys sq).
