(** Model of the string typer of Linux: src/client/unix/StringTyperImpl.cpp,
    StringTyperGeneric.cpp and StringTyperXKB.cpp.  What xkbcommon says about the layout
    is data; asking X11 (StringTyperX11.cpp:33-76) and Wayland for it is not modelled. *)
From Coq Require Import String Ascii List Arith NArith Bool.
From Verif Require Import Base Key Text ParseSeq.
Import ListNotations.
Local Open Scope N_scope.

(** ** UTF-8 *)

(** StringTyperImpl.cpp:38-41 utf8_to_utf32, by std::codecvt_utf8<char32_t>.  None: an
    exception, also for a character cut off at the end (which libstdc++ before version 9
    dropped instead) and for surrogates (which it accepted before version 13). *)
Definition continuation (c : ascii) : option N :=
  let n := code c in if (0x80 <=? n) && (n <? 0xC0) then Some (n - 0x80) else None.
Fixpoint utf8_to_utf32 (t : text) : option (list N) :=
  match t with
  | [] => Some []
  | a :: r =>
      let n := code a in
      if n <? 0x80 then option_map (cons n) (utf8_to_utf32 r)
      else if n <? 0xC2 then None
      else
        match r with
        | [] => None
        | b :: r =>
            match continuation b with
            | None => None
            | Some x =>
                if n <? 0xE0 then option_map (cons ((n - 0xC0) * 64 + x)) (utf8_to_utf32 r)
                else
                  match r with
                  | [] => None
                  | c :: r =>
                      match continuation c with
                      | None => None
                      | Some y =>
                          let v := ((n - 0xE0) * 64 + x) * 64 + y in
                          if n <? 0xF0 then
                            if (v <? 0x800) || ((0xD800 <=? v) && (v <? 0xE000)) then None
                            else option_map (cons v) (utf8_to_utf32 r)
                          else
                            match r with
                            | [] => None
                            | d :: r =>
                                match continuation d with
                                | None => None
                                | Some z =>
                                    let v := (((n - 0xF0) * 64 + x) * 64 + y) * 64 + z in
                                    if (0xF5 <=? n) || (v <? 0x10000) || (0x10FFFF <? v) then None
                                    else option_map (cons v) (utf8_to_utf32 r)
                                end
                            end
                      end
                  end
            end
        end
  end.

(** ** Characters to strokes *)

(** StringTyperImpl.h:9-17 Entry; StringTyper.h:10-15 the bits of the modifiers are
    Shift 1, Alt 2, AltGr 4, Control 8. *)
Definition entry : Type := list (key * N).
(** StringTyperImpl.h:29 m_dictionary *)
Definition dictionary : Type := N -> option entry.

(** StringTyper.h:30-37 replace_all of two characters by one *)
Fixpoint replace_all (a b to : N) (l : list N) : list N :=
  match l with
  | x :: (y :: r) as rest =>
      if (x =? a) && (y =? b) then to :: replace_all a b to r else x :: replace_all a b to rest
  | _ => l
  end.

(** StringTyperImpl.cpp:12-17 hex_keys *)
Definition hex_keys : list key :=
  [0x52; 0x4F; 0x50; 0x51; 0x4B; 0x4C; 0x4D; 0x47; 0x48; 0x49; 0x1E; 0x30; 0x2E; 0x20; 0x12; 0x21].
Definition K_U : key := 0x16.
Definition Space : key := 0x39.

(** StringTyperImpl.cpp:18-20: the keys, last digit first.  A character has at most 32
    bits. *)
Fixpoint hex_digits (fuel : nat) (c : N) : list key :=
  match fuel with
  | O => []
  | S fuel => if c =? 0 then [] else nth (N.to_nat (N.land c 0xF)) hex_keys 0 :: hex_digits fuel (N.shiftr c 4)
  end.

(** StringTyperImpl.cpp:11-27 hex_type_unicode_linux *)
Definition hex_type (c : N) : list stroke :=
  Stroke K_U 9 0 :: map (fun k => Stroke k 0 0) (rev (hex_digits 8 c)) ++ [Stroke Space 0 0].

(** StringTyperImpl.cpp:55-77 StringTyperImpl::type, a character *)
Definition type_char (d : dictionary) (c : N) : list stroke :=
  match d c with
  | None => hex_type c
  | Some e => map (fun x : key * N => Stroke (fst x) (snd x) 0) e
  end.
(** StringTyperImpl.cpp:55-77.  None: an exception, which ParseKeySequence.cpp:50 turns
    into an error. *)
Definition type_string (d : dictionary) (t : text) : option (list stroke) :=
  match utf8_to_utf32 t with
  | None => None
  | Some l =>
      let l := replace_all 92 110 13 l in
      let l := replace_all 92 114 13 l in
      let l := replace_all 92 116 9 l in
      Some (flat_map (type_char d) l)
  end.

(** ** StringTyperGeneric.cpp *)

(** StringTyperGeneric.cpp:5-47 get_key *)
Definition letter_keys : list key :=
  [0x1E; 0x30; 0x2E; 0x20; 0x12; 0x21; 0x22; 0x23; 0x17; 0x24; 0x25; 0x26; 0x32; 0x31; 0x18; 0x19; 0x10;
   0x13; 0x1F; 0x14; 0x16; 0x2F; 0x11; 0x2D; 0x15; 0x2C].
Definition digit_keys : list key := [0x0B; 0x02; 0x03; 0x04; 0x05; 0x06; 0x07; 0x08; 0x09; 0x0A].
(** StringTyperGeneric.cpp:50-64 *)
Definition generic_dictionary : dictionary := fun c =>
  if (48 <=? c) && (c <=? 57) then Some [(nth (N.to_nat (c - 48)) digit_keys 0, 0)]
  else if (97 <=? c) && (c <=? 122) then Some [(nth (N.to_nat (c - 97)) letter_keys 0, 0)]
  else if (65 <=? c) && (c <=? 90) then Some [(nth (N.to_nat (c - 65)) letter_keys 0, 1)]
  else if c =? 32 then Some [(Space, 0)]
  else if c =? 9 then Some [(0x0F, 0)]
  else if c =? 13 then Some [(0x1C, 0)]
  else if c =? 63 then Some [(0x35, 1)]
  else None.

(** ** StringTyperXKB.cpp *)

(** StringTyperXKB.cpp:8-80 xkb_keyname_to_key.  to_code takes the first four
    characters; no other name of xkb begins with one of these. *)
Local Open Scope string_scope.
Definition xkb_names : list (string * key) := [
  ("ESC", 0x01); ("AE01", 0x02); ("AE02", 0x03); ("AE03", 0x04); ("AE04", 0x05); ("AE05", 0x06); ("AE06", 0x07);
  ("AE07", 0x08); ("AE08", 0x09); ("AE09", 0x0A); ("AE10", 0x0B); ("AE11", 0x0C); ("AE12", 0x0D); ("BKSP", 0x0E);
  ("TAB", 0x0F); ("AD01", 0x10); ("AD02", 0x11); ("AD03", 0x12); ("AD04", 0x13); ("AD05", 0x14); ("AD06", 0x15);
  ("AD07", 0x16); ("AD08", 0x17); ("AD09", 0x18); ("AD10", 0x19); ("AD11", 0x1A); ("AD12", 0x1B); ("AC01", 0x1E);
  ("AC02", 0x1F); ("AC03", 0x20); ("AC04", 0x21); ("AC05", 0x22); ("AC06", 0x23); ("AC07", 0x24); ("AC08", 0x25);
  ("AC09", 0x26); ("AC10", 0x27); ("AC11", 0x28); ("AC12", 0x59); ("TLDE", 0x29); ("BKSL", 0x2B); ("AB01", 0x2C);
  ("AB02", 0x2D); ("AB03", 0x2E); ("AB04", 0x2F); ("AB05", 0x30); ("AB06", 0x31); ("AB07", 0x32); ("AB08", 0x33);
  ("AB09", 0x34); ("AB10", 0x35); ("SPCE", 0x39); ("LSGT", 0x56); ("RTRN", 0x1C)].
Local Close Scope string_scope.
Definition xkb_keyname_to_key (n : string) : key :=
  match find (fun x => String.eqb (fst x) n) xkb_names with Some (_, k) => k | None => 0 end.

(** StringTyperXKB.cpp:82-91 get_xkb_modifiers *)
Definition get_xkb_modifiers (mask : N) : N :=
  (if N.testbit mask 0 then 1 else 0) + (if N.testbit mask 3 then 2 else 0) + (if N.testbit mask 7 then 4 else 0).

(** What the functions xkb_keymap_* say: the keys by code, each with its name, for each
    layout the modifiers its levels depend on, and for each level the symbols and the
    masks of modifiers which select it. *)
Record level : Type := Lv { lv_symbols : list N; lv_masks : list N }.
Record xlayout : Type := Xl { xl_mods : N; xl_levels : list level }.
Record xkey : Type := Xk { xk_name : string; xk_layouts : list xlayout }.
(** The keys from xkb_keymap_min_keycode on.  The last one, with the code
    xkb_keymap_max_keycode, is not visited (StringTyperXKB.cpp:122). *)
Definition keymap : Type := list xkey.

Section Xkb.
(** xkb_keysym_to_utf32, 0 when the symbol is no character *)
Variable to_utf32 : N -> N.

(** A std::map, as the list of what was added *)
Definition amap (A : Type) : Type := list (N * A).
Definition alook {A} (n : N) (m : amap A) : option A :=
  match find (fun x => fst x =? n) m with Some (_, a) => Some a | None => None end.

(** The dictionary, and the stroke of each symbol: stroke_by_keysymbol points to
    entries of m_dictionary and dead_keys, of which only the first stroke is used. *)
Record xstate : Type := Xs { xs_dict : amap entry; xs_dead : amap (key * N); xs_stroke : amap (key * N) }.

(** StringTyperXKB.cpp:127-147, a level.  emplace keeps what is there already. *)
Definition add_level (k : key) (l : level) (s : xstate) : xstate :=
  match lv_symbols l, lv_masks l with
  | sym :: _, mask :: _ =>
      let x := (k, get_xkb_modifiers mask) in
      let c := to_utf32 sym in
      if negb (c =? 0) then
        match alook c (xs_dict s) with
        | Some _ => s
        | None => Xs (xs_dict s ++ [(c, [x])]) (xs_dead s) ((sym, x) :: xs_stroke s)
        end
      else
        match alook sym (xs_dead s) with
        | Some y => Xs (xs_dict s) (xs_dead s) ((sym, y) :: xs_stroke s)
        | None => Xs (xs_dict s) (xs_dead s ++ [(sym, x)]) ((sym, x) :: xs_stroke s)
        end
  | _, _ => s
  end.
(** StringTyperXKB.cpp:122-150 *)
Definition add_key (k : xkey) (s : xstate) : xstate :=
  match xkb_keyname_to_key (xk_name k) with
  | 0 => s
  | c => fold_left (fun s x => fold_left (fun s l => add_level c l s) (xl_levels x) s) (xk_layouts k) s
  end.
Definition multi_key : N := 0xFF20.
(** StringTyperXKB.cpp:113-120; set_string_typer_compose_key, StringTyperImpl.cpp:81-85 *)
Definition start (compose : option (key * N)) : xstate :=
  match compose with
  | Some x => Xs [] [(multi_key, x)] [(multi_key, x)]
  | None => Xs [] [] []
  end.

(** StringTyperXKB.cpp:153-164 compose_entry.  An empty result also when a stroke is not
    known. *)
Fixpoint compose_entry (strokes : amap (key * N)) (l : list N) : option entry :=
  match l with
  | [] => Some []
  | sym :: r =>
      match alook sym strokes, compose_entry strokes r with
      | Some x, Some e => Some (x :: e)
      | _, _ => None
      end
  end.
(** StringTyperXKB.cpp:166-182: an entry of the compose table, with the first character
    of its text. *)
Definition add_composed (strokes : amap (key * N)) (d : amap entry) (x : N * list N) : amap entry :=
  match alook (fst x) d with
  | Some _ => d
  | None =>
      match compose_entry strokes (snd x) with
      | Some (y :: e) => d ++ [(fst x, y :: e)]
      | _ => d
      end
  end.
(** StringTyperXKB.cpp:106-188 update_layout_xkbcommon *)
Definition xkb_dictionary (compose : option (key * N)) (keys : keymap) (table : list (N * list N)) : dictionary :=
  let s := fold_left (fun s k => add_key k s) (removelast keys) (start compose) in
  let d := fold_left (add_composed (xs_stroke s)) table (xs_dict s) in
  fun c => alook c d.
End Xkb.

(** control/ClientPort.cpp:71-79 send_type_string: the text of the inject_output message *)
Definition quoted (t : text) : text := T """" ++ t ++ T """".
