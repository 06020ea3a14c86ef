(** What an application gets when keys are pressed (C58): a keyboard layout, and the way
    characters are entered by their number (Control-Shift-U, hexadecimal digits, Space),
    as input methods of Linux offer it. *)
From Coq Require Import String Ascii List Arith NArith ZArith Bool.
From Verif Require Import Base Key Text Device DeviceSpec Typer.
Import ListNotations.
Local Open Scope N_scope.

(** ** Texts *)

(** The characters of Unicode *)
Definition is_char (c : N) : Prop := 0 < c < 0xD800 \/ 0xE000 <= c < 0x110000.
(** UTF-8, RFC 3629 *)
Definition byte (n : N) : ascii := ascii_of_N n.
Definition utf8 (c : N) : text :=
  if c <? 0x80 then [byte c]
  else if c <? 0x800 then [byte (0xC0 + c / 64); byte (0x80 + c mod 64)]
  else if c <? 0x10000 then [byte (0xE0 + c / 4096); byte (0x80 + c / 64 mod 64); byte (0x80 + c mod 64)]
  else [byte (0xF0 + c / 262144); byte (0x80 + c / 4096 mod 64); byte (0x80 + c / 64 mod 64); byte (0x80 + c mod 64)].
Definition encoded (l : list N) : text := flat_map utf8 l.

(** What the escapes \n, \r and \t stand for *)
Fixpoint unescaped (l : list N) : list N :=
  match l with
  | 92 :: ((x :: r) as rest) =>
      if (x =? 110) || (x =? 114) then 13 :: unescaped r
      else if x =? 116 then 9 :: unescaped r
      else 92 :: unescaped rest
  | c :: r => c :: unescaped r
  | [] => []
  end.

(** ** Keyboards *)

(** The character a key gives while these modifiers are held: the sum of Shift 1, Alt 2,
    AltGr 4, Control 8. *)
Definition layout : Type := key -> N -> option N.

Definition modifier_keys : list key := [ShiftLeft; ShiftRight; ControlLeft; ControlRight; AltLeft; AltRight].
Definition is_modifier (k : key) : bool := existsb (N.eqb k) modifier_keys.
Definition mods_held (held : key -> bool) : N :=
  (if held ShiftLeft || held ShiftRight then 1 else 0) + (if held AltLeft then 2 else 0)
  + (if held AltRight then 4 else 0) + (if held ControlLeft || held ControlRight then 8 else 0).

Definition hex_value (c : N) : option N :=
  if (48 <=? c) && (c <=? 57) then Some (c - 48)
  else if (97 <=? c) && (c <=? 102) then Some (c - 87)
  else None.

(** The key presses and releases which arrive, in order, to the characters of the text.
    [number]: the number entered so far. *)
Fixpoint reading (lay : layout) (held : key -> bool) (number : option N) (l : list (key * bool))
    : list N * option N :=
  match l with
  | [] => ([], number)
  | (k, down) :: r =>
      if is_modifier k then reading lay (fun x => if x =? k then down else held x) number r
      else if negb down then reading lay held number r
      else
        let m := mods_held held in
        match number with
        | None =>
            if (m =? 9) && match lay k 1 with Some c => c =? 85 | None => false end
            then reading lay held (Some 0) r
            else
              let '(cs, n) := reading lay held None r in
              (match lay k m with Some c => c :: cs | None => cs end, n)
        | Some v =>
            match lay k m with
            | None => reading lay held None r
            | Some c =>
                if c =? 32 then let '(cs, n) := reading lay held None r in (v :: cs, n)
                else match hex_value c with
                     | Some x => reading lay held (Some (16 * v + x)) r
                     | None => reading lay held None r
                     end
            end
        end
  end.

(** The strokes of the virtual keyboard an application gets *)
Definition strokes_of (l : list (vid * ievent)) : list (key * bool) :=
  flat_map (fun x => match fst x with
                     | VKeyboard => if ie_type (snd x) =? EV_KEY
                                    then [(ie_code (snd x), negb (Z.eqb (ie_value (snd x)) 0))] else []
                     | VForward _ => []
                     end) l.

(** ** Layouts and dictionaries *)

(** A key of a keyboard which is no modifier *)
Definition typing_key (k : key) : Prop :=
  0 < k < 0x200 /\ is_mouse_button k = false /\ is_mouse_wheel k = false /\ is_modifier k = false.

(** Each character of the dictionary is on the key it names. *)
Definition right_for (lay : layout) (d : dictionary) : Prop :=
  forall c e, d c = Some e -> exists k m, e = [(k, m)] /\ m < 8 /\ typing_key k /\ lay k m = Some c.

(** Characters can be entered by their number: U, the letters A to F and Space are where
    the keys with these names are, and the number block gives digits. *)
Definition digit_char (n : N) : N := if n <? 10 then 48 + n else 87 + n.
Definition number_keys (lay : layout) : Prop :=
  lay 0x16 1 = Some 85 /\ lay 0x39 0 = Some 32 /\
  forall i k, nth_error [0x52; 0x4F; 0x50; 0x51; 0x4B; 0x4C; 0x4D; 0x47; 0x48; 0x49; 0x1E; 0x30; 0x2E; 0x20; 0x12; 0x21] i = Some k ->
    lay k 0 = Some (digit_char (N.of_nat i)).

(** The keyboard of the United States: rows of keys from a code on, without and with
    Shift; the number block with digits. *)
Definition us_rows : list (key * string * string) :=
  [(0x02, "1234567890-=", "!@#$%^&*()_+"); (0x10, "qwertyuiop[]", "QWERTYUIOP{}");
   (0x1E, "asdfghjkl;'`", "ASDFGHJKL:""~"); (0x2B, "\zxcvbnm,./", "|ZXCVBNM<>?");
   (0x47, "789", ""); (0x4B, "456", ""); (0x4F, "1230", ""); (0x39, " ", " ")]%string.
Definition row_char (k : key) (m : N) (row : key * string * string) : option N :=
  let '(first, plain, shifted) := row in
  if (first <=? k) && (m <? 2)
  then option_map N_of_ascii (String.get (N.to_nat (k - first)) (if m =? 0 then plain else shifted))
  else None.
Fixpoint first_some {A B} (f : A -> option B) (l : list A) : option B :=
  match l with [] => None | x :: r => match f x with Some y => Some y | None => first_some f r end end.
Definition us_layout : layout := fun k m =>
  if k =? 0x0F then (if m <? 2 then Some 9 else None)
  else if k =? 0x1C then (if m <? 2 then Some 13 else None)
  else first_some (row_char k m) us_rows.

(** ** Layouts of xkb *)

(** The bits of the modifiers *)
Definition xkb_state (m : N) : N :=
  (if N.testbit m 0 then 1 else 0) + (if N.testbit m 1 then 8 else 0) + (if N.testbit m 2 then 128 else 0)
  + (if N.testbit m 3 then 4 else 0).
(** The level of a key: the one with the mask of the modifiers held, of those the levels
    depend on; else the first. *)
Definition level_for (x : xlayout) (state : N) : option level :=
  match List.find (fun l => existsb (N.eqb (N.land state (xl_mods x))) (lv_masks l)) (xl_levels x) with
  | Some l => Some l
  | None => hd_error (xl_levels x)
  end.
(** The character of a key in the first layout, which is the active one.  Control and Alt
    make it a shortcut when the levels do not depend on them. *)
Definition xkb_layout (to_utf32 : N -> N) (keys : keymap) : layout := fun k m =>
  match List.find (fun x => xkb_keyname_to_key (xk_name x) =? k) keys with
  | None => None
  | Some x =>
      match xk_layouts x with
      | [] => None
      | y :: _ =>
          if negb (N.land (xkb_state m) (N.ldiff 12 (xl_mods y)) =? 0) then None
          else
            match level_for y (xkb_state m) with
            | Some (Lv (s :: _) _) => if to_utf32 s =? 0 then None else Some (to_utf32 s)
            | _ => None
            end
      end
  end.

(** Keymaps with one layout for each key, where the modifiers of a level are those of its
    first mask: only Shift, Alt and AltGr, and no other level has this mask. *)
Definition own_mask (y : xlayout) (l : level) : Prop :=
  forall mask r, lv_masks l = mask :: r ->
    N.land mask 137 = mask /\ N.land mask (xl_mods y) = mask /\
    forall l', In l' (xl_levels y) -> In mask (lv_masks l') -> l' = l.
Definition plain_keymap (keys : keymap) : Prop :=
  NoDup (map xk_name keys) /\
  Forall (fun x => (length (xk_layouts x) <= 1)%nat /\
    Forall (fun y => Forall (own_mask y) (xl_levels y)) (xk_layouts x)) keys.
