(** What an application gets when the symbols of keys can be composed (C58): dead keys and
    the compose key, with a compose table as libxkbcommon has it. *)
From Coq Require Import String Ascii List Arith NArith Bool.
From Verif Require Import Base Key Text Typer TyperSpec.
Import ListNotations.
Local Open Scope N_scope.

(** The keys pressed, modifiers aside, each with the modifiers which are held then *)
Fixpoint pressed (held : key -> bool) (l : list (key * bool)) : list (key * N) :=
  match l with
  | [] => []
  | (k, down) :: r =>
      if is_modifier k then pressed (fun x => if x =? k then down else held x) r
      else if down then (k, mods_held held) :: pressed held r
      else pressed held r
  end.

(** The symbol a key gives while these modifiers are held *)
Definition symbols : Type := key -> N -> option N.

(** A compose table: sequences of symbols, and the characters each gives *)
Definition compose_table : Type := list (list N * list N).
Fixpoint list_eqb (a b : list N) : bool :=
  match a, b with
  | [], [] => true
  | x :: a, y :: b => (x =? y) && list_eqb a b
  | _, _ => false
  end.
Fixpoint prefixb (a b : list N) : bool :=
  match a, b with
  | [], _ => true
  | x :: a, y :: b => (x =? y) && prefixb a b
  | _, [] => false
  end.

(** Symbols of a sequence which is not complete, or the number entered so far *)
Inductive entering : Type := Pending (l : list N) | Number (n : N).

Section Compose.
(** The character of a symbol, 0 when it has none *)
Variable char_of : N -> N.
Variable table : compose_table.
Variable lay : symbols.

Definition chars_of (s : N) : list N := if char_of s =? 0 then [] else [char_of s].

(** xkb_compose_state_feed: a complete sequence gives its characters; a symbol which
    continues no sequence cancels the one begun; otherwise it stands for itself. *)
Definition feed (p : list N) (s : N) : list N * list N :=
  let q := p ++ [s] in
  match List.find (fun x => list_eqb (fst x) q) table with
  | Some x => (snd x, [])
  | None =>
      if existsb (fun x => prefixb q (fst x)) table then ([], q)
      else match p with [] => (chars_of s, []) | _ => ([], []) end
  end.

(** A key pressed: Control-Shift-U begins a number, Space ends it. *)
Definition enter (x : key * N) (st : entering) : list N * entering :=
  let '(k, m) := x in
  match st with
  | Pending p =>
      if (m =? 9) && match lay k 1 with Some s => char_of s =? 85 | None => false end then ([], Number 0)
      else match lay k m with
           | None => ([], Pending p)
           | Some s => let '(o, p) := feed p s in (o, Pending p)
           end
  | Number v =>
      match lay k m with
      | None => ([], Pending [])
      | Some s =>
          if char_of s =? 32 then ([v], Pending [])
          else match hex_value (char_of s) with
               | Some d => ([], Number (16 * v + d))
               | None => ([], Pending [])
               end
      end
  end.
Fixpoint composed (st : entering) (l : list (key * N)) : list N * entering :=
  match l with
  | [] => ([], st)
  | x :: r => let '(o, st) := enter x st in let '(cs, st) := composed st r in (o ++ cs, st)
  end.

(** Each character of the dictionary is what its strokes give. *)
Definition right_composed (d : dictionary) : Prop :=
  forall c e, d c = Some e ->
    Forall (fun x => typing_key (fst x) /\ snd x < 8) e /\ composed (Pending []) e = ([c], Pending []).

(** The characters of the symbols *)
Definition char_layout : layout := fun k m =>
  match lay k m with Some s => if char_of s =? 0 then None else Some (char_of s) | None => None end.
End Compose.

(** ** Keymaps and tables of xkb *)

(** The symbol of a key in the first layout, as [xkb_layout] has the character. *)
Definition xkb_symbols (keys : keymap) : symbols := fun k m =>
  match List.find (fun x => xkb_keyname_to_key (xk_name x) =? k) keys with
  | None => None
  | Some x =>
      match xk_layouts x with
      | [] => None
      | y :: _ =>
          if negb (N.land (xkb_state m) (N.ldiff 12 (xl_mods y)) =? 0) then None
          else match level_for y (xkb_state m) with
               | Some (Lv (s :: _) _) => Some s
               | _ => None
               end
      end
  end.

(** What xkb_compose_table_iterator_next gives of a table: the entries with a text, with
    the first character of it. *)
Definition iterated (table : compose_table) : list (N * list N) :=
  flat_map (fun x => match snd x with c :: _ => [(c, fst x)] | [] => [] end) table.

(** Tables in which no sequence begins with another one, nor with a symbol which is a
    character of the keymap, and all give one character *)
Definition strict_prefix_free (table : compose_table) : Prop :=
  forall a b, In a table -> In b table -> prefixb (fst a) (fst b) = true -> a = b.
Definition on_keymap (keys : keymap) (s : N) : Prop :=
  exists x y l r, In x keys /\ In y (xk_layouts x) /\ In l (xl_levels y) /\ lv_symbols l = s :: r.
Definition plain_table (char_of : N -> N) (keys : keymap) (table : compose_table) : Prop :=
  strict_prefix_free table /\
  Forall (fun x => exists s r, fst x = s :: r /\ (on_keymap keys s -> char_of s = 0)) table /\
  Forall (fun x => exists c, snd x = [c]) table.

(** A symbol which can be had by a known key, other than the last one, or by the compose
    key *)
Definition on_known_key (keys : keymap) (s : N) : Prop :=
  exists x y l r, In x (removelast keys) /\ xkb_keyname_to_key (xk_name x) <> 0 /\ In y (xk_layouts x) /\
    In l (xl_levels y) /\ lv_symbols l = s :: r /\ lv_masks l <> [].
Definition reachable (compose : option (key * N)) (keys : keymap) (s : N) : Prop :=
  on_known_key keys s \/ s = multi_key /\ compose <> None.
(** No two symbols of the keymap are the same character. *)
Definition one_symbol_each (char_of : N -> N) (keys : keymap) : Prop :=
  forall s s', on_keymap keys s -> on_keymap keys s' -> char_of s <> 0 -> char_of s = char_of s' -> s = s'.
