(** Specification of what it means to type the string of an input (C112), independent of
    the matcher. *)
From Coq Require Import List NArith Bool.
From Verif Require Import Base Key MatchSpec ParseSeq Config.
Import ListNotations.
Local Open Scope N_scope.

(** The keys with which modifiers are held, in the order of Shift, Alt, AltGr, Control *)
Definition modifier_keys : list key :=
  [ShiftLeft; ShiftRight; AltLeft; AltRight; ControlLeft; ControlRight].

(** The loaded input for one choice of the Shift and Control keys: !Shift stands for both
    keys, everything else for the chosen one (ParseConfig.cpp:1004-1040). *)
Definition sided (sh ct : key) (l : sequence) : sequence :=
  let logical both left right chosen l := replace_key both chosen (replace_not_key both left right l) in
  logical (first_logical + 1) ControlLeft ControlRight ct
    (logical first_logical ShiftLeft ShiftRight sh l).

(** The key which holds the modifier with this bit (StringTyper.h:10-15) *)
Definition modifier_key (sh ct : key) (m : N) : key :=
  if m =? 1 then sh else if m =? 2 then AltLeft else if m =? 4 then AltRight else ct.

(** The string needs at most the modifier [m] and no key is itself a modifier. *)
Definition one_modifier (m : N) (l : list stroke) : Prop :=
  Forall (fun x => real_key (st_key x) /\ ~ In (st_key x) modifier_keys /\
                   st_key x <> first_logical /\ st_key x <> first_logical + 1 /\
                   (st_mods x = 0 \/ st_mods x = m)) l.
Definition needs (x : stroke) : bool := negb (st_mods x =? 0).

(** Somebody types the strokes with the modifier key [mk].  [used]: it was pressed before,
    [ready]: it is as the next stroke needs it, [held]: it is held, [down]: the other keys
    which are held.

    Keys may be released whenever they like.  The modifier is pressed when it is not held
    and needed, released when it is held and not needed, and may be released and pressed
    again between two strokes which need it.  Only when it is pressed for the first time
    no key of the string may be held. *)
Inductive types (mk : key) : forall (used ready held : bool) (down : list key), list stroke -> sequence -> Prop :=
| ty_done u r h p : types mk u r h p [] []
| ty_up u r h p q k l sq : types mk u r h (p ++ q) l sq -> types mk u r h (p ++ k :: q) l (ev0 k Up :: sq)
| ty_key u r h p x l sq : needs x = h -> ~ In (st_key x) p -> types mk u false h (st_key x :: p) l sq ->
    types mk u r h p (x :: l) (ev0 (st_key x) Down :: sq)
| ty_press u p x l sq : needs x = true -> u = true \/ p = [] -> types mk true true true p (x :: l) sq ->
    types mk u false false p (x :: l) (ev0 mk Down :: sq)
| ty_release u p x l sq : needs x = false -> types mk u true false p (x :: l) sq ->
    types mk u false true p (x :: l) (ev0 mk Up :: sq)
| ty_again u p x l sq : needs x = true -> types mk u true true p (x :: l) sq ->
    types mk u false true p (x :: l) (ev0 mk Up :: ev0 mk Down :: sq).
Definition typed (mk : key) (l : list stroke) (sq : sequence) : Prop := types mk false false false [] l sq.

(** How many keys other than modifiers are pressed *)
Definition is_press (s : kstate) : bool := kstate_eqb s Down || kstate_eqb s DownMatched.
Definition is_letter (k : key) : bool := negb (existsb (N.eqb k) modifier_keys).
Definition strokes_of (l : sequence) : nat := length (List.filter (fun e => is_letter (ek e) && is_press (es e)) l).

(** The strokes typed one after the other: modifiers pressed, key pressed and released,
    modifiers released *)
Definition plainly (sh ct : key) (l : list stroke) : sequence :=
  flat_map (fun x =>
    let mods := map (modifier_key sh ct) (List.filter (fun m => has_bits m (st_mods x)) [1; 2; 4; 8]) in
    map (fun k => ev0 k Down) mods ++ [ev0 (st_key x) Down; ev0 (st_key x) Up] ++ map (fun k => ev0 k Up) (rev mods)) l.
