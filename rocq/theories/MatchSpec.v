(** Specification of what input expressions mean, independent of the matcher.

    A history is a list of key events.  Presses are [Down] events, releases are [Up]
    events. *)
From Coq Require Import List NArith Bool Permutation.
From Verif Require Import Base Key.
Import ListNotations.
Local Open Scope N_scope.

(** Keys which stand for themselves (not none / Any / timeout). *)
Definition real_key (k : key) : Prop := k <> k_none /\ k <> k_any /\ k <> k_timeout.

(** A plain history: presses and releases of such keys. *)
Definition plain_event (e : event) : Prop :=
  real_key (ek e) /\ (es e = Down \/ es e = Up).
Definition plain (l : sequence) : Prop := Forall plain_event l.

Definition is_press (e : event) : bool := match es e with Down => true | _ => false end.
Definition is_release (e : event) : bool := match es e with Up => true | _ => false end.
Definition presses (l : sequence) : list key := map ek (filter is_press l).
Definition releases (l : sequence) : list key := map ek (filter is_release l).

(** No key is pressed again while it is still down. *)
Definition alternating (l : sequence) : Prop :=
  forall l1 k v l2, l = l1 ++ Ev k Down v :: l2 ->
    length (filter (N.eqb k) (presses l1)) = length (filter (N.eqb k) (releases l1)).

(** Input expressions built from keys by juxtaposition [A B] and holding [A{B}]. *)
Inductive iexpr : Type :=
| IKey (k : key)
| ISeq (a b : iexpr)
| IHold (k : key) (a : iexpr).

Fixpoint ikeys (x : iexpr) : list key :=
  match x with
  | IKey k => [k]
  | ISeq a b => ikeys a ++ ikeys b
  | IHold k a => k :: ikeys a
  end.

(** The sequence the parser produces for it (ParseKeySequence.h:9-18 and
    ParseKeySequence.cpp: `A B` => +A ~A +B ~B, `A{B}` => +A +B ~B ~A). *)
Fixpoint icompile (x : iexpr) : sequence :=
  match x with
  | IKey k => [ev0 k Down; ev0 k UpAsync]
  | ISeq a b => icompile a ++ icompile b
  | IHold k a => ev0 k Down :: icompile a ++ [ev0 k UpAsync]
  end.

(** The keys which have to be pressed before [k] may be released. *)
Fixpoint iheld (x : iexpr) (k : key) : list key :=
  match x with
  | IKey j => if j =? k then [j] else []
  | ISeq a b => iheld a k ++ iheld b k
  | IHold j a => if j =? k then j :: ikeys a else iheld a k
  end.

(** A history fulfils the expression: its presses are the keys in order, every
    release releases a key once, and not before everything held by it was pressed. *)
Definition ireleases_ok (x : iexpr) (sq : sequence) : Prop :=
  forall l k v r, sq = l ++ Ev k Up v :: r ->
    In k (ikeys x) /\ ~ In k (releases l) /\ incl (iheld x k) (presses l).
Definition ifulfils (x : iexpr) (sq : sequence) : Prop :=
  presses sq = ikeys x /\ ireleases_ok x sq.
(** It may still be fulfilled by pressing more keys. *)
Definition imight (x : iexpr) (sq : sequence) : Prop :=
  (exists k more, presses sq ++ k :: more = ikeys x) /\ ireleases_ok x sq.

(** A group [(A B ...)] *)
Definition gcompile (ks : list key) : sequence :=
  map (fun k => ev0 k DownAsync) ks ++ map (fun k => ev0 k Down) ks
  ++ map (fun k => ev0 k UpAsync) ks.

(** A history fulfils a group: first all its keys are pressed, each once and in any
    order, then some of them are released. *)
Definition gfulfils (ks : list key) (sq : sequence) : Prop :=
  exists l r, sq = l ++ r /\ releases l = [] /\ presses r = [] /\
    Permutation (presses l) ks /\ NoDup (releases r) /\ incl (releases r) ks.
(** Some but not all of its keys are pressed. *)
Definition gmight (ks : list key) (sq : sequence) : Prop :=
  releases sq = [] /\ exists k more, Permutation (presses sq ++ k :: more) ks.

(** A sequence of keys [K1 K2 ... Kn] *)
Definition ocompile (ks : list key) : sequence :=
  flat_map (fun k => [ev0 k Down; ev0 k UpAsync]) ks.

(** Its presses are the keys in order and every release releases a key which was
    pressed before and not released since. *)
Definition releases_pressed (sq : sequence) : Prop :=
  forall l k v r, sq = l ++ Ev k Up v :: r -> In k (presses l) /\ ~ In k (releases l).
