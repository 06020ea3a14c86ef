(** Specification side of the properties of loaded configurations: what a list of
    contexts means, independently of how it is stored. *)
From Coq Require Import List Arith NArith ZArith Bool.
From Verif Require Import Base Key Text Match Stage Config.
Import ListNotations.
Local Open Scope N_scope.

(** * Mappings *)

(** The target of a mapping is an output or a command. *)
Inductive target : Type := TOut (o : sequence) | TCmd (n : Z).
Definition mapping : Type := (sequence * target)%type.
Definition target_of (outs : list sequence) (i : input) : target :=
  if (0 <=? in_out i)%Z then TOut (nth (Z.to_nat (in_out i)) outs []) else TCmd (in_out i).
Definition mappings (x : cctx) : list mapping :=
  map (fun i => (in_seq i, target_of (cc_outputs x) i)) (cc_inputs x).
(** The mappings of a block and its outputs of commands. *)
Definition maps : Type := (list mapping * list command)%type.
Definition maps_of (x : cctx) : maps := (mappings x, cc_commands x).
Definition has_maps (m : maps) : bool :=
  match m with ([], []) => false | _ => true end.

(** * Contexts *)

(** The conditions between the brackets except for the system. *)
Definition attrs : Type := (filter * filter * filter * filter * filter * sequence * bool)%type.
Definition attrs_of (x : cctx) : attrs :=
  (cc_class x, cc_title x, cc_path x, cc_dev x, cc_devid x, cc_mods x, cc_inv x).

(** The stages: a stage begins at each context marked so, except for the first. *)
Fixpoint cut (l : list cctx) : list (list cctx) :=
  match l with
  | [] => [[]]
  | x :: r =>
      match r with
      | [] => [[x]]
      | y :: _ =>
          if cc_stage y then [x] :: cut r
          else match cut r with s :: ss => (x :: s) :: ss | [] => [[x]] end
      end
  end.

Section Meaning.
(** Which conditions are met. *)
Variable met : attrs -> bool.
Definition applies (x : cctx) : bool := cc_sys x && met (attrs_of x).

(** The mappings which are active within a stage: consecutive headers share the
    mappings after the last of them; these are active when one of the headers applies.
    [on]: one of the preceding headers of the block did. *)
Fixpoint active (on : bool) (l : list cctx) : list maps :=
  match l with
  | [] => []
  | x :: r =>
      let on := on || applies x in
      if cc_fall x then active on r
      else (if on && has_maps (maps_of x) then [maps_of x] else []) ++ active false r
  end.
Definition meaning (l : list cctx) : list (list maps) := map (active false) (cut l).
End Meaning.

(** A context sharing the mappings of the next one is followed by one of its stage. *)
Definition chained (l : list cctx) : Prop :=
  forall i x, nth_error l i = Some x -> cc_fall x = true ->
    exists y, nth_error l (S i) = Some y /\ cc_stage y = false.

(** * Logical keys *)

(** The same event for another key. *)
Definition as_key (both k : key) (e : event) : event :=
  if ek e =? both then Ev k (es e) (ev e) else e.
(** `!Both` forbids each of the keys. *)
Definition forbid_both (k : logical_key) (s : sequence) : sequence :=
  flat_map (fun e => if (ek e =? lk_both k) && kstate_eqb (es e) Not
                     then [ev0 (lk_left k) Not; Ev (lk_right k) Not (ev e)] else [e]) s.
Definition with_key (k : logical_key) (c : key) (s : sequence) : sequence :=
  map (as_key (lk_both k) c) (forbid_both k s).
Definition target_with (k : logical_key) (c : key) (t : target) : target :=
  match t with TOut o => TOut (with_key k c o) | TCmd n => TCmd n end.
(** A mapping whose input mentions a logical key stands for one with the left and one
    with the right key; an output alone gets the left one. *)
Definition uses (k : key) (s : sequence) : Prop := exists e, In e s /\ ek e = k.
Definition uses_held (k : key) (s : sequence) : Prop := exists e, In e s /\ ek e = k /\ es e <> Not.
Definition held_in (k : key) (s : sequence) : bool :=
  existsb (fun e => (ek e =? k) && negb (kstate_eqb (es e) Not)) s.
Definition written_out (k : logical_key) (m : mapping) : list mapping :=
  let '(i, t) := m in
  if held_in (lk_both k) i
  then [(with_key k (lk_left k) i, target_with k (lk_left k) t);
        (with_key k (lk_right k) i, target_with k (lk_right k) t)]
  else [(with_key k (lk_left k) i, target_with k (lk_left k) t)].
Definition written_maps (k : logical_key) (m : maps) : maps :=
  (flat_map (written_out k) (fst m),
   map (fun c => Cmd (with_key k (lk_left k) (cm_out c)) (cm_idx c)) (snd m)).

(** The state of the keys, a logical key being down when one of its two is. *)
Definition logical_down (ks : list logical_key) (down : key -> bool) : Prop :=
  forall k, In k ks -> down (lk_both k) = down (lk_left k) || down (lk_right k).
(** A modifier filter (the value of `modifier`) is met. *)
Definition mods_met (down : key -> bool) (mods : sequence) : bool :=
  forallb (fun e => Bool.eqb (down (ek e)) (negb (kstate_eqb (es e) Not))) mods.
(** The conditions for a state of the keys; [other] decides about the other filters. *)
Definition met_with (other : filter -> filter -> filter -> filter -> filter -> bool)
           (down : key -> bool) (a : attrs) : bool :=
  let '(c, t, p, d, i, mods, inv) := a in
  other c t p d i && xorb (mods_met down mods) inv.

(** All events of a context. *)
Definition events_of (x : cctx) : sequence :=
  concat (map in_seq (cc_inputs x)) ++ concat (cc_outputs x) ++
  concat (map cm_out (cc_commands x)) ++ cc_mods x.

(** * Forwarded modifiers *)

(** `Key >> Key` *)
Definition forwarding (k : key) : mapping := ([ev0 k Down; ev0 k UpAsync], TOut [ev0 k Down]).
(** The physical keys of a list of keys. *)
Definition either_key (k : logical_key) (c : key) : list key :=
  if c =? lk_both k then [lk_left k; lk_right k] else [c].
Definition physical (ks : list logical_key) (l : list key) : list key :=
  fold_left (fun l k => flat_map (either_key k) l) ks l.
(** An output mentions the modifier: it presses it or ensures that it is released. *)
Definition mentions (k : key) (o : sequence) : Prop := In (ev0 k Down) o \/ In (ev0 k Not) o.
(** Everything of a context but its outputs. *)
Definition frame_of (x : cctx) :=
  (attrs_of x, cc_inputs x, length (cc_outputs x), map cm_idx (cc_commands x),
   (cc_sys x, cc_fall x, cc_stage x)).
(** [new] is [old] after `!k` for each of the modifiers [P] which it does not mention. *)
Definition suppressed (P : key -> Prop) (old new : sequence) : Prop :=
  exists ks, new = map (fun k => ev0 k Not) ks ++ old /\ NoDup ks /\
             forall k, In k ks <-> P k /\ ~ mentions k old.
(** A mapping of the block presses the modifier and has this target. *)
Definition presses (x : cctx) (n : Z) (k : key) : Prop :=
  exists i, In i (cc_inputs x) /\ in_out i = n /\ In (ev0 k Down) (in_seq i).
