(** What `Any` stands for: a specification of the keys matched by it which does not mention how
    they are found, and of an output in which it is written out. *)
From Coq Require Import List NArith Bool.
From Verif Require Import Base Key.
Import ListNotations.
Local Open Scope N_scope.

(** The keys an input expression asks to be pressed and the keys pressed in a sequence of input
    events; timeouts are no keys. *)
Definition asked (ex : sequence) : sequence :=
  filter (fun e => kstate_eqb (es e) Down && negb (ek e =? k_timeout)) ex.
Definition pressed (sq : sequence) : sequence :=
  filter (fun e => (kstate_eqb (es e) Down || kstate_eqb (es e) DownMatched)
                   && negb (ek e =? k_timeout)) sq.

(** [fits d s ks]: the presses [s] are those asked for by [d], one after the other, and [ks] are
    the keys standing for `Any`, in the order of their presses.  Keys which are still held since
    they were part of an earlier match can be used for a key named in the expression or be
    ignored, but not stand for `Any`. *)
Inductive fits : sequence -> sequence -> list key -> Prop :=
| fits_nil : fits [] [] []
| fits_key k v w st d s ks :
    st = Down \/ st = DownMatched ->
    fits d s ks -> fits (Ev k Down v :: d) (Ev k st w :: s) ks
| fits_any k v w d s ks :
    is_keyboard_key k = true ->
    fits d s ks -> fits (Ev k_any Down v :: d) (Ev k Down w :: s) (k :: ks)
| fits_held k w d s ks : fits d s ks -> fits d (Ev k DownMatched w :: s) ks.

(** An input without groups `( )` and without `?`, as a sequence of events. *)
Definition no_group (ex : sequence) : Prop :=
  Forall (fun e => es e <> DownAsync /\ es e <> DownMatched /\ es e <> NoMightMatch) ex.

(** The output [o] with the keys [ks] written in the place of `Any`. *)
Definition written (ks : list key) (o : sequence) : sequence :=
  flat_map (fun e => if ek e =? k_any then map (fun k => ev0 k (es e)) ks else [e]) o.

(** An output which neither waits for the release of the keys nor contains `!Any`, by which all
    keys of the output are released. *)
Definition at_once (o : sequence) : Prop :=
  Forall (fun e => es e <> OutputOnRelease /\ ~ (ek e = k_any /\ es e = Not)) o.

(** The keys held down by an output; None when it presses a key which is held already or releases
    one which is not. *)
Fixpoint plays (held : list key) (o : sequence) : option (list key) :=
  match o with
  | [] => Some held
  | e :: r =>
      if ek e =? k_timeout then None
      else match es e with
           | Down => if existsb (N.eqb (ek e)) held then None else plays (held ++ [ek e]) r
           | Up => if existsb (N.eqb (ek e)) held
                   then plays (filter (fun k => negb (k =? ek e)) held) r else None
           | _ => None
           end
  end.

(** What is to be seen when the key [k] is pressed and released while `Any` is mapped to [o]: the
    output for the key, then the release of the keys it still holds, the last one first. *)
Definition typing (o : sequence) (k : key) : sequence :=
  written [k] o ++
  match plays [] (written [k] o) with
  | Some held => map (fun k => ev0 k Up) (rev held)
  | None => []
  end.
