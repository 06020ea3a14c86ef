(** Specification of key substitution (C11, C12). *)
From Coq Require Import List Arith NArith ZArith Bool Sorted.
From Verif Require Import Base Key Stage StageSpec.
Import ListNotations.
Local Open Scope N_scope.

(** The key a key is replaced by: the first entry of the table decides, keys which
    are not listed stay as they are. *)
Fixpoint substitute (t : list (key * key)) (k : key) : key :=
  match t with
  | [] => k
  | (a, b) :: r => if a =? k then b else substitute r k
  end.

(** A context which applies whatever is pressed and contains just the mappings
    `a >> b` of the table. *)
Definition maps_key (c : context) (ab : key * key) (i : input) : Prop :=
  in_seq i = [ev0 (fst ab) Down; ev0 (fst ab) UpAsync] /\ (0 <= in_out i)%Z /\
  nth_error (cx_outputs c) (Z.to_nat (in_out i)) = Some [ev0 (snd ab) Down].
Definition table_context (c : context) (t : list (key * key)) : Prop :=
  Forall2 (maps_key c) t (cx_inputs c) /\
  cx_devf c = None /\ cx_devidf c = None /\ cx_bits c = all_device_bits /\
  cx_mods c = [] /\ cx_inv c = false /\ cx_fall c = false.

(** The contexts [il] of the configuration with the tables [ts]. *)
Definition tables (cs : list context) (il : list nat) (ts : list (list (key * key))) : Prop :=
  StronglySorted lt il /\
  Forall2 (fun i t => exists c, nth_error cs i = Some c /\ table_context c t) il ts.

(** A press or release of a key of some device; presses of keys which are already down
    are repeats of the device pressed last (or are injected).  [down] are the keys
    which are down, [last] is the device of the last press of a key which was up. *)
Fixpoint typed_on (down : list key) (last : Z) (l : list (event * Z)) : Prop :=
  match l with
  | [] => True
  | (e, dev) :: r =>
      is_device_key (ek e) = true /\ (-1 <= dev < 64)%Z /\
      match es e with
      | Down => if existsb (N.eqb (ek e)) down
                then (dev = last \/ dev = no_device) /\ typed_on down last r
                else typed_on (ek e :: down) (if (dev =? no_device)%Z then last else dev) r
      | Up => typed_on (List.filter (fun k => negb (k =? ek e)) down) last r
      | _ => False
      end
  end.

(** Without the releases of keys which are not down. *)
Fixpoint effective (down : list key) (l : sequence) : sequence :=
  match l with
  | [] => []
  | e :: r =>
      match es e with
      | Down => e :: effective (ek e :: down) r
      | _ => if existsb (N.eqb (ek e)) down
             then e :: effective (List.filter (fun k => negb (k =? ek e)) down) r
             else effective down r
      end
  end.

(** What is pressed or released, without values. *)
Definition action (e : event) : key * kstate := (ek e, es e).
Definition substituted (t : list (key * key)) (e : event) : key * kstate := (substitute t (ek e), es e).

(** No two of the keys are replaced by the same key. *)
Definition unambiguous (t : list (key * key)) (ks : list key) : Prop :=
  forall a b, In a ks -> In b ks -> substitute t a = substitute t b -> a = b.
