(** What strokes type on macOS. *)
From Coq Require Import List NArith Bool.
From Verif Require Import Base Key Typer MacTyper.
Import ListNotations.
Local Open Scope N_scope.

Section Carbon.
Variable lay : clayout.
Variable keys : list key.

(** What an application receives when the strokes are typed one after the other, [st]: the dead
    key which is pending; and the dead key which is pending afterwards. *)
Fixpoint receives (st : option N) (l : list (key * N)) : list N * option N :=
  match l with
  | [] => ([], st)
  | x :: r =>
      match lay st x with
      | CNothing => receives st r
      | CDead n => receives (Some n) r
      | CChars c cs => let '(t, st') := receives None r in (c :: cs ++ t, st')
      end
  end.

(** Every key gives one character at most. *)
Definition one_each : Prop := forall st x c r, In x (mac_strokes keys) -> lay st x = CChars c r -> r = [].

(** A character which has a key, and one which has a dead key and a key. *)
Definition has_key_of (c : N) : Prop := exists x r, In x (mac_strokes keys) /\ lay None x = CChars c r.
Definition has_dead_keys_of (c : N) : Prop :=
  exists x n y r, In x (mac_strokes keys) /\ In y (mac_strokes keys) /\
    lay None x = CDead n /\ lay (Some n) y = CChars c r.
End Carbon.
