(** Vocabulary for statements about texts: what follows a position, and the value
    of a run of digits. *)
From Coq Require Import String Ascii List NArith ZArith Bool.
From Verif Require Import Base Text.
Import ListNotations.

(** [q] is what is left of [it] at a later or the same position. *)
Definition suffix (q it : text) : Prop := exists a, it = a ++ q.
(** [q] is what is left of [it] at a later position. *)
Definition later (q it : text) : Prop := exists a, a <> [] /\ it = a ++ q.

(** The value of a run of decimal digits, of any length. *)
Definition number (d : text) : Z := fold_left (fun n c => n * 10 + digit_value c)%Z d 0%Z.

(** The text contains a run of digits whose value does not fit into an int. *)
Definition huge_number (t : text) : Prop :=
  exists a d b, t = a ++ d ++ b /\ Forall (fun c => is_digit c = true) d /\ (int_max < number d)%Z.
