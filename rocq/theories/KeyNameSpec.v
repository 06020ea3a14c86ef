(** What the names of keys mean (README.md, Key names), for C107. *)
From Coq Require Import String Ascii List NArith Bool.
From Verif Require Import Base Key KeyNames Text.
Import ListNotations.
Local Open Scope N_scope.

(** Digits, and the number they are in a base *)
Definition digit_of (base : N) (c : ascii) (d : N) : Prop :=
  d < base /\
  (d < 10 /\ N_of_ascii c = 48 + d \/ 10 <= d < 16 /\ (N_of_ascii c = 87 + d \/ N_of_ascii c = 55 + d)).
Definition value (base : N) (l : list N) : N := fold_left (fun n d => n * base + d) l 0.
Definition number_in (base : N) (t : text) (v : N) : Prop :=
  exists l, Forall2 (digit_of base) t l /\ value base l = v.

Definition is_code (v : N) : Prop := 0 < v < 0xF000.
(** The names next to those of the table: the logical keys, and other names for the Meta
    keys *)
Definition other_names : list (string * key) :=
  [("Shift", first_logical); ("Control", first_logical + 1); ("Alt", first_logical + 2); ("Meta", first_logical + 3);
   ("OSLeft", MetaLeft); ("OSRight", MetaRight)]%string.

Inductive names : text -> key -> Prop :=
| n_any : names (T "Any") k_any
| n_table : forall n k, In (n, k) key_names -> names (T n) k
| n_other : forall n k, In (n, k) other_names -> names (T n) k
(** letters and digits *)
| n_letter : forall c k, 65 <= N_of_ascii c <= 90 -> In (String c "", k) key_names -> names (T "Key" ++ [c]) k
| n_digit : forall c k, 48 <= N_of_ascii c <= 57 -> In (String c "", k) key_names -> names (T "Digit" ++ [c]) k
(** scan codes: hexadecimal, decimal with two digits at least, octal *)
| n_hex : forall x t v, x = "x"%char \/ x = "X"%char -> t <> [] -> number_in 16 t v -> is_code v -> names ("0"%char :: x :: t) v
| n_decimal : forall c d t v, c <> "0"%char -> number_in 10 (c :: d :: t) v -> is_code v -> names (c :: d :: t) v
| n_octal : forall t v, t <> [] -> number_in 8 t v -> is_code v -> names ("0"%char :: t) v
(** virtual keys *)
| n_virtual : forall t v, t <> [] -> number_in 10 t v -> v <= 255 -> names (T "Virtual" ++ t) (first_virtual + v).
