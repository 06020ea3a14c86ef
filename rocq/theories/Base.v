(** Generic list helpers used by the models (standard C++ algorithms). *)
From Coq Require Import List Arith NArith Bool.
Import ListNotations.

(** std::find_if returning a position. *)
Fixpoint find_index {A} (f : A -> bool) (l : list A) : option nat :=
  match l with
  | [] => None
  | x :: r => if f x then Some 0
              else match find_index f r with Some i => Some (S i) | None => None end
  end.

(** std::find_if over reverse iterators, returning a (forward) position. *)
Fixpoint rfind_index {A} (f : A -> bool) (l : list A) : option nat :=
  match l with
  | [] => None
  | x :: r => match rfind_index f r with
              | Some i => Some (S i)
              | None => if f x then Some 0 else None
              end
  end.

(** std::vector::erase(iterator). *)
Fixpoint remove_at {A} (n : nat) (l : list A) : list A :=
  match l, n with
  | [], _ => []
  | _ :: r, O => r
  | x :: r, S n' => x :: remove_at n' r
  end.

(** Assignment through an iterator. *)
Fixpoint update_at {A} (n : nat) (f : A -> A) (l : list A) : list A :=
  match l, n with
  | [], _ => []
  | x :: r, O => f x :: r
  | x :: r, S n' => x :: update_at n' f r
  end.

(** std::vector::pop_back. *)
Definition pop_back {A} (l : list A) : list A := removelast l.

(** std::vector::back / front as options. *)
Definition back {A} (l : list A) : option A := nth_error (rev l) 0.
Definition front {A} (l : list A) : option A := nth_error l 0.
