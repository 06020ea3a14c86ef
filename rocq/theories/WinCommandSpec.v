(** What is expected of terminal commands, the focused window and the validation of the
    state on Windows (C108, C109). *)
From Coq Require Import List Arith NArith Bool.
From Verif Require Import Base WinCommand.
Import ListNotations.
Local Open Scope N_scope.

(** ** Commands *)

(** The characters with a meaning for the terminal which the code is after *)
Definition special (c : N) : Prop := c = 38 \/ c = 124 \/ c = 62 \/ c = 37 \/ c = 36.
(** A special character stands in [l] outside of double quotes: after an even number of
    them. *)
Definition unquoted_special (l : wide) : Prop :=
  exists a c b, l = a ++ c :: b /\ special c /\ Nat.even (count_occ N.eq_dec a dquote) = true.
(** Only characters which fit into a byte *)
Definition narrow (l : wide) : Prop := Forall (fun c => 0 < c < 256) l.
Definition quote_first (l : wide) : Prop := exists c r, l = c :: r /\ (c = 34 \/ c = 39).
(** The longest beginning of a command which is a file *)
Definition longest_file (file_exists : wide -> bool) (command name : wide) : Prop :=
  name <> [] /\ file_exists name = true /\ (exists args, command = name ++ args) /\
  forall name' args', command = name' ++ args' -> name' <> [] -> file_exists name' = true -> (length name' <= length name)%nat.

(** ** The focused window *)

(** What is known of a window, of whose title 1023 characters count, and of whose path
    up to as many *)
Definition known_as (f : wfocus) (h : N) (w : wwindow) : Prop :=
  wf_handle f = h /\ wf_title f = firstn 1023 (ww_title w) /\ wf_class f = firstn 1023 (ww_class w) /\
  wf_path f = match ww_path w with Some p => if (length p <=? 1023)%nat then p else [] | None => [] end.
(** Handles which stand for one window only, whose class and path never change *)
Definition steady (l : list (option (N * wwindow))) : Prop :=
  forall h w w', In (Some (h, w)) l -> In (Some (h, w')) l -> ww_class w = ww_class w' /\ ww_path w = ww_path w'.
(** The window which was focused last *)
Fixpoint last_focused (l : list (option (N * wwindow))) : option (N * wwindow) :=
  match l with
  | [] => None
  | x :: r => match last_focused r with Some y => Some y | None => x end
  end.

(** ** Validation *)

(** The ticks of the timer: did the session change since the tick before, is the focused
    window inaccessible *)
Fixpoint ticks (changed : bool) (l : list vstep) : list (bool * bool) :=
  match l with
  | [] => []
  | VSession :: r => ticks true r
  | VTimer i :: r => (changed, i) :: ticks false r
  end.
(** At which ticks validation is asked for: when the session changed, and when the window
    is accessible for the first time.  Whether it is, is looked at when the session did
    not change. *)
Fixpoint asked (last : bool) (l : list (bool * bool)) : list bool :=
  match l with
  | [] => []
  | (true, _) :: r => true :: asked last r
  | (false, i) :: r => (last && negb i) :: asked i r
  end.
