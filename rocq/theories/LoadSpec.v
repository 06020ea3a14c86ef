(** Configuration files whose text keeps away from everything that is known to lead
    the parser into undefined behaviour. *)
From Coq Require Import String Ascii List NArith Bool.
From Verif Require Import Base Text MacroSpec.
Import ListNotations.

(** No ten digits in a row *)
Definition short (t : text) : Prop :=
  forall a d b, t = a ++ d ++ b -> Forall (fun c => is_digit c = true) d -> length d <= 9.

(** Neighbours which are not allowed: a name before a bracket (a macro call), a quote
    before a slash (a regular expression in quotes), a dollar sign before a name or a
    brace (a variable in a string or a parameter of a macro). *)
Definition bad_pair (x y : ascii) : bool :=
  (is_ident_char x && Ascii.eqb y "[") ||
  (is_quote x && Ascii.eqb y "/") ||
  (Ascii.eqb x "$" && (is_ident_char y || Ascii.eqb y "{")).
Definition good (t : text) : Prop :=
  short t /\ forall a x y b, t = a ++ x :: y :: b -> bad_pair x y = false.

(** The values of macros: no strings, commands, regular expressions, calls, comments
    or variables, and not empty. *)
Definition simple_char (c : ascii) : bool :=
  negb (is_quote c || Ascii.eqb c "/" || Ascii.eqb c "$" || Ascii.eqb c "[" || is_comment_char c).
Definition simple (t : text) : Prop :=
  short t /\ Forall (fun c => simple_char c = true) t /\ Exists (fun c => is_space c = false) t.

(** A line `name = value` *)
Definition defines (line name value : text) : Prop :=
  exists a b, line = a ++ name ++ b ++ "="%char :: value /\
    Forall (fun c => is_space c = true) a /\ Forall (fun c => is_space c = true) b /\
    Forall (fun c => is_ident_char c = true) name.

Definition careful_line (l : text) : Prop :=
  good l /\ forall name value, defines l name value -> name <> [] /\ simple value.

(** The lines of a file where lines ending in a backslash are continued; [prev] is
    the beginning of the present line. *)
Fixpoint whole_lines (lines : list text) (prev : text) : list text :=
  match lines with
  | [] => []
  | l :: r =>
      match rev (trim_space l) with
      | c :: t => if (code c =? 92)%N then whole_lines r (prev ++ rev t)
                  else (prev ++ l) :: whole_lines r []
      | [] => (prev ++ l) :: whole_lines r []
      end
  end.
Definition careful (lines : list text) : Prop := Forall careful_line (whole_lines lines []).
