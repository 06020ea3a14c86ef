(** Model of src/config/string_iteration.h.  An iterator into a text is the list of
    the characters from it to the end; `bool f(It* it, It end)` becomes a function
    returning the new iterator, or None for `false`. *)
From Coq Require Import String Ascii List NArith ZArith Bool.
From Verif Require Import Base.
Import ListNotations.

Definition text := list ascii.
Definition T (s : string) : text := list_ascii_of_string s.

Definition code (c : ascii) : N := N_of_ascii c.
Definition in_codes (lo hi : N) (c : ascii) : bool := (lo <=? code c)%N && (code c <=? hi)%N.
(** std::isspace, std::isalnum, std::isalpha in the "C" locale *)
Definition is_space (c : ascii) : bool := in_codes 9 13 c || (code c =? 32)%N.
Definition is_digit (c : ascii) : bool := in_codes 48 57 c.
Definition is_alpha (c : ascii) : bool := in_codes 65 90 c || in_codes 97 122 c.
Definition is_alnum (c : ascii) : bool := is_alpha c || is_digit c.
Definition is_ident_char (c : ascii) : bool :=
  is_alnum c || (code c =? 95)%N || (code c =? 45)%N.

Definition char (s : string) : ascii := match s with String c _ => c | EmptyString => zero end.

Fixpoint text_eqb (a b : text) : bool :=
  match a, b with
  | [], [] => true
  | x :: a', y :: b' => Ascii.eqb x y && text_eqb a' b'
  | _, _ => false
  end.

(** string_iteration.h:8-19 skip *)
Fixpoint skip (p it : text) : option text :=
  match p, it with
  | [], _ => Some it
  | c :: p', x :: it' => if Ascii.eqb c x then skip p' it' else None
  | _, [] => None
  end.

(** string_iteration.h:27-37 skip_until (None: iterator unchanged) *)
Fixpoint skip_until (p it : text) : option text :=
  match it with
  | [] => None
  | _ :: r => match skip p it with
              | Some q => Some q
              | None => skip_until p r
              end
  end.

Definition quote1 : ascii := Ascii.ascii_of_N 39.
Definition quote2 : ascii := Ascii.ascii_of_N 34.
Definition is_quote (c : ascii) : bool := Ascii.eqb c quote1 || Ascii.eqb c quote2.

(** Outcome of a function that can throw std::runtime_error. *)
Inductive sres (A : Type) : Type := SOk (a : A) | SThrow.
Arguments SOk {A}. Arguments SThrow {A}.

(** string_iteration.h:45-58 skip_until_not_in_string.  SOk None: `false` (the
    iterator is then at the end). *)
Fixpoint skip_until_nis_fuel (fuel : nat) (p it : text) : sres (option text) :=
  match fuel with
  | O => SThrow
  | S f =>
      let after :=
        match it with
        | c :: r => if is_quote c
                    then match skip_until [c] r with
                         | Some q => SOk q
                         | None => SThrow
                         end
                    else SOk it
        | [] => SOk it
        end in
      match after with
      | SThrow => SThrow
      | SOk it1 =>
          match skip p it1 with
          | Some q => SOk (Some q)
          | None => match it1 with
                    | [] => SOk None
                    | _ :: r => skip_until_nis_fuel f p r
                    end
          end
      end
  end.
Definition skip_until_not_in_string (p it : text) : sres (option text) :=
  skip_until_nis_fuel (S (length it)) p it.

Definition is_comment_char (c : ascii) : bool := (code c =? 35)%N || (code c =? 59)%N. (* # ; *)

(** string_iteration.h:66-90 skip_space including skip_comments *)
Fixpoint skip_space (it : text) : text :=
  match it with
  | [] => []
  | c :: r => if is_space c then skip_space r
              else if is_comment_char c then [] else it
  end.

(** string_iteration.h:92-100 trim_comment *)
Fixpoint trim_comment (it : text) : text :=
  match it with
  | [] => []
  | c :: r => if is_comment_char c then [] else c :: trim_comment r
  end.

(** string_iteration.h:102-107 trim_space (from the end) *)
Fixpoint drop_space (it : text) : text :=
  match it with
  | [] => []
  | c :: r => if is_space c then drop_space r else it
  end.
Definition trim_space (it : text) : text := rev (drop_space (rev it)).

(** string_iteration.h:109-118, 142-147 skip_ident / read_ident *)
Fixpoint read_ident (it : text) : text * text :=
  match it with
  | [] => ([], [])
  | c :: r => if is_ident_char c then let '(i, q) := read_ident r in (c :: i, q) else ([], it)
  end.

(** string_iteration.h:120-128 read_string *)
Definition before (it rest : text) : text := firstn (length it - length rest) it.
Definition read_string (it : text) : sres (text * text) :=
  match it with
  | c :: r => if is_quote c then
                match skip_until [c] r with
                | Some q => SOk (removelast (before r q), q)
                | None => SThrow
                end
              else SThrow
  | [] => SThrow
  end.

(** string_iteration.h:130-140 read_value *)
Definition read_value (it : text) : sres (text * text) :=
  match it with
  | c :: r => if is_quote c then
                match skip_until [c] r with
                | Some q => SOk (removelast (before r q), q)
                | None => SThrow
                end
              else SOk (read_ident it)
  | [] => SOk (read_ident it)
  end.

Definition digit_value (c : ascii) : Z := (Z.of_N (code c) - 48)%Z.
Definition int_max : Z := 2147483647%Z.

(** string_iteration.h:149-156 try_read_number; `int number` overflows for large
    inputs, which is undefined behaviour: the flag in the result.  The value is
    computed without wrapping. *)
Fixpoint read_number (it : text) (n : Z) (ub : bool) : Z * bool * text :=
  match it with
  | [] => (n, ub, [])
  | c :: r => if is_digit c
              then let n' := (n * 10 + digit_value c)%Z in
                   read_number r n' (ub || (int_max <? n')%Z)
              else (n, ub, it)
  end.
Definition try_read_number (it : text) : option (Z * bool * text) :=
  match it with
  | c :: _ => if is_digit c then Some (read_number it 0 false) else None
  | [] => None
  end.

(** string_iteration.h:158-184 skip_arglist: `[`...`]` with nesting; SOk None when
    there is none.  Position comparisons are comparisons of the remaining length. *)
Fixpoint arglist_loop (fuel level : nat) (it : text) : sres (option text) :=
  match fuel with
  | O => SThrow
  | S f =>
      match skip_until_not_in_string (T "]") it with
      | SThrow => SThrow
      | SOk None => SOk None
      | SOk (Some close) =>
          let on_close :=
            match level with
            | 1%nat => SOk (Some close)
            | _ => arglist_loop f (Nat.pred level) close
            end in
          match skip_until_not_in_string (T "[") it with
          | SThrow => SThrow
          | SOk (Some open) =>
              if Nat.ltb (length close) (length open)
              then arglist_loop f (S level) open
              else on_close
          | SOk None => on_close
          end
      end
  end.
Definition skip_arglist (it : text) : sres (option text) :=
  match skip (T "[") it with
  | None => SOk None
  | Some q => arglist_loop (S (length q)) 1 q
  end.

(** string_iteration.h:186-191 skip_arglists *)
Fixpoint skip_arglists_fuel (fuel : nat) (it : text) : sres text :=
  match fuel with
  | O => SOk it
  | S f => match skip_arglist it with
           | SThrow => SThrow
           | SOk None => SOk it
           | SOk (Some q) => skip_arglists_fuel f q
           end
  end.
Definition skip_arglists (it : text) : sres text := skip_arglists_fuel (length it) it.

(** string_iteration.h:193-205 skip_string *)
Definition skip_string (it : text) : sres (option text) :=
  match it with
  | c :: r => if is_quote c
              then match skip_until [c] r with Some q => SOk (Some q) | None => SThrow end
              else SOk None
  | [] => SOk None
  end.

(** string_iteration.h:207-225 skip_regular_expression.  [bs] counts the
    backslashes directly before the current position (bounded by the beginning). *)
Fixpoint regex_loop (odd : bool) (it : text) : sres text :=
  match it with
  | [] => SThrow
  | c :: r =>
      if (code c =? 47)%N then           (* / *)
        if odd then regex_loop false r
        else SOk (match skip (T "i") r with Some q => q | None => r end)
      else if (code c =? 92)%N then regex_loop (negb odd) r   (* \ *)
      else regex_loop false r
  end.
Definition skip_regular_expression (it : text) : sres (option text) :=
  match skip (T "/") it with
  | None => SOk None
  | Some r => match regex_loop false r with SOk q => SOk (Some q) | SThrow => SThrow end
  end.

(** string_iteration.h:227-235 skip_terminal_command *)
Definition skip_terminal_command (it : text) : sres (option text) :=
  match skip (T "$(") it with
  | None => SOk None
  | Some q => match skip_until_not_in_string (T ")") q with
              | SThrow => SThrow
              | SOk None => SThrow
              | SOk (Some q') => SOk (Some q')
              end
  end.
