(** What the macros in a line expand to, independently of how the code looks for them
    (README.md: Macros, aliases). *)
From Coq Require Import String Ascii List NArith ZArith Bool.
From Verif Require Import Base Text TextSpec ParseSeq MacroSpec ExprSpec.
Import ListNotations.
Local Open Scope char_scope.
Local Open Scope nat_scope.

Definition word (i : text) : Prop := i <> [] /\ Forall (fun c => is_ident_char c = true) i.

(** A text which does not contain [p] outside of strings; no string directly follows
    another one. *)
Inductive outside (p : ascii -> Prop) : text -> Prop :=
| outside_nil : outside p []
| outside_char : forall c r, ~ quotes c -> ~ p c -> outside p r -> outside p (c :: r)
| outside_string : forall q s r, quotes q -> ~ In q s -> no_quote_first r -> outside p r ->
    outside p (q :: s ++ q :: r).
(** All strings are closed. *)
Definition closed : text -> Prop := outside (fun _ => False).

(** The text between the slashes of a regular expression *)
Inductive pattern : text -> Prop :=
| pattern_nil : pattern []
| pattern_char : forall c r, c <> "/" -> c <> "\" -> pattern r -> pattern (c :: r)
| pattern_escape : forall c r, pattern r -> pattern ("\" :: c :: r).

(** * Builtin macros (README.md) *)

(** The decimal notation of a number, and texts which stand for one *)
Definition numeral (z : Z) (t : text) : Prop :=
  exists d, digit_text d /\ match d with c :: _ :: _ => c <> "0" | _ => True end /\
    ((0 <= z)%Z /\ t = d /\ number d = z \/ (z < 0)%Z /\ t = "-" :: d /\ number d = (- z)%Z).
Definition fits (z : Z) : Prop := (- int_max - 1 <= z <= int_max)%Z.
Definition integer (t : text) (z : Z) : Prop :=
  fits z /\ exists d, digit_text d /\ (t = d /\ number d = z \/ t = "-" :: d /\ number d = (- z)%Z).

Inductive operation : text -> Z -> Z -> Z -> Prop :=
| op_add : forall a b, operation (T "add") a b (a + b)
| op_sub : forall a b, operation (T "sub") a b (a - b)
| op_mul : forall a b, operation (T "mul") a b (a * b)
| op_div : forall a b, b <> 0%Z -> operation (T "div") a b (Z.quot a b)
| op_mod : forall a b, b <> 0%Z -> fits (Z.quot a b) -> operation (T "mod") a b (Z.rem a b)
| op_min : forall a b, operation (T "min") a b (Z.min a b)
| op_max : forall a b, operation (T "max") a b (Z.max a b).

(** The number of parameters of a text: one more than the highest *)
Fixpoint parameters (ps : list part) : nat :=
  match ps with
  | [] => 0
  | PArg d :: r => Nat.max (S (Z.to_nat (number d))) (parameters r)
  | _ :: r => parameters r
  end.
(** The text with each [n] of the arguments one after the other; mappings are put on
    lines of their own. *)
Inductive applied (ps : list part) (lines : bool) (n : nat) : bool -> list text -> text -> Prop :=
| applied_end : forall first args, length args < n -> applied ps lines n first args []
| applied_more : forall (first : bool) l args rs t, length l = n -> Forall2 (instance l) ps rs ->
    applied ps lines n false args t ->
    applied ps lines n first (l ++ args)
      ((if lines && negb first then [ascii_of_N 10] else []) ++ concat rs ++ t).

Inductive builtin : text -> list text -> text -> Prop :=
| b_length : forall q s t, quotes q -> (N.of_nat (length s) < 10 ^ 40)%N -> numeral (Z.of_nat (length s)) t ->
    builtin (T "length") [q :: s ++ [q]] t
| b_operation : forall i x y a b z t, integer x a -> integer y b -> operation i a b z -> fits z -> numeral z t ->
    builtin i [x; y] t
| b_repeat : forall x y k, integer y k -> builtin (T "repeat") [x; y] (concat (repeat (x ++ [" "]) (Z.to_nat k)))
| b_default : forall x y, builtin (T "default") [x; y] (match x with [] => y | _ => x end)
| b_apply : forall x x' ps (lines : bool) args t, unquoted x x' -> x' = body_text ps -> parts_ok ps ->
    Forall (fun p => match p with PArg d => (number d < int_max)%Z | PCount => False | _ => True end) ps ->
    (lines = true <-> exists a b, x = a ++ ">" :: ">" :: b) ->
    0 < parameters ps <= length args -> (N.of_nat (length args) < 10 ^ 40)%N ->
    applied ps lines (parameters ps) true args t -> builtin (T "apply") (x :: args) t.

(** * Expansion *)

(** No `$n` *)
Definition no_parameter (t : text) : Prop :=
  forall a r, t = a ++ "$" :: r -> match r with c :: _ => is_digit c = false /\ c <> "-" | [] => True end.

Section Expansion.
(** The macros *)
Variable macro : text -> option text.

(** No `$name` or `${name}` stands for a macro. *)
Definition no_variable (s : text) : Prop :=
  forall a i r, (s = a ++ "$" :: i ++ r \/ s = a ++ "$" :: "{" :: i ++ r) ->
    Forall (fun c => is_ident_char c = true) i -> apart r -> macro i = None.

(** The text of a macro with the arguments in place of the parameters *)
Inductive body : text -> list text -> text -> Prop :=
| body_macro : forall i vals ps rs, macro i = Some (body_text ps) -> parts_ok ps ->
    (N.of_nat (length vals) < 10 ^ 40)%N -> Forall2 (instance vals) ps rs ->
    body i vals (concat rs)
| body_builtin : forall i vals b, macro i = None -> builtin i vals b -> body i vals b.

(** A text and what it expands to; [n] limits the nesting.  A definition keeps ([keep])
    the calls of macros in it. *)
Inductive expands : nat -> text -> text -> Prop :=
| x_name : forall n i, word i -> macro i = None -> expands (S n) i i
| x_macro : forall n i v t, word i -> macro i = Some v -> expands n v t -> expands (S n) i t
| x_text : forall n s x t, spaces s -> match x with c :: _ => is_space c = false | [] => True end ->
    ~ word (s ++ x) -> parts false n x t -> expands (S n) (s ++ x) t
with parts : bool -> nat -> text -> text -> Prop :=
| p_end : forall k n, parts k n [] []
| p_comment : forall k n c r, is_comment_char c = true -> parts k n (c :: r) []
| p_word : forall k n i r t u, word i -> apart r -> match r with c :: _ => c <> "[" | [] => True end ->
    expands n i t -> parts k n r u -> parts k n (i ++ r) (t ++ u)
| p_call : forall n i args r u, word i -> args <> [] -> Forall (argument true) args -> closed r ->
    parts true n r u -> parts true n (i ++ arglist args ++ r) (i ++ arglist args ++ u)
(** a call: the text of the macro with the expanded arguments, expanded in turn *)
| p_apply : forall n i args vals b r t u, word i -> args <> [] -> Forall (argument true) args -> closed r ->
    match r with c :: _ => c <> "[" | [] => True end -> expand_all n args vals -> body i vals b ->
    closed b -> no_parameter b -> expands n b t -> parts false n r u ->
    parts false n (i ++ arglist args ++ r) (t ++ u)
| p_string : forall k n q s x r u, quotes q -> ~ In q s -> filled n (q :: s ++ [q]) x ->
    parts k n r u -> parts k n (q :: s ++ q :: r) (x ++ u)
| p_command : forall k n c x r u, outside (fun c => c = ")") c -> filled n ("$" :: "(" :: c ++ [")"]) x ->
    parts k n r u -> parts k n ("$" :: "(" :: c ++ ")" :: r) (x ++ u)
| p_regex : forall k n x (i : text) y r u, pattern x ->
    (i = ["i"] \/ i = [] /\ match r with c :: _ => c <> "i" | [] => True end) ->
    filled n ("/" :: x ++ "/" :: i) y ->
    parts k n r u -> parts k n ("/" :: x ++ "/" :: i ++ r) (y ++ u)
| p_char : forall k n c r u, is_ident_char c = false -> ~ quotes c -> c <> "/" -> is_comment_char c = false ->
    (c = "$" -> match r with d :: _ => d <> "(" | [] => True end) ->
    parts k n r u -> parts k n (c :: r) (c :: u)
with expand_all : nat -> list text -> list text -> Prop :=
| all_none : forall n, expand_all n [] []
| all_more : forall n a b v args vals, trimmed a b -> expands n b v -> expand_all n args vals ->
    expand_all n (a :: args) (v :: vals)
(** In strings, commands and regular expressions `$name` and `${name}` stand for the value of a
    macro, without quotes around it. *)
with filled : nat -> text -> text -> Prop :=
| f_keep : forall n s, no_variable s -> filled n s s
| f_value : forall n a i r v w u, ~ In "$" a -> Forall (fun c => is_ident_char c = true) i -> apart r ->
    (i = [] -> match r with c :: _ => c <> "{" | [] => True end) ->
    macro i <> None -> expands n i v -> unquoted v w -> filled n r u ->
    filled n (a ++ "$" :: i ++ r) (a ++ w ++ u)
| f_braces : forall n a i r v w u, ~ In "$" a -> Forall (fun c => is_ident_char c = true) i ->
    macro i <> None -> expands n i v -> unquoted v w -> filled n r u ->
    filled n (a ++ "$" :: "{" :: i ++ "}" :: r) (a ++ w ++ u)
| f_other : forall n a i r u, ~ In "$" a -> Forall (fun c => is_ident_char c = true) i -> apart r ->
    macro i = None -> (i = [] -> match r with c :: _ => c <> "{" | [] => True end) -> filled n r u ->
    filled n (a ++ "$" :: i ++ r) (a ++ "$" :: i ++ u).

Scheme expands_ind2 := Minimality for expands Sort Prop
  with parts_ind2 := Minimality for parts Sort Prop
  with all_ind2 := Minimality for expand_all Sort Prop
  with filled_ind2 := Minimality for filled Sort Prop.
Combined Scheme expansion_ind from expands_ind2, parts_ind2, all_ind2, filled_ind2.
End Expansion.
