(** What a macro call is made of, independently of how the code looks for it. *)
From Coq Require Import String Ascii List Arith NArith ZArith Bool.
From Verif Require Import Base Text TextSpec.
Import ListNotations.
Local Open Scope char_scope.

Definition quotes (c : ascii) : Prop := is_quote c = true.
Definition no_quote_first (t : text) : Prop :=
  match t with c :: _ => ~ quotes c | [] => True end.

(** A text whose strings are closed and whose brackets are nested correctly; with
    [commas] it may contain commas outside of strings and nested lists.  With [apart]
    no string directly follows another one. *)
Inductive piece (apart : bool) : bool -> text -> Prop :=
| piece_nil : forall b, piece apart b []
| piece_char : forall b c r, ~ quotes c -> c <> "[" -> c <> "]" -> (b = false -> c <> ",") ->
    piece apart b r -> piece apart b (c :: r)
| piece_string : forall b q s r, quotes q -> ~ In q s -> (apart = true -> no_quote_first r) ->
    piece apart b r -> piece apart b (q :: s ++ q :: r)
| piece_list : forall b l r, piece apart true l -> piece apart b r ->
    piece apart b ("[" :: l ++ "]" :: r).
(** One argument of a call *)
Definition argument (apart : bool) (a : text) : Prop := piece apart false a.

(** Arguments written one after the other. *)
Fixpoint commas (l : list text) : text :=
  match l with
  | [] => []
  | [a] => a
  | a :: r => a ++ "," :: commas r
  end.
Definition arglist (l : list text) : text := "[" :: commas l ++ ["]"].

(** [b] is [a] without white space around it. *)
Definition trimmed (a b : text) : Prop :=
  exists x y, a = x ++ b ++ y /\ Forall (fun c => is_space c = true) (x ++ y) /\
    match b with [] => True | c :: _ => is_space c = false /\ is_space (last b c) = false end.

(** The body of a macro: literal text, a parameter `$n`, the number of arguments `$$`,
    or another dollar. *)
Inductive part : Type := PLit (t : text) | PArg (d : text) | PCount | PDollar.
Definition part_text (p : part) : text :=
  match p with PLit t => t | PArg d => "$" :: d | PCount => ["$"; "$"] | PDollar => ["$"] end.
Definition body_text (l : list part) : text := flat_map part_text l.

(** The parts can be told apart in the text, and the numbers fit into an int. *)
Fixpoint parts_ok (l : list part) : Prop :=
  match l with
  | [] => True
  | p :: r =>
      match p with
      | PLit t => ~ In "$" t
      | PArg d => d <> [] /\ Forall (fun c => is_digit c = true) d /\ (number d <= int_max)%Z /\
                  match body_text r with c :: _ => is_digit c = false | [] => True end
      | PCount => True
      | PDollar => match body_text r with c :: _ => is_digit c = false /\ c <> "$" | [] => True end
      end /\ parts_ok r
  end.

(** [b] is [a] without quotes around it. *)
Inductive unquoted : text -> text -> Prop :=
| unquoted_string : forall q s, quotes q -> unquoted (q :: s ++ [q]) s
| unquoted_other : forall a, (forall q s, quotes q -> a <> q :: s ++ [q]) -> unquoted a a.

(** The decimal notation of a number *)
Definition decimal (n : nat) (t : text) : Prop :=
  t <> [] /\ Forall (fun c => is_digit c = true) t /\ number t = Z.of_nat n /\
  match t with c :: _ :: _ => c <> "0" | _ => True end.

(** What a part of the body becomes. *)
Definition instance (args : list text) (p : part) (t : text) : Prop :=
  match p with
  | PLit s => t = s
  | PArg d => match nth_error args (Z.to_nat (number d)) with
              | Some a => unquoted a t
              | None => t = []
              end
  | PCount => decimal (length args) t
  | PDollar => t = ["$"]
  end.

(** The words of a text: identifiers, in a text without anything else than words and
    characters which mean nothing to macros. *)
Definition neutral_char (c : ascii) : Prop :=
  is_ident_char c = false /\ ~ quotes c /\ c <> "/" /\ c <> "$" /\ c <> "[" /\
  is_comment_char c = false.
Inductive words : text -> list text -> Prop :=
| words_nil : words [] []
| words_char : forall c r l, neutral_char c -> words r l -> words (c :: r) l
| words_ident : forall i r l, i <> [] -> Forall (fun c => is_ident_char c = true) i ->
    match r with c :: _ => is_ident_char c = false | [] => True end ->
    words r l -> words (i ++ r) (i :: l).
