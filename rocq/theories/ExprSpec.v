(** What key expressions mean: their parts, how they are written and the events they stand
    for (README.md: Input expressions, Output expressions, Timeouts). *)
From Coq Require Import String Ascii List NArith ZArith Bool.
From Verif Require Import Base Key Text TextSpec.
Import ListNotations.
Local Open Scope N_scope.

(** An expression: a first part and the rest. *)
Inductive expr : Type :=
| EEnd
| EKeys (group : bool) (ks : list key) (r : expr)            (* A  or  (A B) *)
| EHold (group : bool) (ks : list key) (body r : expr)       (* A{..}  or  (A B){..} *)
| ENot (k : key) (r : expr)                                  (* !A *)
| EWait (neg : bool) (ms : N) (r : expr)                     (* 100ms  or  !100ms *)
| EString (s : text) (r : expr)                              (* "abc" *)
| ECommand (c : text) (r : expr)                             (* $(command) *)
| ERelease (r : expr).                                       (* ^ *)

(** * How they are written *)

Definition spaces (s : text) : Prop := Forall (fun c => is_space c = true) s.
Definition digit_text (d : text) : Prop := d <> [] /\ Forall (fun c => is_digit c = true) d.
Definition apart (t : text) : Prop :=
  match t with c :: _ => is_ident_char c = false | [] => True end.

(** Text in parentheses *)
Inductive balanced : text -> Prop :=
| balanced_nil : balanced []
| balanced_char : forall c r, c <> "("%char -> c <> ")"%char -> balanced r -> balanced (c :: r)
| balanced_parens : forall a r, balanced a -> balanced r ->
    balanced ("("%char :: a ++ ")"%char :: r).

Section Written.
Variable get_key : text -> key.

(** A name of a key; not one which begins like a duration. *)
Definition name_of (n : text) (k : key) : Prop :=
  n <> [] /\ Forall (fun c => is_ident_char c = true) n /\ get_key n = k /\ k <> k_none /\
  forall d m, n = d ++ m -> digit_text d ->
    match m with c :: _ => is_digit c = false | [] => True end ->
    (number d <= int_max)%Z /\ forall x, m <> "m"%char :: "s"%char :: x.

Inductive name_list : list key -> text -> Prop :=
| names_nil : forall s, spaces s -> name_list [] s
| names_cons : forall s n k ks t, spaces s -> name_of n k -> name_list ks t -> apart t ->
    name_list (k :: ks) (s ++ n ++ t).
Inductive keys_text : bool -> list key -> text -> Prop :=
| keys_one : forall n k, name_of n k -> keys_text false [k] n
| keys_group : forall ks t, ks <> [] -> name_list ks t ->
    keys_text true ks ("("%char :: t ++ [")"%char]).

Inductive written : expr -> text -> Prop :=
| w_end : forall s, spaces s -> written EEnd s
| w_keys : forall s g ks x e t, spaces s -> keys_text g ks x -> (g = false -> apart t) ->
    written e t -> written (EKeys g ks e) (s ++ x ++ t)
| w_hold : forall s g ks x s' b tb e t, spaces s -> keys_text g ks x -> spaces s' ->
    written b tb -> written e t ->
    written (EHold g ks b e) (s ++ x ++ s' ++ "{"%char :: tb ++ "}"%char :: t)
| w_not : forall s n k e t, spaces s -> name_of n k -> apart t -> written e t ->
    written (ENot k e) (s ++ "!"%char :: n ++ t)
| w_wait : forall s (neg : bool) d ms e t, spaces s -> digit_text d -> number d = Z.of_N ms ->
    (Z.of_N ms <= int_max)%Z -> written e t ->
    written (EWait neg ms e) (s ++ (if neg then ["!"%char] else []) ++ d ++ "m"%char :: "s"%char :: t)
| w_string : forall s q x e t, spaces s -> is_quote q = true -> ~ In q x -> written e t ->
    written (EString x e) (s ++ q :: x ++ q :: t)
| w_command : forall s c e t, spaces s -> balanced c -> written e t ->
    written (ECommand c e) (s ++ "$"%char :: "("%char :: c ++ ")"%char :: t)
| w_release : forall s e t, spaces s -> written e t ->
    written (ERelease e) (s ++ "^"%char :: t).
End Written.

(** * What they stand for *)

Definition all (ks : list key) (s : kstate) : sequence := map (fun k => Ev k s 0) ks.

Section Meaning.
(** Is it an input expression? *)
Variable inp : bool.
(** The events of a typed text (within a group or not) and the keys of commands *)
Variable typed : bool -> text -> sequence.
Variable command : nat -> key.

(** In inputs a key may be released at any later time. *)
Definition released : kstate := if inp then UpAsync else Up.

(** The keys of a group may be pressed in any order. *)
Definition pressing (group : bool) (ks : list key) : sequence :=
  (if inp && group then all ks DownAsync else []) ++ all ks Down.

(** Within a group a time span ends when a key is released. *)
Definition wait_state (neg held : bool) : kstate :=
  if inp then
    if neg then (if held then NotTimeoutUpDown else Not) else (if held then Up else Down)
  else Down.
(** Spans following each other add up; they are limited to 4095 milliseconds. *)
Definition wait (s : kstate) (ms : N) (l : sequence) : sequence :=
  match rev l with
  | Ev k s' v :: r =>
      if (k =? k_timeout) && kstate_eqb s' s
      then rev r ++ [Ev k_timeout s (N.min 4095 (v + ms))]
      else l ++ [Ev k_timeout s (N.min 4095 ms)]
  | [] => [Ev k_timeout s (N.min 4095 ms)]
  end.

(** The last thing said about a key is that it is pressed (and may be released). *)
Definition last_state (k : key) (l : sequence) : option kstate :=
  fold_left (fun o e => if ek e =? k then Some (es e) else o) l None.
Definition pressed (k : key) (l : sequence) : bool :=
  match last_state k l with None | Some Up | Some Not => false | Some _ => true end.

(** In inputs `!A` after A means that it has to be released now, otherwise that it must
    not be pressed.  In outputs it releases the key. *)
Definition not_key (k : key) (l : sequence) : sequence :=
  if inp then
    if event_eqb (last l (Ev k_none Up 0)) (Ev k UpAsync 0) then removelast l ++ [Ev k Up 0]
    else if pressed k l then l ++ [Ev k Up 0]
    else l ++ [Ev k Not 0]
  else l ++ [Ev k Not 0].

(** The longest end of a list all of whose elements fulfil [f]. *)
Fixpoint ending (f : event -> bool) (l : sequence) : sequence :=
  match l with
  | [] => []
  | e :: r => if forallb f l then l else ending f r
  end.
Definition without_ending (f : event -> bool) (l : sequence) : sequence :=
  firstn (length l - length (ending f l)) l.
Definition is_state (s : kstate) (e : event) : bool := kstate_eqb (es e) s.

(** `A{!100ms}` means that A is released within the time. *)
Definition in_time (l : sequence) : sequence :=
  if inp then
    match rev (without_ending (is_state UpAsync) l) with
    | Ev k s _ :: _ => if (k =? k_timeout) && is_not_timeout s
                       then l ++ map (fun e => Ev (ek e) Up 0) (ending (is_state UpAsync) l)
                       else l
    | [] => l
    end
  else l.

(** The events of an expression appended to the ones before it; [n] is the number of
    commands before. *)
Fixpoint meaning (held : bool) (n : nat) (e : expr) (l : sequence) : sequence :=
  match e with
  | EEnd => l
  | EKeys g ks r => meaning held n r (l ++ pressing g ks ++ all ks released)
  | EHold g ks b r =>
      meaning held n r (in_time (meaning true n b (l ++ pressing g ks) ++ all (rev ks) released))
  | ENot k r => meaning held n r (not_key k l)
  | EWait neg ms r => meaning held n r (wait (wait_state neg held) ms l)
  | EString s r => meaning held n r (l ++ typed held s)
  | ECommand c r => meaning held (S n) r (l ++ [Ev (command n) Down 0])
  | ERelease r => meaning held n r (l ++ [Ev k_none OutputOnRelease 0])
  end.

(** An expression made as documented.  [mods]: the keys held around it; [prev]: the keys in
    front of it; [rel]: whether it follows `^`; [skipping]: whether the input begins with `?`. *)
Variable skipping : bool.
Definition presses (l : sequence) : Prop :=
  exists e, In e l /\ es e = Down /\ ek e <> k_timeout.
Fixpoint fine (mods prev : list key) (rel : bool) (n : nat) (e : expr) (l : sequence) : Prop :=
  let held := match mods with [] => false | _ => true end in
  match e with
  | EEnd => True
  | EKeys g ks r =>
      (inp = false -> Forall (fun k => ~ In k mods) ks) /\
      fine mods ks rel n r (l ++ pressing g ks ++ all ks released)
  | EHold g ks b r =>
      fine (mods ++ ks) [] rel n b (l ++ pressing g ks) /\
      fine mods [] rel n r
        (in_time (meaning true n b (l ++ pressing g ks) ++ all (rev ks) released))
  | ENot k r =>
      ~ In k mods /\
      (if inp then (held = true -> In k prev) /\ last_state k l <> Some Not else prev = []) /\
      fine mods [] rel n r (not_key k l)
  | EWait neg ms r =>
      (if inp then presses l /\ (skipping = true -> neg = true) else neg = false) /\
      fine mods [] rel n r (wait (wait_state neg held) ms l)
  | EString s r => fine mods [] rel n r (l ++ typed held s)
  | ECommand c r =>
      inp = false /\ mods = [] /\ fine mods [] rel (S n) r (l ++ [Ev (command n) Down 0])
  | ERelease r =>
      inp = false /\ mods = [] /\ rel = false /\
      fine mods [] true n r (l ++ [Ev k_none OutputOnRelease 0])
  end.
End Meaning.

(** The commands of an output, in order *)
Fixpoint commands_of (e : expr) : list text :=
  match e with
  | EEnd => []
  | ECommand c r => c :: commands_of r
  | EKeys _ _ r | ENot _ r | EWait _ _ r | EString _ r | ERelease r | EHold _ _ _ r => commands_of r
  end.
(** Does the output hold modifiers?  [m] tells it of a typed text. *)
Fixpoint holds (m : text -> bool) (e : expr) : bool :=
  match e with
  | EEnd => false
  | EHold _ _ _ _ => true
  | EString s r => m s || holds m r
  | EKeys _ _ r | ENot _ r | EWait _ _ r | ERelease r | ECommand _ r => holds m r
  end.

(** An output without modifiers which presses all of its keys at once keeps them pressed as
    long as the input is held: the releases at its end are left out. *)
Definition at_once (l : sequence) : Prop :=
  exists a b, l = a ++ b /\ Forall (fun e => es e <> Up) a /\ Forall (fun e => es e <> Down) b.
Definition held_output (modified : bool) (l l' : sequence) : Prop :=
  (modified = false -> at_once l -> l' = without_ending (is_state Up) l) /\
  (modified = true \/ ~ at_once l -> l' = l).
