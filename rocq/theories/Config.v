(** Model of src/config/ParseConfig.cpp: from the text of a configuration to the
    configuration sent to the server. *)
From Coq Require Import String Ascii List NArith ZArith Bool.
From Verif Require Import Base Key KeyNames Text Match ParseSeq Stage.
Import ListNotations.
Open Scope N_scope.

Definition pbind {A B} (m : pres A) (f : A -> pres B) : pres B :=
  match m with POk a => f a | PErr => PErr | PUB => PUB | PFuel => PFuel end.
Notation "'do' x <- e ;; f" := (pbind e (fun x => f)) (at level 200, x pattern, e at level 100).
Definition of_sres {A} (r : sres A) : pres A :=
  match r with SOk a => POk a | SThrow => PErr end.
Definition guard (b : bool) : pres unit := if b then POk tt else PErr.

(** * Text helpers (ParseConfig.cpp:27-190) *)

Definition is_lower (c : ascii) : bool := in_codes 97 122 c.
(** ParseConfig.cpp:40-42 *)
Definition to_lower (c : ascii) : ascii :=
  if in_codes 65 90 c then ascii_of_N (code c + 32) else c.
(** ParseConfig.cpp:48-52 *)
Definition starts_with_lower_case (t : text) : bool :=
  match t with c :: _ => is_alpha c && Ascii.eqb (to_lower c) c | [] => false end.
(** ParseConfig.cpp:54-57 *)
Definition equal_case_insensitive (a b : text) : bool :=
  text_eqb (map to_lower a) (map to_lower b).
(** ParseConfig.cpp:59-64 *)
Definition contains_key (l : sequence) (k : key) : bool := existsb (fun e => ek e =? k) l.
(** ParseConfig.cpp:66-69 *)
Definition contains_event (l : sequence) (e : event) : bool := existsb (event_eqb e) l.
(** ParseConfig.cpp:71-77 *)
Definition replace_key (both k : key) (l : sequence) : sequence :=
  map (fun e => if ek e =? both then Ev k (es e) (ev e) else e) l.
(** ParseConfig.cpp:79-87 *)
Definition replace_not_key (both left right : key) (l : sequence) : sequence :=
  flat_map (fun e => if kstate_eqb (es e) Not && (ek e =? both)
                     then [ev0 left Not; Ev right (es e) (ev e)] else [e]) l.
(** ParseConfig.cpp:89-95 *)
Definition trim (t : text) : text := trim_space (drop_space t).
(** ParseConfig.cpp:97-103 *)
Definition unquote (t : text) : text :=
  match t with
  | c :: r => match rev r with
              | d :: m => if Ascii.eqb c d && is_quote c then rev m else t
              | [] => t
              end
  | [] => t
  end.

(** ParseConfig.cpp:105-128 get_argument_list: [begin] and [it] are positions in the
    list after the opening bracket. *)
Fixpoint argument_loop (fuel : nat) (begin it : text) : pres (list text) :=
  match fuel with
  | O => PFuel
  | S f =>
      match begin with
      | [] => POk []
      | _ =>
          do comma <- of_sres (skip_until_not_in_string (T ",") it) ;;
          let it' := match comma with Some q => q | None => [] end in
          if Nat.ltb (length it') (length begin) then
            do open <- of_sres (skip_until_not_in_string (T "[") it) ;;
            match open with
            | Some q =>
                if Nat.ltb (length it') (length q) then
                  let at_open := "["%char :: q in
                  do after <- of_sres (skip_arglist at_open) ;;
                  argument_loop f begin (match after with Some r => r | None => at_open end)
                else
                  do rest <- argument_loop f it' it' ;;
                  POk (trim (removelast (before begin it')) :: rest)
            | None =>
                do rest <- argument_loop f it' it' ;;
                POk (trim (removelast (before begin it')) :: rest)
            end
          else argument_loop f it' it'
      end
  end.
Definition get_argument_list (arglist : text) : pres (list text) :=
  match arglist with
  | [] => POk []
  | _ :: r => argument_loop (S (length arglist)) r r
  end.

(** std::to_string *)
Fixpoint digits (fuel : nat) (n : N) (acc : text) : text :=
  match fuel with
  | O => acc
  | S f => let acc' := ascii_of_N (48 + n mod 10) :: acc in
           if n / 10 =? 0 then acc' else digits f (n / 10) acc'
  end.
Definition to_string_N (n : N) : text := digits 40 n [].
Definition to_string_Z (z : Z) : text :=
  if (z <? 0)%Z then "-"%char :: to_string_N (Z.to_N (- z)) else to_string_N (Z.to_N z).

(** ParseConfig.cpp:130-158 substitute_arguments *)
Fixpoint substitute_loop (fuel : nat) (args : list text) (it : text) : pres text :=
  match fuel with
  | O => PFuel
  | S f =>
      match it with
      | [] => POk []
      | _ =>
          match skip_until (T "$") it with
          | None => POk it
          | Some r =>
              let pre := removelast (before it r) in
              match try_read_number r with
              | Some (n, ub, q) =>
                  if ub then PUB
                  else
                    do rest <- substitute_loop f args q ;;
                    POk (pre ++ (if (n <? Z.of_nat (length args))%Z
                                 then unquote (nth (Z.to_nat n) args []) else []) ++ rest)
              | None =>
                  match skip (T "$") r with
                  | Some q =>
                      do rest <- substitute_loop f args q ;;
                      POk (pre ++ to_string_N (N.of_nat (length args)) ++ rest)
                  | None =>
                      do rest <- substitute_loop f args r ;;
                      POk (pre ++ T "$" ++ rest)
                  end
              end
          end
      end
  end.
Definition substitute_arguments (t : text) (args : list text) : pres text :=
  substitute_loop (S (length t)) args t.

(** ParseConfig.cpp:160-167 parse_int (std::from_chars: optional minus, digits,
    None on overflow) *)
Definition parse_int (t : text) : option Z :=
  let '(neg, t) := match t with
                   | c :: r => if Ascii.eqb c "-"%char then (true, r) else (false, t)
                   | [] => (false, t)
                   end in
  match t with
  | c :: _ => if is_digit c then
                let n := atoi_digits t 0 in
                let n := if neg then (- n)%Z else n in
                if (- int_max - 1 <=? n)%Z && (n <=? int_max)%Z then Some n else None
              else None
  | [] => None
  end.

(** ParseConfig.cpp:169-179 contains_variable *)
Fixpoint variable_loop (fuel : nat) (it : text) : pres bool :=
  match fuel with
  | O => PFuel
  | S f =>
      do o <- of_sres (skip_until_not_in_string (T "$") it) ;;
      match o with
      | None => POk false
      | Some r => let '(i, q) := read_ident r in
                  match parse_int i with
                  | Some _ => POk true
                  | None => variable_loop f q
                  end
      end
  end.
Definition contains_variable (t : text) : pres bool := variable_loop (S (length t)) t.

(** ParseConfig.cpp:181-189 get_formal_argument_count *)
Fixpoint formal_loop (fuel : nat) (it : text) (max : Z) : pres Z :=
  match fuel with
  | O => PFuel
  | S f =>
      match skip_until (T "$") it with
      | None => POk max
      | Some r => match try_read_number r with
                  | Some (n, ub, q) =>
                      if ub || (n =? int_max)%Z then PUB
                      else formal_loop f q (Z.max (n + 1) max)
                  | None => formal_loop f r max
                  end
      end
  end.
Definition get_formal_argument_count (t : text) : pres Z := formal_loop (S (length t)) t 0.

(** int arithmetic: overflow is undefined behaviour. *)
Definition int_result (z : Z) : pres text :=
  if (- int_max - 1 <=? z)%Z && (z <=? int_max)%Z then POk (to_string_Z z) else PUB.

Fixpoint text_find (p t : text) : bool :=
  match skip p t with
  | Some _ => true
  | None => match t with [] => false | _ :: r => text_find p r end
  end.

Definition text_in (t : text) (l : list string) : bool := existsb (fun s => text_eqb t (T s)) l.

(** ParseConfig.cpp:822-835: the loop of `apply`, [i] the index of the first argument
    of the group. *)
Fixpoint apply_groups (fuel : nat) (expr : text) (newline : bool) (n : nat) (args : list text)
         (first : bool) : pres text :=
  match fuel with
  | O => PFuel
  | S f =>
      if Nat.ltb (length args) n then POk []
      else
        do t <- substitute_arguments expr (firstn n args) ;;
        do rest <- apply_groups f expr newline n (skipn n args) false ;;
        POk ((if newline && negb first then [ascii_of_N 10] else []) ++ t ++ rest)
  end.

(** ParseConfig.cpp:758-839 apply_builtin_macro *)
Definition apply_builtin_macro (ident : text) (args : list text) : pres text :=
  if text_eqb ident (T "length") then
    match args with
    | [s] =>
        match s, rev s with
        | c :: _ :: _, d :: _ =>
            if (negb (Ascii.eqb c quote2) && negb (Ascii.eqb d quote1)) || negb (Ascii.eqb c d)
            then PErr
            else POk (to_string_N (N.of_nat (length s - 2)))
        | _, _ => PErr
        end
    | _ => PErr
    end
  else if text_in ident ["add"; "sub"; "mul"; "div"; "mod"; "min"; "max"]%string then
    match args with
    | [x; y] =>
        match parse_int x, parse_int y with
        | Some a, Some b =>
            if text_eqb ident (T "add") then int_result (a + b)
            else if text_eqb ident (T "sub") then int_result (a - b)
            else if text_eqb ident (T "mul") then int_result (a * b)
            else if text_eqb ident (T "div") then
              if (b =? 0)%Z then POk [] else int_result (Z.quot a b)
            else if text_eqb ident (T "mod") then
              if (b =? 0)%Z then POk []
              else do _ <- int_result (Z.quot a b) ;; int_result (Z.rem a b)
            else if text_eqb ident (T "min") then int_result (Z.min a b)
            else int_result (Z.max a b)
        | _, _ => PErr
        end
    | _ => PErr
    end
  else if text_eqb ident (T "repeat") then
    match args with
    | [x; y] => match parse_int y with
                | Some n => POk (Z.iter n (fun t => x ++ T " " ++ t) [])
                | None => PErr
                end
    | _ => PErr
    end
  else if text_eqb ident (T "default") then
    match args with
    | [x; y] => POk (match x with [] => y | _ => x end)
    | _ => PErr
    end
  else if text_eqb ident (T "apply") then
    match args with
    | [] => PErr
    | x :: r =>
        do n <- get_formal_argument_count x ;;
        if (n =? 0)%Z || (Z.of_nat (length r) <? n)%Z then POk []
        else apply_groups (S (length r)) (unquote x) (text_find (T ">>") x) (Z.to_nat n) r true
    end
  else PErr.

(** * Macros: m_macros is a std::map sorted by name *)

Definition macros := list (text * text).
Fixpoint find_macro (m : macros) (name : text) : option text :=
  match m with
  | [] => None
  | (n, v) :: r => if text_eqb n name then Some v else find_macro r name
  end.
Fixpoint text_ltb (a b : text) : bool :=
  match a, b with
  | _, [] => false
  | [], _ :: _ => true
  | x :: a', y :: b' => (code x <? code y) || ((code x =? code y) && text_ltb a' b')
  end.
Fixpoint set_macro (m : macros) (name value : text) : macros :=
  match m with
  | [] => [(name, value)]
  | (n, v) :: r => if text_eqb n name then (name, value) :: r
                   else if text_ltb name n then (name, value) :: m
                   else (n, v) :: set_macro r name value
  end.

Fixpoint map_res {A B} (f : A -> pres B) (l : list A) : pres (list B) :=
  match l with
  | [] => POk []
  | x :: r => do y <- f x ;; do ys <- map_res f r ;; POk (y :: ys)
  end.

Section Preprocess.
Variable m : macros.
(** preprocess of one nesting level deeper *)
Variable pp : text -> pres text.

(** ParseConfig.cpp:841-864 substitute_variables *)
Fixpoint substitute_variables_loop (fuel : nat) (it : text) : pres text :=
  match fuel with
  | O => PFuel
  | S f =>
      match skip_until (T "$") it with
      | None => POk it
      | Some r =>
          let '(braced, r1) := match skip (T "{") r with
                               | Some q => (true, q) | None => (false, r) end in
          let '(ident, r2) := read_ident r1 in
          let '(closed, r3) := if braced then match skip (T "}") r2 with
                                              | Some q => (true, q) | None => (false, r2) end
                               else (true, r2) in
          match closed, find_macro m ident with
          | true, Some _ =>
              do v <- pp ident ;;
              do rest <- substitute_variables_loop f r3 ;;
              POk (removelast (before it r) ++ unquote v ++ rest)
          | _, _ =>
              do rest <- substitute_variables_loop f r3 ;;
              POk (before it r3 ++ rest)
          end
      end
  end.
Definition substitute_variables (t : text) : pres text :=
  substitute_variables_loop (S (length t)) t.

(** ParseConfig.cpp:888-948 preprocess(It, It, bool), the loop *)
Fixpoint preprocess_loop (fuel : nat) (apply_arguments : bool) (it : text) : pres text :=
  match fuel with
  | O => PFuel
  | S f =>
      match it with
      | [] => POk []
      | c :: r =>
          let '(ident, q) := read_ident it in
          match ident with
          | _ :: _ =>
              do arglist <- of_sres (skip_arglist q) ;;
              match arglist with
              | None =>
                  do v <- pp ident ;;
                  do rest <- preprocess_loop f apply_arguments q ;;
                  POk (v ++ rest)
              | Some q' =>
                  if apply_arguments then
                    do args <- get_argument_list (before q q') ;;
                    do args <- map_res pp args ;;
                    do t <- match find_macro m ident with
                            | Some v => substitute_arguments v args
                            | None => apply_builtin_macro ident args
                            end ;;
                    do var <- contains_variable t ;;
                    if (var : bool) then
                      do rest <- preprocess_loop f apply_arguments q' ;;
                      POk (t ++ rest)
                    else
                      do q'' <- of_sres (skip_arglists q') ;;
                      do t <- pp (t ++ before q' q'') ;;
                      do rest <- preprocess_loop f apply_arguments q'' ;;
                      POk (t ++ rest)
                  else
                    do rest <- preprocess_loop f apply_arguments q' ;;
                    POk (ident ++ before q q' ++ rest)
              end
          | [] =>
              do s <- of_sres (skip_string it) ;;
              do s <- match s with
                      | Some _ => POk s
                      | None =>
                          do s <- of_sres (skip_terminal_command it) ;;
                          match s with
                          | Some _ => POk s
                          | None => of_sres (skip_regular_expression it)
                          end
                      end ;;
              match s with
              | Some q =>
                  do t <- substitute_variables (before it q) ;;
                  do rest <- preprocess_loop f apply_arguments q ;;
                  POk (t ++ rest)
              | None =>
                  if is_comment_char c then POk []
                  else
                    do rest <- preprocess_loop f apply_arguments r ;;
                    POk (c :: rest)
              end
          end
      end
  end.
Definition preprocess_range (apply_arguments : bool) (t : text) : pres text :=
  let it := skip_space t in preprocess_loop (S (length it)) apply_arguments it.
End Preprocess.

(** ParseConfig.cpp:866-886 preprocess(std::string).  [level] is the number of
    nested calls still allowed (30 - m_preprocess_level); the error at level 0 is
    "Recursive macro instantiation". *)
Fixpoint preprocess_str (m : macros) (level : nat) (expr : text) : pres text :=
  match level with
  | O => PErr
  | S l =>
      match read_ident expr with
      | (_ :: _, []) => match find_macro m expr with
                        | Some v => preprocess_str m l v
                        | None => POk expr
                        end
      | _ => preprocess_range m (preprocess_str m l) true expr
      end
  end.
Definition preprocess (m : macros) (expr : text) : pres text := preprocess_str m 30 expr.

(** * The configuration *)

(** Filter.h:7-32; the regular expression is kept as text, [f_regex] tells whether
    there is one. *)
Record filter : Type := Filter { f_string : text; f_regex : bool; f_invert : bool }.
Definition no_filter : filter := Filter [] false false.

(** Config.h:19-45 `Config::Context`; inputs, outputs and command outputs are the
    types of the runtime model. *)
Record cctx : Type := CC {
  cc_class : filter; cc_title : filter; cc_path : filter;
  cc_dev : filter; cc_devid : filter;
  cc_mods : sequence;
  cc_inputs : list input; cc_outputs : list sequence; cc_commands : list command;
  cc_sys : bool; cc_inv : bool; cc_fall : bool; cc_stage : bool
}.
Definition new_cctx : cctx :=
  CC no_filter no_filter no_filter no_filter no_filter [] [] [] [] false false false false.

Definition cc_set_class x c := CC x (cc_title c) (cc_path c) (cc_dev c) (cc_devid c) (cc_mods c) (cc_inputs c) (cc_outputs c) (cc_commands c) (cc_sys c) (cc_inv c) (cc_fall c) (cc_stage c).
Definition cc_set_title x c := CC (cc_class c) x (cc_path c) (cc_dev c) (cc_devid c) (cc_mods c) (cc_inputs c) (cc_outputs c) (cc_commands c) (cc_sys c) (cc_inv c) (cc_fall c) (cc_stage c).
Definition cc_set_path x c := CC (cc_class c) (cc_title c) x (cc_dev c) (cc_devid c) (cc_mods c) (cc_inputs c) (cc_outputs c) (cc_commands c) (cc_sys c) (cc_inv c) (cc_fall c) (cc_stage c).
Definition cc_set_dev x c := CC (cc_class c) (cc_title c) (cc_path c) x (cc_devid c) (cc_mods c) (cc_inputs c) (cc_outputs c) (cc_commands c) (cc_sys c) (cc_inv c) (cc_fall c) (cc_stage c).
Definition cc_set_devid x c := CC (cc_class c) (cc_title c) (cc_path c) (cc_dev c) x (cc_mods c) (cc_inputs c) (cc_outputs c) (cc_commands c) (cc_sys c) (cc_inv c) (cc_fall c) (cc_stage c).
Definition cc_set_mods x i c := CC (cc_class c) (cc_title c) (cc_path c) (cc_dev c) (cc_devid c) x (cc_inputs c) (cc_outputs c) (cc_commands c) (cc_sys c) i (cc_fall c) (cc_stage c).
Definition cc_set_maps i o m c := CC (cc_class c) (cc_title c) (cc_path c) (cc_dev c) (cc_devid c) (cc_mods c) i o m (cc_sys c) (cc_inv c) (cc_fall c) (cc_stage c).
Definition cc_set_sys x c := CC (cc_class c) (cc_title c) (cc_path c) (cc_dev c) (cc_devid c) (cc_mods c) (cc_inputs c) (cc_outputs c) (cc_commands c) x (cc_inv c) (cc_fall c) (cc_stage c).
Definition cc_set_fall x c := CC (cc_class c) (cc_title c) (cc_path c) (cc_dev c) (cc_devid c) (cc_mods c) (cc_inputs c) (cc_outputs c) (cc_commands c) (cc_sys c) (cc_inv c) x (cc_stage c).
Definition cc_set_stage x c := CC (cc_class c) (cc_title c) (cc_path c) (cc_dev c) (cc_devid c) (cc_mods c) (cc_inputs c) (cc_outputs c) (cc_commands c) (cc_sys c) (cc_inv c) (cc_fall c) x.

Record named_command : Type := NC { nc_name : text; nc_index : Z; nc_mapped : bool }.
Record logical_key : Type := LK { lk_name : text; lk_both : key; lk_left : key; lk_right : key }.

(** The members of ParseConfig (ParseConfig.h:72-87); [c_compose] stands for the
    static compose key of the string typer. *)
Record cstate : Type := CS {
  c_contexts : list cctx;
  c_actions : list text;
  c_grab : list (filter * bool);
  c_directives : list text;
  c_options : list text;
  c_includes : list text;
  c_commands : list named_command;
  c_macros : macros;
  c_logical : list logical_key;
  c_sysmatch : bool;
  c_after_empty : bool;
  c_lowercase : bool;
  c_unmapped : bool;
  c_forward : list key;
  c_compose : option (key * bool);
  c_done : bool
}.

Definition c_set_contexts x c := CS x (c_actions c) (c_grab c) (c_directives c) (c_options c) (c_includes c) (c_commands c) (c_macros c) (c_logical c) (c_sysmatch c) (c_after_empty c) (c_lowercase c) (c_unmapped c) (c_forward c) (c_compose c) (c_done c).
Definition c_set_actions x c := CS (c_contexts c) x (c_grab c) (c_directives c) (c_options c) (c_includes c) (c_commands c) (c_macros c) (c_logical c) (c_sysmatch c) (c_after_empty c) (c_lowercase c) (c_unmapped c) (c_forward c) (c_compose c) (c_done c).
Definition c_set_grab x c := CS (c_contexts c) (c_actions c) x (c_directives c) (c_options c) (c_includes c) (c_commands c) (c_macros c) (c_logical c) (c_sysmatch c) (c_after_empty c) (c_lowercase c) (c_unmapped c) (c_forward c) (c_compose c) (c_done c).
Definition c_set_directives x c := CS (c_contexts c) (c_actions c) (c_grab c) x (c_options c) (c_includes c) (c_commands c) (c_macros c) (c_logical c) (c_sysmatch c) (c_after_empty c) (c_lowercase c) (c_unmapped c) (c_forward c) (c_compose c) (c_done c).
Definition c_set_options x c := CS (c_contexts c) (c_actions c) (c_grab c) (c_directives c) x (c_includes c) (c_commands c) (c_macros c) (c_logical c) (c_sysmatch c) (c_after_empty c) (c_lowercase c) (c_unmapped c) (c_forward c) (c_compose c) (c_done c).
Definition c_set_includes x c := CS (c_contexts c) (c_actions c) (c_grab c) (c_directives c) (c_options c) x (c_commands c) (c_macros c) (c_logical c) (c_sysmatch c) (c_after_empty c) (c_lowercase c) (c_unmapped c) (c_forward c) (c_compose c) (c_done c).
Definition c_set_commands x c := CS (c_contexts c) (c_actions c) (c_grab c) (c_directives c) (c_options c) (c_includes c) x (c_macros c) (c_logical c) (c_sysmatch c) (c_after_empty c) (c_lowercase c) (c_unmapped c) (c_forward c) (c_compose c) (c_done c).
Definition c_set_macros x c := CS (c_contexts c) (c_actions c) (c_grab c) (c_directives c) (c_options c) (c_includes c) (c_commands c) x (c_logical c) (c_sysmatch c) (c_after_empty c) (c_lowercase c) (c_unmapped c) (c_forward c) (c_compose c) (c_done c).
Definition c_set_logical x c := CS (c_contexts c) (c_actions c) (c_grab c) (c_directives c) (c_options c) (c_includes c) (c_commands c) (c_macros c) x (c_sysmatch c) (c_after_empty c) (c_lowercase c) (c_unmapped c) (c_forward c) (c_compose c) (c_done c).
Definition c_set_sysmatch x c := CS (c_contexts c) (c_actions c) (c_grab c) (c_directives c) (c_options c) (c_includes c) (c_commands c) (c_macros c) (c_logical c) x (c_after_empty c) (c_lowercase c) (c_unmapped c) (c_forward c) (c_compose c) (c_done c).
Definition c_set_after_empty x c := CS (c_contexts c) (c_actions c) (c_grab c) (c_directives c) (c_options c) (c_includes c) (c_commands c) (c_macros c) (c_logical c) (c_sysmatch c) x (c_lowercase c) (c_unmapped c) (c_forward c) (c_compose c) (c_done c).
Definition c_set_lowercase x c := CS (c_contexts c) (c_actions c) (c_grab c) (c_directives c) (c_options c) (c_includes c) (c_commands c) (c_macros c) (c_logical c) (c_sysmatch c) (c_after_empty c) x (c_unmapped c) (c_forward c) (c_compose c) (c_done c).
Definition c_set_unmapped x c := CS (c_contexts c) (c_actions c) (c_grab c) (c_directives c) (c_options c) (c_includes c) (c_commands c) (c_macros c) (c_logical c) (c_sysmatch c) (c_after_empty c) (c_lowercase c) x (c_forward c) (c_compose c) (c_done c).
Definition c_set_forward x c := CS (c_contexts c) (c_actions c) (c_grab c) (c_directives c) (c_options c) (c_includes c) (c_commands c) (c_macros c) (c_logical c) (c_sysmatch c) (c_after_empty c) (c_lowercase c) (c_unmapped c) x (c_compose c) (c_done c).
Definition c_set_compose x c := CS (c_contexts c) (c_actions c) (c_grab c) (c_directives c) (c_options c) (c_includes c) (c_commands c) (c_macros c) (c_logical c) (c_sysmatch c) (c_after_empty c) (c_lowercase c) (c_unmapped c) (c_forward c) x (c_done c).
Definition c_set_done x c := CS (c_contexts c) (c_actions c) (c_grab c) (c_directives c) (c_options c) (c_includes c) (c_commands c) (c_macros c) (c_logical c) (c_sysmatch c) (c_after_empty c) (c_lowercase c) (c_unmapped c) (c_forward c) (c_compose c) x.

(** current_context (ParseConfig.cpp:950-953): the last context. *)
Definition map_last {A} (f : A -> A) (l : list A) : list A :=
  update_at (length l - 1) f l.
Definition upd_context (f : cctx -> cctx) (c : cstate) : cstate :=
  c_set_contexts (map_last f (c_contexts c)) c.

(** ParseConfig.cpp:1004-1008 add_logical_key *)
Definition add_logical_key (name : text) (left right : key) (c : cstate) : cstate * key :=
  let both := (first_logical + N.of_nat (length (c_logical c))) mod 65536 in
  (c_set_logical (c_logical c ++ [LK name both left right]) c, both).

(** ParseConfig.cpp:693-703 ParseConfig::get_key_by_name *)
Definition find_logical (name : text) (l : list logical_key) : option logical_key :=
  find (fun k => text_eqb (lk_name k) name) l.
Definition cfg_key_by_name (l : list logical_key) (name : text) : key :=
  match get_key_by_name name with
  | 0 => match find_logical name l with Some k => lk_both k | None => k_none end
  | k => k
  end.

(** ParseConfig.cpp:955-960 find_command *)
Definition find_named (name : text) (c : cstate) : option named_command :=
  find (fun x => text_eqb (nc_name x) name) (c_commands c).

(** ParseConfig.cpp:962-974 add_command *)
Definition add_command (inp : sequence) (name : text) (c : cstate) : cstate :=
  let '(c, index) :=
    match find_named name c with
    | Some x => (c, nc_index x)
    | None => let i := (- Z.of_nat (S (length (c_commands c))))%Z in
              (c_set_commands (c_commands c ++ [NC name i false]) c, i)
    end in
  upd_context (fun x => cc_set_maps (cc_inputs x ++ [Inp inp index]) (cc_outputs x)
                                    (cc_commands x) x) c.

(** ParseConfig.cpp:976-984 add_mapping(input, output) *)
Definition add_mapping (inp out : sequence) (c : cstate) : cstate :=
  upd_context (fun x =>
    cc_set_maps (cc_inputs x ++ [Inp inp (Z.of_nat (length (cc_outputs x)))])
                (cc_outputs x ++ [out]) (cc_commands x) x) c.

(** ParseConfig.cpp:986-1002 add_mapping(name, output) *)
Definition add_command_mapping (name : text) (out : sequence) (c : cstate) : pres cstate :=
  match find_named name c with
  | None => PErr
  | Some x =>
      if existsb (fun o => (cm_idx o =? nc_index x)%Z)
                 (match back (c_contexts c) with Some y => cc_commands y | None => [] end)
      then PErr
      else
        let c := upd_context (fun y => cc_set_maps (cc_inputs y) (cc_outputs y)
                               (cc_commands y ++ [Cmd out (nc_index x)]) y) c in
        POk (c_set_commands
               (match find_index (fun y => text_eqb (nc_name y) name) (c_commands c) with
                | Some i => update_at i (fun y => NC (nc_name y) (nc_index y) true) (c_commands c)
                | None => c_commands c
                end) c)
  end.

Section Parse.
(** string_typer().type, depending on the compose key set last. *)
Variable typer : option (key * bool) -> text -> list stroke.
(** Does std::regex accept the pattern (without the delimiters)? *)
Variable regex_ok : text -> bool -> bool.
(** The lines of an include file. *)
Variable read_file : text -> option (list text).
(** current_system (ParseConfig.cpp:17-25) *)
Variable current_system : text.

(** parse_regex.h:7-11 is_regex *)
Definition is_regex (t : text) : bool :=
  match t, rev t with
  | c :: _ :: _, d :: e :: _ =>
      Ascii.eqb c "/"%char && Ascii.eqb (if Ascii.eqb d "i"%char then e else d) "/"%char
  | _, _ => false
  end.
(** parse_regex.h:13-23 parse_regex: removing a character from an empty string_view
    is undefined behaviour. *)
Definition check_regex (t : text) : pres unit :=
  match t with
  | [] => PUB
  | _ :: r =>
      match rev r with
      | [] => PUB
      | d :: q =>
          if Ascii.eqb d "i"%char
          then match q with [] => PUB | _ => guard (regex_ok (removelast (removelast r)) true) end
          else guard (regex_ok (removelast r) false)
      end
  end.

(** ParseConfig.cpp:496-516 read_filter_string *)
Definition read_filter_string (m : macros) (it : text) : pres (text * text) :=
  do r <- of_sres (skip_regular_expression it) ;;
  match r with
  | Some q => POk (before it q, q)
  | None =>
      do s <- of_sres (skip_string it) ;;
      match s with
      | Some q => POk (removelast (tl (before it q)), q)
      | None =>
          let '(i, q) := read_ident it in
          do t <- preprocess m i ;;
          match t, rev t with
          | c :: r, d :: _ =>
              if is_quote c then
                match r with
                | [] => PErr
                | _ => if Ascii.eqb c d then POk (removelast r, q) else PErr
                end
              else POk (t, q)
          | _, _ => POk (t, q)
          end
      end
  end.

(** ParseConfig.cpp:518-527 read_filter *)
Definition read_filter (m : macros) (invert : bool) (it : text) : pres (filter * text) :=
  do x <- read_filter_string m it ;;
  let '(s, q) := x in
  match s with
  | [] => PErr
  | _ => if is_regex s then do _ <- check_regex s ;; POk (Filter s true invert, q)
         else POk (Filter s false invert, q)
  end.

(** ParseConfig.cpp:529-548 parse_modifier_list *)
Fixpoint modifier_loop (fuel : nat) (l : list logical_key) (it : text) (acc : sequence)
  : pres sequence :=
  match fuel with
  | O => PFuel
  | S f =>
      let it := skip_space it in
      match it with
      | [] => POk acc
      | _ =>
          let '(is_not, r) := match skip (T "!") it with
                              | Some q => (true, q) | None => (false, it) end in
          let '(name, q) := read_ident r in
          let k := cfg_key_by_name l name in
          if (k =? 0) || (k =? k_ContextActive) then PErr
          else modifier_loop f l q
                 (if contains_key acc k then acc
                  else acc ++ [ev0 k (if is_not then Not else Down)])
      end
  end.
Definition parse_modifier_list (l : list logical_key) (t : text) : pres sequence :=
  modifier_loop (S (length t)) l t [].

Definition add_key (k : key) (l : list key) : list key :=
  if mem_key k l then l else l ++ [k].

(** ParseConfig.cpp:550-574 parse_forward_modifiers_list *)
Fixpoint forward_list_loop (fuel : nat) (l : list logical_key) (it : text) (acc : list key)
  : pres (list key) :=
  match fuel with
  | O => PFuel
  | S f =>
      match it with
      | [] => POk acc
      | _ =>
          let '(name, q) := read_ident it in
          match name with
          | [] => PErr
          | _ =>
              match find_logical name l with
              | Some k => forward_list_loop f l (skip_space q)
                            (add_key (lk_right k) (add_key (lk_left k) acc))
              | None =>
                  let k := get_key_by_name name in
                  if is_device_key k
                  then forward_list_loop f l (skip_space q) (add_key k acc)
                  else PErr
              end
          end
      end
  end.

(** ParseConfig.cpp:687-691 parse_input *)
Definition parse_input (c : cstate) (t : text) : pres sequence :=
  do x <- parse_sequence true (cfg_key_by_name (c_logical c)) (typer (c_compose c)) None
            (skip_space t) ;;
  POk (fst x).

(** ParseConfig.cpp:705-720 add_terminal_command_action, parse_output *)
Definition action_key (n : nat) : key := (first_action + N.of_nat n) mod 65536.
Definition parse_output (c : cstate) (t : text) : pres (cstate * sequence) :=
  let base := length (c_actions c) in
  do x <- parse_sequence false (cfg_key_by_name (c_logical c)) (typer (c_compose c))
            (Some (fun n => action_key (base + n))) (skip_space t) ;;
  let '(sq, cmds) := x in
  if contains_key sq k_ContextActive then PErr
  else POk (c_set_actions (c_actions c ++ cmds) c, sq).

(** ParseConfig.cpp:664-675 parse_command_name *)
Definition parse_command_name (c : cstate) (t : text) : text :=
  let '(ident, q) := read_ident (skip_space t) in
  match skip_space q with
  | [] => if negb (cfg_key_by_name (c_logical c) ident =? 0)
             || (c_lowercase c && negb (starts_with_lower_case ident))
          then [] else ident
  | _ => []
  end.

(** ParseConfig.cpp:677-685 parse_command_and_mapping *)
Definition parse_command_and_mapping (inp out : text) (c : cstate) : pres cstate :=
  do i <- parse_input c inp ;;
  match parse_command_name c out with
  | [] => do x <- parse_output c out ;; let '(c, o) := x in POk (add_mapping i o c)
  | name => POk (add_command i name c)
  end.

(** ParseConfig.cpp:354-385 parse_mapping(begin, end) *)
Definition parse_mapping (t : text) (c : cstate) : pres cstate :=
  let '(ident, q) := read_ident t in
  let q := skip_space q in
  match ident, skip (T ">>") q with
  | _ :: _, Some r =>
      match find_named ident c with
      | Some _ =>
          do x <- parse_output c r ;; let '(c, o) := x in add_command_mapping ident o c
      | None =>
          if starts_with_lower_case ident then
            if c_unmapped c then do x <- parse_output c r ;; POk (fst x) else PErr
          else parse_command_and_mapping ident r c
      end
  | _, _ =>
      match skip_until (T ">>") q with
      | Some r => parse_command_and_mapping (removelast (removelast (before t r))) r c
      | None => PErr
      end
  end.

(** ParseConfig.cpp:344-350 *)
Definition newline : text := [ascii_of_N 10].
Fixpoint mappings_loop (fuel : nat) (it : text) (c : cstate) : pres cstate :=
  match fuel with
  | O => PFuel
  | S f =>
      match it with
      | [] => POk c
      | _ =>
          do o <- of_sres (skip_until_not_in_string newline it) ;;
          let q := match o with Some q => q | None => [] end in
          do c <- parse_mapping (before it q) c ;;
          mappings_loop f q c
      end
  end.

(** ParseConfig.cpp:592-644, one attribute `name=value` per round; the first
    attribute has index 0 in [fuel]'s initial value. *)
Fixpoint attributes_loop (fuel : nat) (c : cstate) (it : text) (x : cctx) : pres (cctx * text) :=
  match fuel with
  | O => PFuel
  | S f =>
      let '(attrib, q) := read_ident it in
      match attrib with
      | [] => PErr
      | _ =>
          let q := skip_space q in
          let '(invert, q) := match skip (T "!") q with
                              | Some r => (true, r) | None => (false, q) end in
          match skip (T "=") q with
          | None => PErr
          | Some q =>
              let q := skip_space q in
              let m := c_macros c in
              do y <- (if text_eqb attrib (T "class") then
                         do z <- read_filter m invert q ;; POk (cc_set_class (fst z) x, snd z)
                       else if text_eqb attrib (T "title") then
                         do z <- read_filter m invert q ;; POk (cc_set_title (fst z) x, snd z)
                       else if text_eqb attrib (T "path") then
                         do z <- read_filter m invert q ;; POk (cc_set_path (fst z) x, snd z)
                       else if text_eqb attrib (T "system") then
                         do z <- of_sres (read_value q) ;;
                         POk (cc_set_sys (xorb (equal_case_insensitive (fst z) current_system)
                                               invert) x, snd z)
                       else if text_eqb attrib (T "device") then
                         do z <- read_filter m invert q ;; POk (cc_set_dev (fst z) x, snd z)
                       else if text_in attrib ["device-id"; "device_id"]%string then
                         do z <- read_filter m invert q ;; POk (cc_set_devid (fst z) x, snd z)
                       else if text_eqb attrib (T "modifier") then
                         do z <- of_sres (read_value q) ;;
                         do t <- preprocess m (fst z) ;;
                         do l <- parse_modifier_list (c_logical c) t ;;
                         POk (cc_set_mods l invert x, snd z)
                       else PErr) ;;
              let '(x, q) := y in
              let q := skip_space q in
              match skip (T "]") q with
              | Some r => POk (x, r)
              | None =>
                  let q := match skip (T ",") q with Some r => r | None => q end in
                  match skip_space q with
                  | [] => PErr
                  | q => attributes_loop f c q x
                  end
              end
          end
      end
  end.

(** ParseConfig.cpp:576-651 parse_context (after the opening bracket) *)
Definition parse_context (it : text) (c : cstate) : pres cstate :=
  let it := skip_space it in
  let x := cc_set_sys true new_cctx in
  do y <- match skip (T "default") it with
          | Some q => match skip (T "]") (skip_space q) with
                      | Some r => POk (x, r) | None => PErr end
          | None =>
              match skip (T "stage") it with
              | Some q => match skip (T "]") (skip_space q) with
                          | Some r => POk (cc_set_stage true x, r) | None => PErr end
              | None => attributes_loop (S (length it)) c it x
              end
          end ;;
  let '(x, q) := y in
  match skip_space q with
  | [] => POk (c_set_sysmatch (cc_sys x) (c_set_contexts (c_contexts c ++ [x]) c))
  | _ => PErr
  end.

(** ParseConfig.cpp:397-404 read_optional_bool *)
Definition read_optional_bool (it : text) : pres (bool * text) :=
  let '(v, q) := read_ident it in
  if text_eqb v [] || text_eqb v (T "true") then POk (true, q)
  else if text_eqb v (T "false") then POk (false, q) else PErr.

(** std::getline(ss, name, ' ') over a text: no empty last field *)
Fixpoint split_spaces (t acc : text) : list text :=
  match t with
  | [] => match acc with [] => [] | _ => [rev acc] end
  | c :: r => if (code c =? 32) then rev acc :: split_spaces r [] else split_spaces r (c :: acc)
  end.

(** ParseConfig.cpp:387-494 parse_directive; [parse_lines] parses the lines of an
    include file one level deeper. *)
Definition parse_directive (parse_lines : list text -> cstate -> pres cstate)
           (it : text) (c : cstate) : pres cstate :=
  if negb (c_sysmatch c) then POk c
  else
    let '(ident, q) := read_ident it in
    let q := skip_space q in
    let grab (invert by_id : bool) :=
      do z <- read_filter (c_macros c) invert q ;;
      POk (c_set_grab (c_grab c ++ [(fst z, by_id)]) c, snd z) in
    do y <-
      (if text_eqb ident (T "include") then
         do z <- of_sres (read_string q) ;;
         let c := c_set_includes (c_includes c ++ [fst z]) c in
         match read_file (fst z) with
         | None => PErr
         | Some lines => do c <- parse_lines lines c ;; POk (c, snd z)
         end
       else if text_eqb ident (T "grab-device") then grab false false
       else if text_eqb ident (T "skip-device") then grab true false
       else if text_eqb ident (T "grab-device-id") then grab false true
       else if text_eqb ident (T "skip-device-id") then grab true true
       else if text_eqb ident (T "enforce-lowercase-commands") then
         do z <- read_optional_bool q ;; POk (c_set_lowercase (fst z) c, snd z)
       else if text_eqb ident (T "allow-unmapped-commands") then
         do z <- read_optional_bool q ;; POk (c_set_unmapped (fst z) c, snd z)
       else if text_eqb ident (T "forward-modifiers") then
         do l <- forward_list_loop (S (length q)) (c_logical c) q [] ;;
         POk (c_set_forward l c, [])
       else if text_eqb ident (T "done") then POk (c_set_done true c, q)
       else if text_eqb ident (T "compose-key") then
         do l <- parse_input c q ;;
         match l with
         | [a; _] => if negb (ek a =? AltRight)
                     then POk (c_set_compose (Some (ek a, false)) c, []) else PErr
         | [a; b; _; _] => if ek a =? AltRight
                           then POk (c_set_compose (Some (ek b, true)) c, []) else PErr
         | _ => PErr
         end
       else if text_in ident ["macos-iso-keyboard"; "macos-toggle-fn"]%string then
         do z <- read_optional_bool q ;;
         POk (if fst z then c_set_directives (c_directives c ++ [ident]) c else c, snd z)
       else if text_eqb ident (T "options") then
         let names := split_spaces q [] in
         if forallb (fun n => text_in n ["update"; "no-update"; "verbose"; "no-tray";
                                         "no-notify"]%string) names
         then POk (c_set_options (c_options c ++ names) c, []) else PErr
       else PErr) ;;
    let '(c, q) := y in
    match skip_space q with [] => POk c | _ => PErr end.

(** ParseConfig.cpp:728-756 parse_logical_key_definition: None = `false` *)
Fixpoint logical_loop (fuel : nat) (name : text) (left : key) (it : text) (c : cstate)
  : pres cstate :=
  match fuel with
  | O => PFuel
  | S f =>
      let '(i, q) := read_ident (skip_space it) in
      do n <- preprocess (c_macros c) i ;;
      let right := cfg_key_by_name (c_logical c) n in
      if right =? 0 then PErr
      else
        let q := skip_space q in
        match skip (T "|") q with
        | Some r => let '(c, both) := add_logical_key (T "$") left right c in
                    logical_loop f name both r c
        | None => let '(c, _) := add_logical_key name left right c in
                  match skip_space q with [] => POk c | _ => PErr end
        end
  end.
Definition parse_logical_key_definition (name it : text) (c : cstate) : pres (option cstate) :=
  if negb (cfg_key_by_name (c_logical c) name =? 0) then POk None
  else
    let '(i, q) := read_ident it in
    do n <- preprocess (c_macros c) i ;;
    let left := cfg_key_by_name (c_logical c) n in
    match skip (T "|") (skip_space q) with
    | Some r => if left =? 0 then POk None
                else do c <- logical_loop (S (length r)) name left r c ;; POk (Some c)
    | None => POk None
    end.

(** ParseConfig.cpp:722-726 parse_macro *)
Definition parse_macro (name it : text) (c : cstate) : pres cstate :=
  do t <- preprocess_range (c_macros c) (preprocess (c_macros c)) false it ;;
  if c_sysmatch c || (match find_macro (c_macros c) name with None => true | _ => false end)
  then POk (c_set_macros (set_macro (c_macros c) name t) c) else POk c.

(** ParseConfig.cpp:304-352 parse_line *)
Definition parse_line (parse_lines : list text -> cstate -> pres cstate)
           (line : text) (c : cstate) : pres cstate :=
  let '(ident, q) := read_ident (skip_space line) in
  match skip (T "=") (skip_space q) with
  | Some r =>
      let r := skip_space r in
      do o <- parse_logical_key_definition ident r c ;;
      match o with
      | Some c => POk c
      | None => parse_macro ident r c
      end
  | None =>
      do t <- preprocess (c_macros c) line ;;
      let it := skip_space t in
      match skip (T "@") it with
      | Some r => parse_directive parse_lines r c
      | None =>
          match skip (T "[") it with
          | Some r =>
              do c <- parse_context r c ;;
              match back (c_contexts c) with
              | Some x =>
                  if cc_stage x then POk (c_set_after_empty false c)
                  else
                    let c := if c_after_empty c
                             then c_set_contexts (update_at (length (c_contexts c) - 2)
                                                   (cc_set_fall true) (c_contexts c)) c
                             else c in
                    POk (c_set_after_empty true c)
              | None => POk c
              end
          | None => mappings_loop (S (length it)) it (c_set_after_empty false c)
          end
      end
  end.

(** ParseConfig.cpp:286-297: lines ending in a backslash are continued; [prev] is
    prev_line.  A continued last line is dropped. *)
Fixpoint lines_loop (pl : text -> cstate -> pres cstate) (lines : list text) (prev : text)
         (c : cstate) : pres cstate :=
  match lines with
  | [] => POk c
  | l :: r =>
      if c_done c then POk c
      else
        let t := trim_space l in
        match back t with
        | Some x =>
            if code x =? 92 then lines_loop pl r (prev ++ pop_back t) c
            else do c <- pl (prev ++ l) c ;; lines_loop pl r [] c
        | None => do c <- pl (prev ++ l) c ;; lines_loop pl r [] c
        end
  end.

(** ParseConfig.cpp:280-282 the byte order mark *)
Definition bom : text := map ascii_of_N [239; 187; 191].
Definition skip_bom (lines : list text) : list text :=
  match lines with
  | l :: r => (match skip bom l with Some q => q | None => l end) :: r
  | [] => []
  end.

(** ParseConfig.cpp:271-302, 417-422 parse_file; [level] is the number of nested
    includes still allowed. *)
Fixpoint parse_file (level : nat) (lines : list text) (c : cstate) : pres cstate :=
  lines_loop
    (parse_line (fun ls c => match level with O => PErr | S l => parse_file l ls c end))
    (skip_bom lines) [] c.

(** * After parsing *)

(** ParseConfig.cpp:1109-1126 prepend_forward_modifier_mappings (for one context) *)
Definition prepend_forward (fwd : list key) (x : cctx) : cctx :=
  if cc_stage x then
    fold_left (fun x k =>
      cc_set_maps (Inp [ev0 k Down; ev0 k UpAsync] (Z.of_nat (length (cc_outputs x)))
                     :: cc_inputs x)
                  (cc_outputs x ++ [[ev0 k Down]]) (cc_commands x) x) (rev fwd) x
  else x.

Fixpoint filter_map {A B} (f : A -> option B) (l : list A) : list B :=
  match l with
  | [] => []
  | x :: r => match f x with Some y => y :: filter_map f r | None => filter_map f r end
  end.
Definition null {A} (l : list A) : bool := match l with [] => true | _ => false end.

(** ParseConfig.cpp:1068-1107 optimize_contexts: [rl] are the contexts not yet
    visited, last first; [acc] the kept ones; [moved] the mappings of a just removed
    context, which a fallthrough context directly before it takes over (the code
    does that at lines 1087-1093 when it removes the context). *)
Definition take_over (moved : option cctx) (x : cctx) : cctx :=
  match moved with
  | Some y => if cc_fall x
              then cc_set_fall false (cc_set_maps (cc_inputs y) (cc_outputs y) (cc_commands y) x)
              else x
  | None => x
  end.
Fixpoint optimize_loop (rl : list cctx) (moved : option cctx) (before_context : bool)
         (acc : list cctx) : list cctx :=
  match rl with
  | [] => acc
  | x :: r =>
      let x := take_over moved x in
      if cc_fall x then
        if negb (cc_sys x) || negb before_context
        then optimize_loop r None before_context acc
        else optimize_loop r None before_context (x :: acc)
      else if negb (cc_sys x)
              || (null (cc_inputs x) && null (cc_commands x) && (null r || negb (cc_stage x)))
      then optimize_loop r (Some x) false acc
      else optimize_loop r None true (x :: acc)
  end.
Definition optimize_contexts (l : list cctx) : list cctx :=
  match optimize_loop (rev l) None false [] with
  | [] => [new_cctx]
  | l' => l'
  end.

(** ParseConfig.cpp:1022-1040: duplicate the inputs containing the logical key; the
    copy for the right key gets its own output when that contains the key too. *)
Fixpoint duplicate_inputs (both left right : key) (l : list input) (outs : list sequence)
  : list input * list sequence :=
  match l with
  | [] => ([], outs)
  | i :: r =>
      if contains_key (in_seq i) both then
        let dup := if (0 <=? in_out i)%Z
                   then match nth_error outs (Z.to_nat (in_out i)) with
                        | Some o => if contains_key o both then Some o else None
                        | None => None
                        end
                   else None in
        let '(idx, outs) := match dup with
                            | Some o => (Z.of_nat (length outs),
                                         outs ++ [replace_key both right o])
                            | None => (in_out i, outs)
                            end in
        let '(l', outs) := duplicate_inputs both left right r outs in
        (Inp (replace_key both left (in_seq i)) (in_out i)
         :: Inp (replace_key both right (in_seq i)) idx :: l', outs)
      else
        let '(l', outs) := duplicate_inputs both left right r outs in (i :: l', outs)
  end.

(** ParseConfig.cpp:1012-1050 the first loop of replace_logical_key *)
Definition replace_logical_in (k : logical_key) (x : cctx) : cctx :=
  let both := lk_both k in
  let left := lk_left k in
  let right := lk_right k in
  let rn := replace_not_key both left right in
  let inputs := map (fun i => Inp (rn (in_seq i)) (in_out i)) (cc_inputs x) in
  let outputs := map rn (cc_outputs x) in
  let commands := map (fun o => Cmd (rn (cm_out o)) (cm_idx o)) (cc_commands x) in
  let '(inputs, outputs) := duplicate_inputs both left right inputs outputs in
  cc_set_mods (rn (cc_mods x)) (cc_inv x)
    (cc_set_maps inputs (map (replace_key both left) outputs)
       (map (fun o => Cmd (replace_key both left (cm_out o)) (cm_idx o)) commands) x).

(** ParseConfig.cpp:1052-1065 the second loop of replace_logical_key *)
Definition duplicate_context (k : logical_key) (x : cctx) : list cctx :=
  if contains_key (cc_mods x) (lk_both k) then
    [cc_set_fall true (cc_set_maps [] [] []
       (cc_set_mods (replace_key (lk_both k) (lk_left k) (cc_mods x)) (cc_inv x) x));
     cc_set_mods (replace_key (lk_both k) (lk_right k) (cc_mods x)) (cc_inv x) x]
  else [x].

Definition replace_logical_key (l : list cctx) (k : logical_key) : list cctx :=
  flat_map (duplicate_context k) (map (replace_logical_in k) l).

(** ParseConfig.cpp:1136-1140 *)
Definition prepend_not (k : key) (o : sequence) : sequence :=
  if contains_event o (ev0 k Down) || contains_event o (ev0 k Not) then o
  else ev0 k Not :: o.

(** ParseConfig.cpp:1142-1154 for one input of the context at index [n] *)
Definition suppress_input (n : nat) (k : key) (l : list cctx) (i : input) : list cctx :=
  if contains_event (in_seq i) (ev0 k Down) then
    if (0 <=? in_out i)%Z then
      update_at n (fun x => cc_set_maps (cc_inputs x)
        (update_at (Z.to_nat (in_out i)) (prepend_not k) (cc_outputs x)) (cc_commands x) x) l
    else
      map (fun x => cc_set_maps (cc_inputs x) (cc_outputs x)
        (map (fun o => if (cm_idx o =? in_out i)%Z
                       then Cmd (prepend_not k (cm_out o)) (cm_idx o) else o)
             (cc_commands x)) x) l
  else l.

(** ParseConfig.cpp:1128-1157 suppress_forwarded_modifiers_in_outputs *)
Definition suppress_forwarded (fwd : list key) (l : list cctx) : list cctx :=
  fold_left (fun l n =>
    fold_left (fun l k =>
      fold_left (suppress_input n k)
        (match nth_error l n with Some x => cc_inputs x | None => [] end) l) fwd l)
    (seq 0 (length l)) l.

(** The result: Config.h:59-65 *)
Record config : Type := Config {
  cfg_contexts : list cctx;
  cfg_actions : list text;
  cfg_aliases : list (text * key);
  cfg_grab : list (filter * bool);
  cfg_directives : list text;
  cfg_includes : list text;
  cfg_options : list text
}.

(** ParseConfig.cpp:193-220 the state before parsing *)
Definition c_init : cstate :=
  let c := CS [cc_set_stage true (cc_set_sys true new_cctx)] [] [] [] [] [] [] [] []
              true false false false [] None false in
  let c := fst (add_logical_key (T "Shift") ShiftLeft ShiftRight c) in
  let c := fst (add_logical_key (T "Control") ControlLeft ControlRight c) in
  let c := fst (add_logical_key (T "Alt") AltLeft AltRight c) in
  fst (add_logical_key (T "Meta") MetaLeft MetaRight c).

(** ParseConfig.cpp:224-249 the end of operator() *)
Definition finish_config (c : cstate) : pres config :=
  if negb (c_unmapped c) && negb (forallb nc_mapped (c_commands c)) then PErr
  else
    let l := map (prepend_forward (c_forward c)) (c_contexts c) in
    let l := optimize_contexts l in
    let l := fold_left replace_logical_key (rev (c_logical c)) l in
    let l := suppress_forwarded (c_forward c) l in
    let aliases := filter_map (fun nv : text * text =>
        let k := cfg_key_by_name (c_logical c) (snd nv) in
        if is_virtual_key k then Some (fst nv, k) else None) (c_macros c) in
    POk (Config l (c_actions c) aliases (c_grab c) (c_directives c) (c_includes c)
                (c_options c)).

(** std::getline: the lines of a file *)
Fixpoint split_lines (t acc : text) : list text :=
  match t with
  | [] => [rev acc]
  | c :: r => if code c =? 10 then rev acc :: split_lines r [] else split_lines r (c :: acc)
  end.

(** ParseConfig.cpp:192-256 ParseConfig::operator() *)
Definition parse_config (t : text) : pres config :=
  do c <- parse_file 10 (split_lines t []) c_init ;; finish_config c.

End Parse.
