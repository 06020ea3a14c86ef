(** Properties of macros and of loading a configuration (C42, C67, C68). *)
From Coq Require Import String Ascii List Arith NArith ZArith Bool Lia.
From Verif Require Import Base Key Text TextSpec TextProofs Match ParseSeq Stage Config Replay
  MacroSpec MacroTokens MacroProofs MacroCalls ConfigTerm.
Import ListNotations.
Local Open Scope nat_scope.

Definition nl : text := [ascii_of_N 10].
Definition dq : text := [ascii_of_N 34].

(** * C42 Macro expansion ends with a text or an error *)

(** Whatever the macros and the text are, no loop of the preprocessor runs forever. *)
Theorem C42_terminates_partial : forall m t, preprocess m t <> PFuel.
Proof. intros m t E. pose proof (preprocess_ends m t) as H. now rewrite E in H. Qed.
Print Assumptions C42_terminates_partial.

(** A text without calls expands to a text or is rejected: nothing is undefined. *)
Theorem C42_plain_partial : forall m t,
  ~ In "["%char t -> (forall n v, find_macro m n = Some v -> ~ In "["%char v) ->
  (exists x, preprocess m t = POk x) \/ preprocess m t = PErr.
Proof.
  intros m t N M. pose proof (no_calls_defined m M 30 t N) as D. unfold preprocess.
  destruct (preprocess_str m 30 t) as [x| | |]; try easy; [left; now exists x|now right].
Qed.
Print Assumptions C42_plain_partial.

(** Macros which use each other in a circle (any set of macros each of which uses one
    of the set) never expand to a text. *)
Theorem C42_recursive : forall m (R : text -> Prop),
  (forall n, R n -> exists v l n', find_macro m n = Some v /\ words v l /\ In n' l /\ R n') ->
  (forall n, R n -> n <> [] /\ Forall (fun c => is_ident_char c = true) n) ->
  forall t l n, words t l -> In n l -> R n -> forall x, preprocess m t <> POk x.
Proof.
  intros m R H I t l n W Hn Rn. destruct (recursive_fails m R H I 30) as [_ A].
  now apply (A t l n).
Qed.
Print Assumptions C42_recursive.

(** The circle a = b c, b = !a *)
Definition circle : macros := [(T "a", T "b c"); (T "b", T "!a")].
Lemma word1 : forall t, Forall (fun c => is_ident_char c = true) t -> t <> [] ->
  words t [t].
Proof.
  intros t F N. rewrite <- (app_nil_r t) at 1. apply words_ident; try easy. constructor.
Qed.
Example circle_fails : forall x, preprocess circle (T "x b") <> POk x.
Proof.
  apply (C42_recursive circle (fun n => n = T "a" \/ n = T "b")) with (l := [T "x"; T "b"]) (n := T "b").
  - intros n [->| ->].
    + exists (T "b c"), [T "b"; T "c"], (T "b"). repeat split; [|now left|now right].
      apply (words_ident (T "b") (T " c")); [discriminate|repeat constructor|reflexivity|].
      apply words_char; [repeat split; discriminate|]. apply (word1 (T "c")); [repeat constructor|discriminate].
    + exists (T "!a"), [T "a"], (T "a"). repeat split; [|now left|now left].
      apply words_char; [repeat split; discriminate|]. apply (word1 (T "a")); [repeat constructor|discriminate].
  - intros n [->| ->]; (split; [discriminate|repeat constructor]).
  - apply (words_ident (T "x") (T " b")); [discriminate|repeat constructor|reflexivity|].
    apply words_char; [repeat split; discriminate|]. apply (word1 (T "b")); [repeat constructor|discriminate].
  - right. now left.
  - now right.
Qed.
Example circle_error : preprocess circle (T "x b") = PErr.
Proof. vm_compute. reflexivity. Qed.
Example plain_expands : preprocess [(T "b", T "A B"); (T "a", T "b (b C)")] (T "!a a") =
  POk (T "!A B (A B C) A B (A B C)").
Proof. vm_compute. reflexivity. Qed.

(** The claim does not hold for every text: the results of the arithmetic macros and the
    numbers of parameters are computed as int. *)
Theorem C42_refuted : exists m t t',
  preprocess m t = PUB /\ preprocess [] t' = PUB.
Proof.
  exists [(T "m", T "$9999999999")], (T "m[A]"), (T "mul[65536, 65536]"). split; vm_compute; reflexivity.
Qed.
Print Assumptions C42_refuted.

(** * C67 Loading a configuration ends *)

(** A configuration none of whose lines (nor those of included files) defines a key
    without a name is loaded or rejected, for every keyboard layout, every judgement about
    regular expressions, any contents of included files and every system. *)
Theorem C67_partial : forall typer regex_ok read_file current_system t,
  (forall f lines, read_file f = Some lines -> Forall named_line (skip_bom lines)) ->
  Forall named_line (skip_bom (split_lines t [])) ->
  parse_config typer regex_ok read_file current_system t <> PFuel.
Proof.
  intros typer ro rf cs t F H E.
  pose proof (parse_config_ends typer ro rf cs F t H) as K. now rewrite E in K.
Qed.
Print Assumptions C67_partial.

Definition includes_itself : text := T "@include " ++ dq ++ T "f" ++ dq ++ nl ++ T "A >> B".
Definition self_file (f : text) : option (list text) :=
  if text_eqb f (T "f") then Some (split_lines includes_itself []) else None.
Example C67_case :
  Forall named_line (skip_bom (split_lines includes_itself [])) /\
  (forall f lines, self_file f = Some lines -> Forall named_line (skip_bom lines)) /\
  parse_config generic_typer parens_ok self_file (T "Linux") includes_itself = PErr.
Proof.
  split; [|split]; [repeat constructor; discriminate| |vm_compute; reflexivity].
  intros f lines H. unfold self_file in H. destruct (text_eqb f (T "f")); [|discriminate].
  injection H as <-. repeat constructor; discriminate.
Qed.

(** Without a name: the list of modifiers never gets beyond the plus sign, however many
    rounds the loop is given. *)
Lemma plus_never_ends : forall l k, find_logical [] l = Some k ->
  lk_both k <> k_none -> lk_both k <> k_ContextActive ->
  forall f acc, modifier_loop f l (T "+") acc = PFuel.
Proof.
  intros l k F N1 N2. induction f as [|f IH]; intros acc; [reflexivity|].
  assert (E : modifier_loop (S f) l (T "+") acc =
    let k := cfg_key_by_name l [] in
    if (k =? 0)%N || (k =? k_ContextActive)%N then PErr
    else modifier_loop f l (T "+") (if contains_key acc k then acc else acc ++ [ev0 k Down]))
    by reflexivity.
  rewrite E. cbn zeta. unfold cfg_key_by_name. rewrite F. change (get_key_by_name []) with 0%N. cbn iota.
  destruct (N.eqb_spec (lk_both k) 0) as [X|_]; [easy|].
  destruct (N.eqb_spec (lk_both k) k_ContextActive) as [X|_]; [easy|]. apply IH.
Qed.

Definition nameless : text := T "= A | B" ++ nl ++ T "[modifier=" ++ dq ++ T "+" ++ dq ++ T "]".
(** The first line defines a logical key without a name, the modifier list of the second
    line then loops forever. *)
Theorem C67_refuted : exists t c,
  parse_file generic_typer parens_ok (fun _ => None) (T "Linux") 10
    (firstn 1 (split_lines t [])) c_init = POk c /\
  (forall fuel acc, modifier_loop fuel (c_logical c) (T "+") acc = PFuel) /\
  parse_config generic_typer parens_ok (fun _ => None) (T "Linux") t = PFuel.
Proof.
  exists nameless. eexists. split; [vm_compute; reflexivity|]. split; [|vm_compute; reflexivity].
  eapply plus_never_ends; [reflexivity|discriminate|discriminate].
Qed.
Print Assumptions C67_refuted.

(** * C68 A macro gets the texts between the commas and puts them in place of its parameters *)

(** The arguments of a call are the texts between the commas which are not within strings
    or nested argument lists, without the space around them.  Missing: strings following
    each other without anything between them. *)
Theorem C68_arguments_partial : forall args, args <> [] -> Forall (argument true) args ->
  exists l, get_argument_list (arglist args) = POk l /\ Forall2 trimmed args l.
Proof.
  intros args N H. exists (map trim args). split; [now apply arguments_split|].
  clear. induction args as [|a args IH]; constructor; [apply trim_trimmed|exact IH].
Qed.
Print Assumptions C68_arguments_partial.

(** In the text of the macro each `$n` is replaced by the n-th argument without its quotes
    (or nothing), and `$$` by the number of arguments; all else stays. *)
Theorem C68_parameters : forall args ps,
  (N.of_nat (length args) < 10 ^ 40)%N -> parts_ok ps ->
  exists rs, Forall2 (instance args) ps rs /\
             substitute_arguments (body_text ps) args = POk (concat rs).
Proof.
  intros args ps B Ok. unfold substitute_arguments.
  apply (substitute_parts args B ps []); [easy|exact Ok|cbn; lia].
Qed.
Print Assumptions C68_parameters.

(** Altogether: a call with arguments apart expands like the text of the macro with the
    expanded arguments in place of the parameters. *)
Theorem C68_call_partial : forall m level name args vals ps,
  name <> [] -> Forall (fun c => is_ident_char c = true) name ->
  args <> [] -> Forall (argument true) args ->
  Forall2 (fun a v => preprocess_str m level (trim a) = POk v) args vals ->
  find_macro m name = Some (body_text ps) -> parts_ok ps -> (N.of_nat (length vals) < 10 ^ 40)%N ->
  exists rs, Forall2 (instance vals) ps rs /\
    forall b, piece true b (concat rs) -> ~ In "$"%char (concat rs) ->
    preprocess_str m (S level) (name ++ arglist args) = preprocess_str m level (concat rs).
Proof. exact macro_call. Qed.
Print Assumptions C68_call_partial.

(** swap = $1 $0 ($$), called with `"x, y"` and `[b]` *)
Definition swap : macros := [(T "swap", T "$1 $0 ($$)")].
Definition swap_parts : list part :=
  [PArg (T "1"); PLit (T " "); PArg (T "0"); PLit (T " ("); PCount; PLit (T ")")].
Definition swap_args : list text := [dq ++ T "x, y" ++ dq; T " f[a,b]"].
Lemma plain_char : forall b c r, is_quote c = false -> c <> "["%char -> c <> "]"%char ->
  (b = false -> c <> ","%char) -> piece true b r -> piece true b (c :: r).
Proof. intros b c r Q. apply piece_char. unfold quotes. now rewrite Q. Qed.
Example C68_args : Forall (argument true) swap_args /\ parts_ok swap_parts /\
  T "$1 $0 ($$)" = body_text swap_parts /\
  get_argument_list (arglist swap_args) = POk [dq ++ T "x, y" ++ dq; T "f[a,b]"] /\
  preprocess swap (T "swap" ++ arglist [dq ++ T "x, y" ++ dq; T " A "]) = POk (T "A x, y (2)").
Proof.
  split; [|split; [|split; [reflexivity|split; vm_compute; reflexivity]]].
  - constructor; [|constructor; [|constructor]].
    + apply (piece_string true false (ascii_of_N 34) (T "x, y") []); [reflexivity| |easy|constructor].
      vm_compute. intuition discriminate.
    + unfold argument. cbn. do 2 (apply plain_char; [reflexivity|discriminate|discriminate|intros _; discriminate|]).
      apply (piece_list true false (T "a,b") []); [|constructor].
      apply plain_char; [reflexivity|discriminate|discriminate|discriminate|].
      apply plain_char; [reflexivity|discriminate|discriminate|discriminate|].
      apply plain_char; [reflexivity|discriminate|discriminate|discriminate|]. constructor.
  - vm_compute. intuition (try discriminate). all: repeat constructor.
Qed.

(** Strings following each other: the comma after them is taken for a part of a string. *)
Theorem C68_refuted : exists args l,
  Forall (argument false) args /\ length args = 2 /\
  get_argument_list (arglist args) = POk l /\ length l = 1.
Proof.
  exists [dq ++ T "a" ++ dq ++ dq ++ T "b" ++ dq; dq ++ dq]. eexists.
  split; [|split; [reflexivity|split; [vm_compute; reflexivity|reflexivity]]].
  assert (Q : quotes (ascii_of_N 34)) by reflexivity.
  constructor; [|constructor; [|constructor]].
  - apply (piece_string false false (ascii_of_N 34) (T "a") (dq ++ T "b" ++ dq)); [exact Q| |easy|].
    + vm_compute. intuition discriminate.
    + apply (piece_string false false (ascii_of_N 34) (T "b") []); [exact Q| |easy|constructor].
      vm_compute. intuition discriminate.
  - apply (piece_string false false (ascii_of_N 34) [] []); [exact Q|easy|easy|constructor].
Qed.
Print Assumptions C68_refuted.
