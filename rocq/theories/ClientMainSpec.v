(** What the program keymapper promises about its options, its files and its notifications:
    the command line, the options in effect, the places where the configuration is looked for,
    and how a shell reads a command. *)
From Coq Require Import String Ascii List Arith NArith ZArith Bool.
From Verif Require Import Base Key Text KeyNames ParseSeq Stage Config Serial Client ClientMain.
Import ListNotations.
Local Open Scope N_scope.

(** * The shell (POSIX.1-2017, Shell Command Language, 2.2 and 2.6) *)

Definition chr (n : N) : ascii := ascii_of_N n.
Definition dollar : ascii := chr 36.
Definition backquote : ascii := chr 96.
Definition newline : ascii := chr 10.

Definition one_of (l : text) (c : ascii) : bool := existsb (Ascii.eqb c) l.
Definition in_range (a b : N) (c : ascii) : bool := (a <=? N_of_ascii c) && (N_of_ascii c <=? b).
(** what makes a dollar sign an expansion: names, digits, special parameters, brackets *)
Definition expands (c : ascii) : bool :=
  in_range 65 90 c || in_range 97 122 c || in_range 48 57 c || one_of (T "_@*#?-$!({") c.

(** What follows an opening double quote: the text up to the closing one and what comes after it,
    something which the shell executes or replaces, or no closing quote. *)
Inductive quoted : Type :=
| QText (value rest : text)
| QExpanded
| QOpen.
Definition add (c : ascii) (q : quoted) : quoted :=
  match q with QText v r => QText (c :: v) r | _ => q end.
Fixpoint in_quotes (t : text) : quoted :=
  match t with
  | [] => QOpen
  | c :: r =>
      if Ascii.eqb c quote then QText [] r
      else if Ascii.eqb c backquote then QExpanded
      else if Ascii.eqb c dollar then
        match r with
        | d :: _ => if expands d then QExpanded else add c (in_quotes r)
        | [] => QOpen
        end
      else if Ascii.eqb c backslash then
        match r with
        | [] => QOpen
        | d :: r' =>
            if Ascii.eqb d newline then in_quotes r'
            else if one_of [dollar; backquote; quote; backslash] d then add d (in_quotes r')
            else add c (in_quotes r)
        end
      else add c (in_quotes r)
  end.

(** The command shows a notification, the argument of which is read like this. *)
Definition notification (command : text) (q : quoted) : Prop :=
  exists t, command = T "notify-send -a keymapper keymapper " ++ quote :: t /\ in_quotes t = q.
(** It shows the text and does nothing else. *)
Definition just_shows (command t : text) : Prop := notification command (QText t []).

(** Without backslashes: something the shell executes or replaces *)
Definition has_expansion (t : text) : Prop :=
  In backquote t \/ exists p d r, t = p ++ dollar :: d :: r /\ expands d = true.

(** Characters without a meaning to the shell, and what separates words *)
Definition blank (c : ascii) : bool := one_of [chr 32; chr 9] c.
Definition plain (c : ascii) : bool :=
  in_range 65 90 c || in_range 97 122 c || in_range 48 57 c || one_of (T "_-./+,:@%") c.
(** The words of a text of such characters *)
Fixpoint words (t word : text) : list text :=
  match t with
  | [] => match word with [] => [] | _ => [word] end
  | c :: r =>
      if blank c then match word with [] => words r [] | _ => word :: words r [] end
      else words r (word ++ [c])
  end.
Definition simple_command (t : text) : option (list text) :=
  if forallb (fun c => plain c || blank c) t then Some (words t []) else None.

(** wordexp (POSIX.1-2017): the words, and failure when there is one of these characters *)
Record posix_wordexp (we : text -> option (list text)) : Prop := PosixWordexp {
  we_words : forall t, forallb (fun c => plain c || blank c) t = true -> we t = Some (words t []);
  we_fails : forall t, forallb (fun c => plain c || blank c || one_of (T "|&;<>(){}") c) t = true ->
    existsb (one_of (T "|&;<>(){}")) t = true -> we t = None
}.

(** * The command line (print_help_message, client/Settings.cpp:50-64) *)

Inductive argument : Type :=
| GUpdate | GVerbose | GCheck | GNoTray | GNoNotify
| GConfig (path : text).
Inductive spelled : argument -> list text -> Prop :=
| sp_u : spelled GUpdate [T "-u"]
| sp_update : spelled GUpdate [T "--update"]
| sp_v : spelled GVerbose [T "-v"]
| sp_verbose : spelled GVerbose [T "--verbose"]
| sp_check : spelled GCheck [T "--check"]
| sp_tray : spelled GNoTray [T "--no-tray"]
| sp_notify : spelled GNoNotify [T "--no-notify"]
| sp_c p : spelled (GConfig p) [T "-c"; p]
| sp_config p : spelled (GConfig p) [T "--config"; p].
Inductive spelled_all : list argument -> list text -> Prop :=
| sa_nil : spelled_all [] []
| sa_cons g l a r : spelled g a -> spelled_all l r -> spelled_all (g :: l) (a ++ r).
(** The path of the last one which gives one *)
Definition is_last_path (l : list argument) (p : text) : Prop :=
  (p = [] /\ forall q, ~ In (GConfig q) l) \/
  (exists a b, l = a ++ GConfig p :: b /\ forall q, ~ In (GConfig q) b).
Record means (l : list argument) (s : settings) : Prop := Means {
  me_config : is_last_path l (se_config s);
  me_update : se_update s = true <-> In GUpdate l;
  me_verbose : se_verbose s = true <-> In GVerbose l;
  me_check : se_check s = true <-> In GCheck l;
  me_tray : se_no_tray s = true <-> In GNoTray l;
  me_notify : se_no_notify s = true <-> In GNoNotify l
}.

(** * The options in effect (README.md:404-408) *)

(** The last of update and no-update counts, or the command line when there is none. *)
Definition wants_update (cmd : settings) (opts : list text) : Prop :=
  (exists p q, opts = p ++ T "update" :: q /\ ~ In (T "no-update") q) \/
  (se_update cmd = true /\ ~ In (T "no-update") opts).
Record in_effect (cmd : settings) (opts : list text) (a : program) : Prop := InEffect {
  ie_update : ap_update a = true <-> wants_update cmd opts;
  ie_verbose : ou_verbose (ap_outputs a) = true <-> se_verbose cmd = true \/ In (T "verbose") opts;
  ie_notify : ou_notification (ap_outputs a) = false <-> se_no_notify cmd = true \/ In (T "no-notify") opts;
  ie_tray : ap_tray a = false <-> se_no_tray cmd = true \/ In (T "no-tray") opts
}.
(** keymapperctl does not switch the configuration *)
Definition no_switch (s : cstep) : Prop :=
  match s with
  | CTurn t => forall socket name, ~ In (QConfig name) (fst (tu_control t socket))
  | _ => True
  end.

(** * Where the configuration is looked for (README.md:42-47) *)

(** A directory which is written without a slash at its end *)
Definition directory (d : text) : Prop := exists p c, d = p ++ [c] /\ c <> slash.
Definition within (d f : text) : text := d ++ slash :: f.
Definition both (d : text) : list text :=
  [within d (T "keymapper.conf"); within (within d (T "keymapper")) (T "keymapper.conf")].
Definition home_config (e : environment) : text := within (en_home e) (T ".config").
Definition common_places (e : environment) : list text :=
  (match en_xdg e with Some d => both d | None => [] end) ++ both (home_config e) ++ both (T "/etc").
Definition places (e : environment) : list text :=
  common_places e ++ [within (en_cwd e) (T "keymapper.conf")].
(** The first one there is *)
Definition is_first (e : environment) (l : list text) (p : text) : Prop :=
  exists a b, l = a ++ p :: b /\ en_exists e p = true /\ forall q, In q a -> en_exists e q = false.
(** Relative names are those of the working directory. *)
Definition relative_names (e : environment) : Prop :=
  en_exists e (T "keymapper.conf") = en_exists e (within (en_cwd e) (T "keymapper.conf")).

(** * Following the file (README.md:49) *)

(** What [disk] shows at one check after the other: no file is modified in the future, and whenever
    the configuration which is in use would be read differently at the next check, the file or one
    which it includes has a newer time.  Errors are corrected in the file itself. *)
Record clocked (disk : nat -> files) (name : text) (clock : nat -> Z) : Prop := Clocked {
  ck_past : forall n m, (fs_time (disk n) m <= clock n)%Z;
  ck_exists : forall n, (0 < fs_time (disk n) name)%Z;
  ck_newer : forall n g, fs_parse (disk n) name = Some g ->
    fs_parse (disk (S n)) name = Some g \/
    exists m, In m (name :: cfg_includes g) /\ (clock n < fs_time (disk (S n)) m)%Z;
  ck_fixed : forall n, fs_parse (disk n) name = None ->
    fs_parse (disk (S n)) name = None \/ (clock n < fs_time (disk (S n)) name)%Z
}.
(** Only turns which check the file, and nothing which switches to another one *)
Definition checking (s : cstep) : Prop :=
  no_switch s /\ match s with CTurn t => tu_auto t = true | _ => True end.
