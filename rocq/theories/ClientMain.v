(** Model of the rest of the client: src/client/Settings.cpp, src/client/Settings.h, what
    src/client/unix/main.cpp does besides its loop (Client.v), src/common/output.cpp and
    src/common/expand_path.h.

    The file system, the environment variables and wordexp are oracles.  Not modelled: the menu of
    the tray icon itself, what is written to the standard output, starting terminal commands. *)
From Coq Require Import String Ascii List Arith NArith ZArith Bool.
From Verif Require Import Base Key Text KeyNames ParseSeq Stage Config Serial Client.
Import ListNotations.
Local Open Scope N_scope.

(** * Settings *)

(** client/Settings.h:8-15; an empty path is none *)
Record settings : Type := Settings {
  se_config : text;
  se_update : bool;
  se_verbose : bool;
  se_check : bool;
  se_no_tray : bool;
  se_no_notify : bool
}.
Definition no_settings : settings := Settings [] false false false false false.

(** client/Settings.cpp:16-48 without the name of the program; None is false *)
Fixpoint interpret_commandline (args : list text) (s : settings) : option settings :=
  match args with
  | [] => Some s
  | a :: r =>
      if text_eqb a (T "-u") || text_eqb a (T "--update") then
        interpret_commandline r (Settings (se_config s) true (se_verbose s) (se_check s) (se_no_tray s) (se_no_notify s))
      else if text_eqb a (T "-c") || text_eqb a (T "--config") then
        match r with
        | [] => None
        | p :: r => interpret_commandline r (Settings p (se_update s) (se_verbose s) (se_check s) (se_no_tray s) (se_no_notify s))
        end
      else if text_eqb a (T "-v") || text_eqb a (T "--verbose") then
        interpret_commandline r (Settings (se_config s) (se_update s) true (se_check s) (se_no_tray s) (se_no_notify s))
      else if text_eqb a (T "--check") then
        interpret_commandline r (Settings (se_config s) (se_update s) (se_verbose s) true (se_no_tray s) (se_no_notify s))
      else if text_eqb a (T "--no-tray") then
        interpret_commandline r (Settings (se_config s) (se_update s) (se_verbose s) (se_check s) true (se_no_notify s))
      else if text_eqb a (T "--no-notify") then
        interpret_commandline r (Settings (se_config s) (se_update s) (se_verbose s) (se_check s) (se_no_tray s) true)
      else None
  end.

(** client/Settings.h:24-38; the options are known by their names (ParseConfig.cpp:466-475) *)
Definition apply_option (s : settings) (o : text) : settings :=
  if text_eqb o (T "update") then
    Settings (se_config s) true (se_verbose s) (se_check s) (se_no_tray s) (se_no_notify s)
  else if text_eqb o (T "no-update") then
    Settings (se_config s) false (se_verbose s) (se_check s) (se_no_tray s) (se_no_notify s)
  else if text_eqb o (T "verbose") then
    Settings (se_config s) (se_update s) true (se_check s) (se_no_tray s) (se_no_notify s)
  else if text_eqb o (T "no-tray") then
    Settings (se_config s) (se_update s) (se_verbose s) (se_check s) true (se_no_notify s)
  else if text_eqb o (T "no-notify") then
    Settings (se_config s) (se_update s) (se_verbose s) (se_check s) (se_no_tray s) true
  else s.
Definition apply_config_options (s : settings) (c : config) : settings :=
  fold_left apply_option (cfg_options c) s.

(** * Output *)

(** output.cpp:36-37: the characters which fit into the buffer *)
Definition printed (t : text) : text := firstn (N.to_nat 2047) t.

(** config/StringTyper.h:30-37 when [from] is one character *)
Definition replace_all (from : ascii) (to t : text) : text :=
  flat_map (fun c => if Ascii.eqb c from then to else [c]) t.

Definition backslash : ascii := ascii_of_N 92.
Definition quote : ascii := ascii_of_N 34.

(** unix/main.cpp:39-50: the command passed to std::system *)
Definition show_notification (t : text) : text :=
  let escaped := replace_all backslash [backslash; backslash; backslash] t in
  let escaped := replace_all quote [backslash; quote] escaped in
  T "notify-send -a keymapper keymapper " ++ [quote] ++ escaped ++ [quote].

(** g_verbose_output, whether g_show_notification is set and whether g_show_message_box is
    (output.cpp:8-10) *)
Record outputs : Type := Out { ou_verbose : bool; ou_notification : bool; ou_box : bool }.

(** output.cpp:33-75: the commands which are run (unix/main.cpp:235-237: the message box is a
    notification) *)
Definition vprint (o : outputs) (t : text) (notify is_verbose : bool) : list text :=
  let b := printed t in
  if is_verbose then []
  else if notify && ou_notification o then [show_notification b]
  else if ou_box o then [show_notification b]
  else [].
(** output.cpp:82-110 *)
Definition message (o : outputs) (t : text) : list text := vprint o t false false.
Definition notify (o : outputs) (t : text) : list text := vprint o t true false.
Definition error (o : outputs) (t : text) : list text := vprint o t true false.
Definition verbose (o : outputs) (t : text) : list text :=
  if ou_verbose o then vprint o t false true else [].

(** ClientState.cpp:223-248: the commands by which what the client shows is shown *)
Definition shown_commands (o : outputs) (t : list ceffect) : list text :=
  flat_map (fun e => match e with FShow x => message o x | _ => [] end) t.

(** unix/main.cpp:67-74: the command passed to std::system to open a file *)
Definition open_command (file : text) : text := T "xdg-open " ++ file.

(** * Paths *)

Definition slash : ascii := ascii_of_N 47.
(** std::filesystem::path::operator/ on paths of which the second is relative *)
Definition join (a b : text) : text :=
  match a with
  | [] => b
  | _ => if Ascii.eqb (last a slash) slash then a ++ b else a ++ [slash] ++ b
  end.
(** std::filesystem::absolute *)
Definition absolute (cwd p : text) : text :=
  match p with
  | c :: _ => if Ascii.eqb c slash then p else join cwd p
  | [] => []
  end.
Record environment : Type := Env {
  en_home : text;                   (* get_home_path, unix/main.cpp:170-174 *)
  en_xdg : option text;             (* XDG_CONFIG_HOME *)
  en_cwd : text;
  en_exists : text -> bool
}.
Definition default_config_filename : text := T "keymapper.conf".
(** unix/main.cpp:176-180 *)
Definition get_config_path (e : environment) : text :=
  match en_xdg e with Some d => d | None => join (en_home e) (T ".config") end.
(** unix/main.cpp:189-200 *)
Fixpoint search_bases (e : environment) (l : list text) : option text :=
  match l with
  | [] => None
  | b :: r =>
      let p := join b default_config_filename in
      let q := join (join b (T "keymapper")) default_config_filename in
      if en_exists e p then Some p
      else if en_exists e q then Some q
      else search_bases e r
  end.
(** unix/main.cpp:182-206 *)
Definition resolve_config_file_path (e : environment) (name : text) : text :=
  match name with
  | _ :: _ => absolute (en_cwd e) name
  | [] =>
      match search_bases e [get_config_path e; T "/etc/"] with
      | Some p => p
      | None =>
          if negb (en_exists e default_config_filename)
          then join (get_config_path e) default_config_filename
          else absolute (en_cwd e) default_config_filename
      end
  end.

(** expand_path.h:9-15: [wordexp] gives the words, None when it fails.  The result None is reading
    from a null pointer. *)
Definition expand_path (wordexp : text -> option (list text)) (t : text) : option text :=
  match wordexp t with
  | Some (w :: _) => Some w
  | Some [] => None
  | None => None
  end.
(** ParseConfig.cpp:409-411 *)
Definition include_path (wordexp : text -> option (list text)) (base t : text) : option text :=
  match expand_path wordexp t with
  | Some (c :: p) => Some (if Ascii.eqb c slash then c :: p else join base (c :: p))
  | Some [] => Some (join base [])
  | None => None
  end.

(** * The program *)

(** unix/main.cpp:33-37: g_settings, what update_options sets, and the client *)
Record program : Type := Prog {
  ap_settings : settings;
  ap_update : bool;                 (* g_auto_update_config *)
  ap_outputs : outputs;
  ap_tray : bool;
  ap_client : client
}.
Definition with_client (c : client) (a : program) : program :=
  Prog (ap_settings a) (ap_update a) (ap_outputs a) (ap_tray a) c.

(** unix/main.cpp:52-61 *)
Definition update_options (a : program) : program :=
  let s := apply_config_options (ap_settings a) (cl_config (ap_client a)) in
  Prog (ap_settings a) (se_update s)
    (Out (se_verbose s) (negb (se_no_notify s)) (ou_box (ap_outputs a)))
    (negb (se_no_tray s)) (ap_client a).

Section App.
Variable search : text -> text -> bool.
Variable typer : text -> list stroke.
Variable key_name : key -> option text.
Variable system : text.
Variable sent : nat -> bool.
Variable focus : nat -> option window.
Variable disk : nat -> files.

(** unix/main.cpp:118-138: a turn of the loop, [tu_auto] of the turn is not used *)
Definition app_turn (t : turn) (a : program) : bool * program :=
  let rest (a : program) :=
    let '(ok, c) := loop_turn search typer key_name system sent focus disk
      (Turn false (tu_server t) (tu_accept t) (tu_control t)) (ap_client a) in
    (ok, with_client c a) in
  if ap_update a then
    let '(changed, c) := update_file disk true (ap_client a) in
    if changed then
      let '(ok, c) := send_config search sent focus c in
      if ok then rest (update_options (with_client c a)) else (false, with_client c a)
    else rest (with_client c a)
  else rest a.

(** unix/main.cpp:145-157: connected anew; false when the program ends *)
Definition app_connect (a : program) : bool * program :=
  let '(ok, c) := connect search sent focus (ap_client a) in
  if ok then (true, update_options (with_client c a)) else (false, with_client c a).

(** A turn of the loop or the tray icon (unix/main.cpp:63-65, 91-99) *)
Definition app_step (s : cstep) (a : program) : bool * program :=
  match s with
  | CTurn t =>
      let '(ok, a) := app_turn t a in
      if ok then (true, a)
      else app_connect (with_client (on_server_disconnected (ap_client a)) a)
  | CReload =>
      (true, update_options (with_client
        (snd (client_step search typer key_name system sent focus disk CReload (ap_client a))) a))
  | s => (true, with_client (snd (client_step search typer key_name system sent focus disk s (ap_client a))) a)
  end.
(** unix/main.cpp:140-168; None when the program has ended *)
Fixpoint app_run (l : list cstep) (a : program) : option program :=
  match l with
  | [] => Some a
  | s :: r => let '(ok, a') := app_step s a in if ok then app_run r a' else None
  end.

(** How the program ends before its loop, or the state with which it enters it *)
Inductive started : Type :=
| Exits (code : N)
| Runs (a : program).
(** unix/main.cpp:222-259 *)
Definition app_main (e : environment) (args : list text) : started :=
  match interpret_commandline args no_settings with
  | None => Exits 1
  | Some s =>
      let s := Settings (resolve_config_file_path e (se_config s)) (se_update s) (se_verbose s)
                 (se_check s) (se_no_tray s) (se_no_notify s) in
      let '(ok, c) := load_config disk (se_config s) new_client in
      if se_check s then Exits (if ok then 0 else 1)
      else if negb ok && se_no_tray s then Exits 1
      else
        let '(ok, a) := app_connect (Prog s false (Out (se_verbose s) (negb (se_no_notify s)) true) false c) in
        if ok then Runs a else Exits 1
  end.
End App.
