(** Properties C90 to C96 of the program keymapper, with their assumptions and a non-trivial
    instance beside each. *)
From Coq Require Import String Ascii List Arith NArith ZArith Bool Lia.
From Verif Require Import Base Key Text KeyNames Match ParseSeq Stage Config MultiStage Replay StageProperties
  Serial Client ClientSpec ClientProofs ClientProperties ClientMain ClientMainSpec ClientMainProofs.
Import ListNotations.
Local Open Scope N_scope.

(** ** The program for the examples *)

Definition one_home : environment :=
  Env (T "/home/me") None (T "/work") (fun p => text_eqb p (T "/home/me/.config/keymapper/keymapper.conf")).
(** Each file named [main] or keymapper.conf is the one, the file b the other one. *)
Definition read_lines (main b : list string) : files :=
  let read (l : list string) :=
    match parse_config generic_typer parens_ok
      (fun n => if text_eqb n (T "b") then Some (map T b) else None) (T "Linux") (T (lines l)) with
    | POk c => Some c
    | _ => None
    end in
  FS (fun _ => 5%Z) (fun n => if text_eqb n (T "b") then read b else read main).
Definition at_times (m b : Z) (f : files) : files :=
  FS (fun n => if text_eqb n (T "b") then b else m) (fs_parse f).
Definition begin_at (disk : nat -> files) (e : environment) (args : list string) : started :=
  app_main find_sub (fun _ => true) windows disk e (map T args).
Definition go_on (disk : nat -> files) (l : list cstep) (s : started) : option program :=
  match s with
  | Runs a => app_run find_sub no_typer no_names (T "Linux") (fun _ => true) windows disk l a
  | Exits _ => None
  end.
Definition window_titled (t : text) (n : nat) : option window :=
  match n with O => Some (Win (T "Term") t []) | _ => None end.

(** ** C90 Notifications *)

(** A message without backslashes is shown as it is exactly when the shell finds nothing to expand
    in it.  Missing: messages with backslashes, and the others, for which it is false. *)
Theorem C90_shown_partial : forall o t, ~ In backslash t -> ou_box o = true ->
  exists command, message o t = [command] /\ notify o t = [command] /\ error o t = [command] /\
    verbose o t = [] /\ (just_shows command (printed t) <-> ~ has_expansion (printed t)).
Proof.
  intros o t HB B. exists (show_notification (printed t)).
  unfold message, notify, error, vprint. rewrite B.
  split; [destruct (ou_notification o); reflexivity|].
  split; [destruct (ou_notification o); reflexivity|].
  split; [destruct (ou_notification o); reflexivity|].
  split; [unfold verbose; destruct (ou_verbose o); reflexivity|].
  apply show_just. intros K. apply HB. unfold printed in K.
  rewrite <- (firstn_skipn (N.to_nat 2047) t). apply in_or_app. left. exact K.
Qed.
Print Assumptions C90_shown_partial.

Example C90_case :
  let t := T "Unknown key 'Foo ""$' in line 3" in
  ~ In backslash t /\ ~ has_expansion (printed t) /\ printed t = t /\
  just_shows (show_notification t) t.
Proof.
  cbv zeta.
  assert (HB : ~ In backslash (T "Unknown key 'Foo ""$' in line 3")).
  { intros K. cbn in K. repeat (destruct K as [K|K]; [discriminate K|]). exact K. }
  assert (SH : just_shows (show_notification (T "Unknown key 'Foo ""$' in line 3")) (T "Unknown key 'Foo ""$' in line 3")).
  { eexists. split; [reflexivity|]. vm_compute. reflexivity. }
  split; [exact HB|]. split; [|split; [reflexivity|exact SH]].
  change (printed (T "Unknown key 'Foo ""$' in line 3")) with (T "Unknown key 'Foo ""$' in line 3").
  exact (proj1 (show_just _ HB) SH).
Qed.

(** The title of a window which asks for a command: it is executed when the user asks for
    information about the next key. *)
Theorem C90_executed_refuted : exists title a' command,
  match app_main find_sub (fun _ => true) (window_titled title) always one_home [] with
  | Runs a => app_run find_sub no_typer no_names (T "Linux") (fun _ => true) (window_titled title) always
      [CNextKeyRequest; one_turn [DNextKeyInfo 30 [] []] None nothing] a
  | Exits _ => None
  end = Some a' /\
  shown_commands (ap_outputs a') (cl_trace (ap_client a')) = [command] /\
  notification command QExpanded.
Proof.
  exists (T "$(reboot)"). eexists. eexists.
  split; [vm_compute; reflexivity|]. split; [vm_compute; reflexivity|].
  eexists. split; [reflexivity|]. vm_compute. reflexivity.
Qed.
Print Assumptions C90_executed_refuted.

(** A backslash in front of a quote ends the argument, what follows is a command of its own. *)
Theorem C90_quote_refuted : exists t value rest,
  notification (show_notification t) (QText value (T ";reboot;" ++ rest)).
Proof.
  exists ([backslash; quote] ++ T ";reboot;" ++ [backslash; quote]), [backslash; backslash],
    ([backslash; backslash; backslash; backslash; quote; quote]).
  eexists. split; [reflexivity|]. vm_compute. reflexivity.
Qed.
Print Assumptions C90_quote_refuted.

(** Backslashes are shown twice. *)
Theorem C90_backslash_refuted : exists t, just_shows (show_notification t) (T "a\\b") /\ t = T "a\b".
Proof.
  exists (T "a\b"). split; [|reflexivity]. eexists. split; [reflexivity|]. vm_compute. reflexivity.
Qed.
Print Assumptions C90_backslash_refuted.

(** ** C91 The options in effect *)

Theorem C91_commandline : forall args,
  (forall s, interpret_commandline args no_settings = Some s -> exists l, spelled_all l args /\ means l s) /\
  (interpret_commandline args no_settings = None <-> ~ exists l, spelled_all l args).
Proof. intros args. split; [exact (commandline args)|exact (commandline_refused args)]. Qed.
Print Assumptions C91_commandline.

Example C91_commandline_case :
  interpret_commandline (map T ["-u"; "-c"; "-v"; "--no-notify"; "--config"; "x"]%string) no_settings =
    Some (Settings (T "x") true false false false true) /\
  interpret_commandline [T "-u"; T "-c"] no_settings = None /\
  interpret_commandline [T "--help"] no_settings = None.
Proof. vm_compute. repeat split; reflexivity. Qed.

(** The options in effect are those of the command line and of the configuration which is in use.
    Missing: switching the configuration with keymapperctl, for which it is false. *)
Theorem C91_options_partial : forall search typer key_name system sent focus disk e args a l a',
  app_main search sent focus disk e args = Runs a -> Forall no_switch l ->
  app_run search typer key_name system sent focus disk l a = Some a' ->
  exists cmd, interpret_commandline args no_settings = Some cmd /\
    in_effect cmd (cfg_options (cl_config (ap_client a'))) a'.
Proof.
  intros search typer key_name system sent focus disk e args a l a' HM HL HR.
  destruct (main_fine search sent focus disk e args a HM) as (cmd & K & S0 & F).
  exists cmd. split; [exact K|].
  destruct (fine_run search typer key_name system sent focus disk _ l HL a a' F HR) as [_ _ X].
  rewrite S0 in X. destruct X as [U V N0 T0]. split; assumption.
Qed.
Print Assumptions C91_options_partial.

(** The program is the client of Client.v which checks the file when its options say so. *)
Theorem C91_client : forall search typer key_name system sent focus disk l a a',
  app_run search typer key_name system sent focus disk l a = Some a' ->
  exists bs, length bs = length l /\
    client_run search typer key_name system sent focus disk
      (map (fun x => with_auto (fst x) (snd x)) (combine bs l)) (ap_client a) = ap_client a'.
Proof. intros. eapply app_run_client. eassumption. Qed.
Print Assumptions C91_client.

(** The configuration asks for updates, and at the second check for no tray icon instead. *)
Definition options_change (n : nat) : files :=
  match n with
  | 0%nat => read_lines ["@options update verbose"; "A >> B"]%string []
  | _ => at_times 6 6 (read_lines ["@options no-update no-tray"; "A >> B"]%string [])
  end.
Definition quiet_turn : cstep := one_turn [] None nothing.
Example C91_case :
  option_map (fun a => (ap_update a, ou_verbose (ap_outputs a), ap_tray a))
    (go_on options_change [] (begin_at options_change one_home [])) = Some (true, true, true) /\
  option_map (fun a => (ap_update a, ou_verbose (ap_outputs a), ap_tray a))
    (go_on options_change [quiet_turn; quiet_turn] (begin_at options_change one_home [])) = Some (false, false, false) /\
  Forall no_switch [quiet_turn; quiet_turn].
Proof.
  split; [vm_compute; reflexivity|]. split; [vm_compute; reflexivity|].
  repeat constructor; intros socket name [].
Qed.

(** After keymapperctl has switched to the file b, the option in it is not in effect. *)
Definition two_files (_ : nat) : files := read_lines ["A >> B"]%string ["@options update"; "A >> X"]%string.
Definition switch_to_b : list cstep :=
  [one_turn [] (Some 1) nothing; one_turn [] None (asks 1 [QConfig (T "b")]); quiet_turn].
Theorem C91_switch_refuted : exists disk l a', go_on disk l (begin_at disk one_home []) = Some a' /\
  wants_update no_settings (cfg_options (cl_config (ap_client a'))) /\ ap_update a' = false.
Proof.
  exists two_files, switch_to_b. eexists. split; [vm_compute; reflexivity|].
  split; [|vm_compute; reflexivity].
  left. exists [], []. split; [vm_compute; reflexivity|intros []].
Qed.
Print Assumptions C91_switch_refuted.

(** ** C92 Where the configuration is looked for *)

(** The first file there is, in the order of the documentation, and otherwise the one which is
    going to be created.  Missing: XDG_CONFIG_HOME is set and there is a file in .config of the home
    directory, for which it is false. *)
Theorem C92_place_partial : forall e, directory (en_home e) -> directory (en_cwd e) -> relative_names e ->
  (forall d, en_xdg e = Some d -> directory d /\ forall q, In q (both (home_config e)) -> en_exists e q = false) ->
  let p := resolve_config_file_path e [] in
  is_first e (places e) p \/
  (p = within (match en_xdg e with Some d => d | None => home_config e end) (T "keymapper.conf") /\
   forall q, In q (places e) -> en_exists e q = false).
Proof. exact resolve_default. Qed.
Print Assumptions C92_place_partial.

Example C92_case :
  directory (en_home one_home) /\ directory (en_cwd one_home) /\ relative_names one_home /\
  resolve_config_file_path one_home [] = T "/home/me/.config/keymapper/keymapper.conf" /\
  resolve_config_file_path one_home (T "x/y.conf") = T "/work/x/y.conf".
Proof.
  split; [exists (T "/home/m"), "e"%char; split; [reflexivity|discriminate]|].
  split; [exists (T "/wor"), "k"%char; split; [reflexivity|discriminate]|].
  split; [reflexivity|]. split; vm_compute; reflexivity.
Qed.

Theorem C92_given : forall e p, directory (en_cwd e) -> p <> [] ->
  resolve_config_file_path e p = match p with c :: _ => if Ascii.eqb c slash then p else within (en_cwd e) p | [] => [] end.
Proof.
  intros e p D NE. destruct p as [|c r]; [congruence|].
  cbn [resolve_config_file_path absolute]. destruct (Ascii.eqb c slash); [reflexivity|apply join_within; exact D].
Qed.
Print Assumptions C92_given.

(** XDG_CONFIG_HOME is set, the only file is in .config of the home directory: it is not found. *)
Theorem C92_home_refuted : exists e p, is_first e (places e) p /\
  directory (en_home e) /\ directory (en_cwd e) /\ relative_names e /\ (exists d, en_xdg e = Some d /\ directory d) /\
  resolve_config_file_path e [] <> p.
Proof.
  exists (Env (T "/home/me") (Some (T "/data")) (T "/work")
            (fun p => text_eqb p (T "/home/me/.config/keymapper.conf"))).
  exists (T "/home/me/.config/keymapper.conf").
  split; [apply first_skip; [reflexivity|]; apply first_skip; [reflexivity|]; apply first_here; reflexivity|].
  split; [exists (T "/home/m"), "e"%char; split; [reflexivity|discriminate]|].
  split; [exists (T "/wor"), "k"%char; split; [reflexivity|discriminate]|].
  split; [reflexivity|].
  split; [exists (T "/data"); split; [reflexivity|exists (T "/dat"), "a"%char; split; [reflexivity|discriminate]]|].
  vm_compute. discriminate.
Qed.
Print Assumptions C92_home_refuted.

(** XDG_CONFIG_HOME is set but empty, which means that it is not set (XDG Base Directory
    Specification): the file of the working directory comes first. *)
Theorem C92_empty_refuted : exists e p, en_xdg e = Some [] /\
  is_first e (both (home_config e) ++ both (T "/etc") ++ [within (en_cwd e) (T "keymapper.conf")]) p /\
  relative_names e /\ resolve_config_file_path e [] = T "keymapper.conf" /\
  p = T "/home/me/.config/keymapper.conf".
Proof.
  exists (Env (T "/home/me") (Some []) (T "/work")
            (fun p => text_eqb p (T "/home/me/.config/keymapper.conf") || text_eqb p (T "/work/keymapper.conf")
                      || text_eqb p (T "keymapper.conf"))).
  exists (T "/home/me/.config/keymapper.conf").
  split; [reflexivity|]. split; [apply first_here; reflexivity|].
  split; [reflexivity|]. split; vm_compute; reflexivity.
Qed.
Print Assumptions C92_empty_refuted.

(** ** C93 Names of files *)

(** A name without characters which mean something to the shell is the file which is included and
    the one which is opened.  Missing: names with blanks and others, for which it is false. *)
Theorem C93_named_partial : forall we base t, posix_wordexp we -> forallb plain t = true -> t <> [] ->
  include_path we base t = Some (if Ascii.eqb (hd slash t) slash then t else join base t) /\
  simple_command (open_command t) = Some [T "xdg-open"; t].
Proof.
  intros we base t P H NE. split; [|exact (open_plain t H NE)].
  unfold include_path. rewrite (expand_plain we t P H NE). destruct t; [congruence|reflexivity].
Qed.
Print Assumptions C93_named_partial.

(** A function of this kind, which shows that the assumption can be met *)
Definition simple_wordexp (t : text) : option (list text) :=
  if existsb (one_of (T "|&;<>(){}")) t then None else Some (words t []).
Lemma simple_wordexp_posix : posix_wordexp simple_wordexp.
Proof.
  split.
  - intros t H. unfold simple_wordexp.
    assert (K : existsb (one_of (T "|&;<>(){}")) t = false).
    { apply not_true_iff_false. intros K. apply existsb_exists in K. destruct K as (c & IN & K).
      rewrite forallb_forall in H. specialize (H c IN). cbv beta in H.
      unfold one_of in K. apply existsb_exists in K. destruct K as (d & D & K). apply Ascii.eqb_eq in K. subst d.
      cbn in D. repeat (destruct D as [<-|D]; [discriminate H|]). exact D. }
    rewrite K. reflexivity.
  - intros t _ H. unfold simple_wordexp. rewrite H. reflexivity.
Qed.
Example C93_case :
  include_path simple_wordexp (T "/home/me/.config") (T "keys/de.conf") = Some (T "/home/me/.config/keys/de.conf") /\
  include_path simple_wordexp (T "/home/me/.config") (T "/etc/de.conf") = Some (T "/etc/de.conf").
Proof. vm_compute. split; reflexivity. Qed.

(** A blank in the name: another file is included, and other files are opened. *)
Theorem C93_blank_refuted : forall we, posix_wordexp we -> exists t,
  include_path we (T "/home") t = Some (T "/home/my") /\ t = T "my keys.conf" /\
  simple_command (open_command t) = Some [T "xdg-open"; T "my"; T "keys.conf"].
Proof.
  intros we P. exists (T "my keys.conf"). split; [|split; vm_compute; reflexivity].
  unfold include_path, expand_path. rewrite (we_words we P) by reflexivity. reflexivity.
Qed.
Print Assumptions C93_blank_refuted.

(** Including a name with brackets or an empty one reads from a null pointer. *)
Theorem C93_null_refuted : forall we, posix_wordexp we ->
  include_path we (T "/home") (T "keys(1).conf") = None /\ include_path we (T "/home") [] = None.
Proof.
  intros we P. unfold include_path, expand_path. split.
  - rewrite (we_fails we P) by reflexivity. reflexivity.
  - rewrite (we_words we P) by reflexivity. reflexivity.
Qed.
Print Assumptions C93_null_refuted.

(** ** C94 Following the file *)

(** With updates the configuration in use is the one which was in the file at the last check.
    Missing: changes which do not change the latest time, and errors which are corrected in an included
    file, for which it is false. *)
Theorem C94_follows_partial : forall search typer key_name system sent focus disk name clock l,
  clocked disk name clock -> name <> [] -> Forall checking l ->
  let c := client_main search typer key_name system sent focus disk name l in
  exists n, cl_updates c = S n /\ forall g, fs_parse (disk n) name = Some g -> cl_config c = g.
Proof.
  intros search typer key_name system sent focus disk name clock l CK NE HL. cbv zeta.
  assert (F : follows disk name clock (client_main search typer key_name system sent focus disk name l)).
  { unfold client_main. generalize (follows_start disk name clock CK search sent focus NE).
    destruct (start_client search sent focus disk name) as [ok c]. cbn [snd]. intros F.
    destruct ok; [|exact F]. exact (follows_run disk name clock CK search typer key_name system sent focus l HL c F). }
  destruct F as (n & U & [_ _ C0]). exists n. split; [exact U|exact C0].
Qed.
Print Assumptions C94_follows_partial.

(** The included file is changed at the second check, and the file itself has an error at the third,
    which is corrected at the fourth. *)
Definition edited (n : nat) : files :=
  match n with
  | 0%nat => at_times 5 5 (read_lines ["@include ""b"""]%string ["A >> X"]%string)
  | 1%nat => at_times 5 7 (read_lines ["@include ""b"""]%string ["A >> Y"]%string)
  | 2%nat => at_times 8 7 (read_lines ["@include ""b"""; "Foo >> X"]%string ["A >> Y"]%string)
  | _ => at_times 9 7 (read_lines ["A >> Z"]%string ["A >> Y"]%string)
  end.
Definition edited_clock (n : nat) : Z :=
  match n with 0%nat => 5 | 1%nat => 7 | 2%nat => 8 | _ => 9 end%Z.
Lemma edited_clocked : clocked edited (T "a") edited_clock.
Proof.
  split.
  - intros n m. destruct n as [|[|[|n]]]; cbn [edited edited_clock fs_time at_times];
      destruct (text_eqb m (T "b")); discriminate.
  - intros n. destruct n as [|[|[|n]]]; reflexivity.
  - intros n g H. destruct n as [|[|[|n]]].
    + right. exists (T "b"). split; [|reflexivity].
      assert (K : option_map cfg_includes (fs_parse (edited 0) (T "a")) = Some [T "b"]) by (vm_compute; reflexivity).
      rewrite H in K. injection K as ->. right. left. reflexivity.
    + right. exists (T "a"). split; [left; reflexivity|reflexivity].
    + exfalso. assert (K : fs_parse (edited 2) (T "a") = None) by (vm_compute; reflexivity). congruence.
    + left. exact H.
  - intros n H. destruct n as [|[|[|n]]].
    + exfalso. assert (K : (match fs_parse (edited 0) (T "a") with None => true | _ => false end) = false) by (vm_compute; reflexivity).
      rewrite H in K. discriminate K.
    + exfalso. assert (K : (match fs_parse (edited 1) (T "a") with None => true | _ => false end) = false) by (vm_compute; reflexivity).
      rewrite H in K. discriminate K.
    + right. reflexivity.
    + left. exact H.
Qed.
Definition checks (n : nat) : list cstep := repeat (CTurn (Turn true ([], true) None nothing)) n.
Example C94_case : Forall checking (checks 4) /\
  Some (cl_config (go edited (checks 1))) = fs_parse (edited 1) (T "a") /\
  Some (cl_config (go edited (checks 2))) = fs_parse (edited 1) (T "a") /\
  Some (cl_config (go edited (checks 4))) = fs_parse (edited 3) (T "a").
Proof.
  split; [|split; [|split]; vm_compute; reflexivity].
  repeat constructor; cbn; intros socket name [].
Qed.

(** Two changes in the same second, of which the first is seen: the second one is never seen. *)
Definition same_second (n : nat) : files :=
  match n with
  | 0%nat => at_times 5 5 (read_lines ["A >> X"]%string [])
  | 1%nat => at_times 8 5 (read_lines ["A >> Y"]%string [])
  | _ => at_times 8 5 (read_lines ["A >> Z"]%string [])
  end.
(** Once the latest time is the one which is known, the file is not read anymore. *)
Lemma never_read disk name k : forall c,
  cf_name (cl_file c) = name ->
  (forall n, (cl_updates c <= n)%nat -> latest_time (disk n) name (cfg_includes (cl_config c)) = cf_time (cl_file c)) ->
  cl_config (client_run find_sub no_typer no_names (T "Linux") (fun _ => true) windows disk (checks k) c) = cl_config c.
Proof.
  induction k as [|k IH]; intros c HN H; [reflexivity|].
  change (checks (S k)) with (CTurn (Turn true ([], true) None nothing) :: checks k). cbn [client_run].
  assert (Q : forall s n, ~ In (QConfig n) (fst (nothing s))) by (intros s n []).
  assert (UF : update_file disk true c = (false, c_updates (S (cl_updates c)) c)).
  { unfold update_file, file_update. cbv zeta. rewrite HN.
    specialize (H (cl_updates c) (le_n _)). unfold cl_config in H. rewrite H, Z.eqb_refl. cbn [andb].
    destruct c; reflexivity. }
  set (c1 := snd (client_step find_sub no_typer no_names (T "Linux") (fun _ => true) windows disk
                    (CTurn (Turn true ([], true) None nothing)) c)).
  assert (F : cl_file c1 = cl_file c /\ cl_updates c1 = S (cl_updates c)).
  { subst c1. unfold client_step. rewrite turn_auto, UF. cbn [negb].
    generalize (file_rest find_sub no_typer no_names (T "Linux") (fun _ => true) windows disk ([], true) None nothing
                  (c_updates (S (cl_updates c)) c) Q)
               (updates_rest find_sub no_typer no_names (T "Linux") (fun _ => true) windows disk ([], true) None nothing
                  (c_updates (S (cl_updates c)) c) Q).
    destruct (loop_turn _ _ _ _ _ _ _ _ _) as [ok c2]. cbn [snd]. intros A B.
    destruct ok; [split; assumption|]. unfold connect.
    destruct (file_send_config find_sub (fun _ => true) windows
      (c_sent false (cl_sends (on_server_disconnected c2)) (on_server_disconnected c2))) as [X Y].
    rewrite X, Y. split; assumption. }
  destruct F as [F U].
  destruct (client_step find_sub no_typer no_names (T "Linux") (fun _ => true) windows disk
              (CTurn (Turn true ([], true) None nothing)) c) as [ok c2]. subst c1. cbn [snd] in F, U.
  assert (C0 : cl_config c2 = cl_config c) by (unfold cl_config; rewrite F; reflexivity).
  destruct ok; [|exact C0]. rewrite <- C0. apply IH.
  - rewrite F. exact HN.
  - intros n L. rewrite C0, F. apply H. lia.
Qed.

Lemma checks_add disk c : forall k m, client_run find_sub no_typer no_names (T "Linux") (fun _ => true) windows disk (checks (k + m)) c =
  client_run find_sub no_typer no_names (T "Linux") (fun _ => true) windows disk (checks m)
    (client_run find_sub no_typer no_names (T "Linux") (fun _ => true) windows disk (checks k) c) \/
  exists c', client_run find_sub no_typer no_names (T "Linux") (fun _ => true) windows disk (checks k) c = c' /\
    client_run find_sub no_typer no_names (T "Linux") (fun _ => true) windows disk (checks (k + m)) c = c'.
Proof.
  intros k. revert c. induction k as [|k IH]; intros c m; [left; reflexivity|].
  change (checks (S k + m)) with (CTurn (Turn true ([], true) None nothing) :: checks (k + m)).
  change (checks (S k)) with (CTurn (Turn true ([], true) None nothing) :: checks k).
  cbn [client_run]. destruct (client_step _ _ _ _ _ _ _ _ c) as [ok c1].
  destruct ok; [apply IH|]. right. exists c1. split; reflexivity.
Qed.
Lemma stays disk k : 
  let c := go disk (checks k) in
  cf_name (cl_file c) = T "a" ->
  (forall n, (cl_updates c <= n)%nat -> latest_time (disk n) (T "a") (cfg_includes (cl_config c)) = cf_time (cl_file c)) ->
  forall m, cl_config (go disk (checks (k + m))) = cl_config c.
Proof.
  cbv zeta. unfold go, client_main.
  destruct (start_client find_sub (fun _ => true) windows disk (T "a")) as [[] c0]; [|reflexivity].
  intros HN H m. destruct (checks_add disk c0 k m) as [K|(c' & A & B)].
  - rewrite K. apply (never_read disk (T "a")); assumption.
  - rewrite A, B. reflexivity.
Qed.

Theorem C94_second_refuted : exists disk g g',
  fs_parse (disk 1%nat) (T "a") = Some g /\
  (forall n, (2 <= n)%nat -> fs_parse (disk n) (T "a") = Some g') /\ g <> g' /\
  forall m, cl_config (go disk (checks (1 + m))) = g.
Proof.
  exists same_second. eexists. eexists.
  split; [vm_compute; reflexivity|].
  split; [intros n L; destruct n as [|[|n]]; [lia|lia|]; vm_compute; reflexivity|].
  split; [discriminate|].
  intros m. rewrite (stays same_second 1); [vm_compute; reflexivity|vm_compute; reflexivity|].
  assert (K : cl_updates (go same_second (checks 1)) = 2%nat) by (vm_compute; reflexivity). rewrite K.
  intros n L. destruct n as [|[|n]]; [lia|lia|].
  change (same_second (S (S n))) with (same_second 2). vm_compute. reflexivity.
Qed.
Print Assumptions C94_second_refuted.

(** An error in a file which is included newly is corrected there: this is never seen. *)
Definition fixed_there (n : nat) : files :=
  match n with
  | 0%nat => at_times 5 5 (read_lines ["A >> X"]%string ["Foo >> Y"]%string)
  | 1%nat => at_times 8 5 (read_lines ["@include ""b"""]%string ["Foo >> Y"]%string)
  | _ => at_times 8 9 (read_lines ["@include ""b"""]%string ["A >> Y"]%string)
  end.
Theorem C94_included_refuted : exists disk g g',
  fs_parse (disk 0%nat) (T "a") = Some g /\ fs_parse (disk 1%nat) (T "a") = None /\
  (forall n, (2 <= n)%nat -> fs_parse (disk n) (T "a") = Some g' /\ fs_time (disk n) (T "b") = 9%Z) /\
  fs_time (disk 1%nat) (T "b") = 5%Z /\ In (T "b") (cfg_includes g') /\ g <> g' /\
  forall m, cl_config (go disk (checks (1 + m))) = g.
Proof.
  exists fixed_there. eexists. eexists.
  split; [vm_compute; reflexivity|]. split; [vm_compute; reflexivity|].
  split; [intros n L; destruct n as [|[|n]]; [lia|lia|]; split; vm_compute; reflexivity|].
  split; [reflexivity|]. split; [left; reflexivity|]. split; [discriminate|].
  intros m. rewrite (stays fixed_there 1); [vm_compute; reflexivity|vm_compute; reflexivity|].
  assert (K : cl_updates (go fixed_there (checks 1)) = 2%nat) by (vm_compute; reflexivity). rewrite K.
  intros n L. destruct n as [|[|n]]; [lia|lia|].
  change (fixed_there (S (S n))) with (fixed_there 2). vm_compute. reflexivity.
Qed.
Print Assumptions C94_included_refuted.

(** ** C95 No notifications *)

(** Whatever the options are, every message and every error is shown as a notification. *)
Theorem C95_always_shown : forall search typer key_name system sent focus disk e args a l a',
  app_main search sent focus disk e args = Runs a ->
  app_run search typer key_name system sent focus disk l a = Some a' ->
  forall t, notify (ap_outputs a') t = [show_notification (printed t)] /\
            error (ap_outputs a') t = [show_notification (printed t)].
Proof.
  intros search typer key_name system sent focus disk e args a l a' HM HR t.
  destruct (main_fine search sent focus disk e args a HM) as (cmd & _ & _ & [_ B _]).
  assert (B' := box_run search typer key_name system sent focus disk l a a' B HR).
  unfold notify, error, vprint. rewrite B'. destruct (ou_notification (ap_outputs a')); split; reflexivity.
Qed.
Print Assumptions C95_always_shown.

Theorem C95_no_notify_refuted : exists a', go_on always [quiet_turn] (begin_at always one_home ["--no-notify"]%string) = Some a' /\
  se_no_notify (ap_settings a') = true /\ ou_notification (ap_outputs a') = false /\
  exists command, notify (ap_outputs a') (T "Configuration updated") = [command] /\
    just_shows command (T "Configuration updated").
Proof.
  eexists. split; [vm_compute; reflexivity|]. split; [reflexivity|]. split; [reflexivity|].
  eexists. split; [vm_compute; reflexivity|]. eexists. split; [reflexivity|]. vm_compute. reflexivity.
Qed.
Print Assumptions C95_no_notify_refuted.

(** ** C96 Checking and starting *)

Theorem C96_check : forall search sent focus disk e args s,
  interpret_commandline args no_settings = Some s -> se_check s = true ->
  let p := resolve_config_file_path e (se_config s) in
  (0 <= fs_time (disk 0%nat) p)%Z ->
  app_main search sent focus disk e args =
    Exits (match fs_parse (disk 0%nat) p with Some _ => 0 | None => 1 end).
Proof.
  intros search sent focus disk e args s H C p T0. unfold app_main. rewrite H.
  cbv zeta. cbn [se_config se_check se_no_tray]. fold p. rewrite C.
  assert (X := first_load disk p (resolve_not_empty e (se_config s)) T0).
  destruct (load_config disk p new_client) as [ok c]. destruct X as (X & _). cbn [fst] in X. subst ok.
  destruct (fs_parse (disk 0%nat) p); reflexivity.
Qed.
Print Assumptions C96_check.
Example C96_check_case :
  begin_at always one_home ["--check"; "-c"; "/a"]%string = Exits 1 /\
  begin_at two_files one_home ["--check"]%string = Exits 0.
Proof. split; vm_compute; reflexivity. Qed.

(** Without --check the program starts, with the configuration of the file or, when there is an error
    in it, with none; except when there is no tray icon by which the user could do something about it. *)
Theorem C96_start : forall search focus disk e args s,
  interpret_commandline args no_settings = Some s -> se_check s = false ->
  let p := resolve_config_file_path e (se_config s) in
  (0 <= fs_time (disk 0%nat) p)%Z ->
  match app_main search (fun _ => true) focus disk e args with
  | Exits n => n = 1 /\ fs_parse (disk 0%nat) p = None /\ se_no_tray s = true
  | Runs a =>
      cf_name (cl_file (ap_client a)) = p /\
      match fs_parse (disk 0%nat) p with
      | Some g => cl_config (ap_client a) = g
      | None => cl_config (ap_client a) = no_config /\ se_no_tray s = false
      end
  end.
Proof.
  intros search focus disk e args s H C p T0. unfold app_main. rewrite H.
  cbv zeta. cbn [se_config se_check se_no_tray se_update se_verbose se_no_notify]. fold p. rewrite C.
  assert (X := first_load disk p (resolve_not_empty e (se_config s)) T0).
  destruct (load_config disk p new_client) as [ok c]. destruct X as (X & F & NB). cbn [fst snd] in *.
  destruct (negb ok && se_no_tray s) eqn:D.
  - apply andb_true_iff in D. destruct D as [D1 D2]. split; [reflexivity|].
    destruct (fs_parse (disk 0%nat) p); [subst ok; discriminate D1|split; [reflexivity|exact D2]].
  - unfold app_connect, connect. cbn [ap_client].
    assert (OK := sends_ok search focus (c_sent false (cl_sends c) c) eq_refl).
    destruct (file_send_config search (fun _ => true) focus (c_sent false (cl_sends c) c)) as [FS0 _].
    destruct (send_config search (fun _ => true) focus (c_sent false (cl_sends c) c)) as [ok1 c1].
    cbn [fst snd] in *. subst ok1. cbn [ap_client update_options with_client]. unfold cl_config. rewrite FS0.
    cbn [cl_file c_sent]. rewrite F. cbn [cf_name cf_config]. split; [reflexivity|].
    destruct (fs_parse (disk 0%nat) p); [reflexivity|]. split; [reflexivity|].
    subst ok. cbn in D. exact D.
Qed.
Print Assumptions C96_start.
Example C96_start_case :
  (match begin_at always one_home [] with Runs a => cfg_contexts (cl_config (ap_client a)) | _ => [] end) = [] /\
  begin_at always one_home ["--no-tray"]%string = Exits 1 /\
  (match begin_at two_files one_home ["--no-tray"]%string with Runs a => Nat.eqb (length (cfg_contexts (cl_config (ap_client a)))) 1 | _ => false end) = true.
Proof. split; [|split]; vm_compute; reflexivity. Qed.
