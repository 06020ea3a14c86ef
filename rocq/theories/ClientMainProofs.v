(** Proofs about the program keymapper (ClientMain.v). *)
From Coq Require Import String Ascii List Arith NArith ZArith Bool Lia.
From Verif Require Import Base Key Text KeyNames ParseSeq Stage Config Serial Client ClientProofs ClientMain ClientMainSpec.
Import ListNotations.
Local Open Scope N_scope.

(** * Notifications *)

Lemma replace_absent c to t : ~ In c t -> replace_all c to t = t.
Proof.
  induction t as [|x r IH]; intros H; [reflexivity|].
  cbn. destruct (Ascii.eqb_spec x c) as [->|NE].
  - exfalso. apply H. left. reflexivity.
  - cbn. f_equal. apply IH. intros K. apply H. right. exact K.
Qed.

Lemma ascii_neq (a b : ascii) : a <> b -> Ascii.eqb a b = false.
Proof. intros H. destruct (Ascii.eqb_spec a b); congruence. Qed.

Lemma replace_cons c to x t : replace_all c to (x :: t) = (if Ascii.eqb x c then to else [x]) ++ replace_all c to t.
Proof. reflexivity. Qed.
Lemma in_quotes_escaped t : in_quotes (([backslash; quote] ++ t) ++ [quote]) = add quote (in_quotes (t ++ [quote])).
Proof. reflexivity. Qed.

(** the escaped text without backslashes followed by the closing quote *)
Lemma in_quotes_plain t : ~ In backslash t -> ~ has_expansion t ->
  in_quotes (replace_all quote [backslash; quote] t ++ [quote]) = QText t [].
Proof.
  induction t as [|c r IH]; intros HB HE; [reflexivity|].
  assert (HB' : ~ In backslash r) by (intros K; apply HB; right; exact K).
  assert (HE' : ~ has_expansion r).
  { intros [K|(p & d & q & K & X)]; apply HE.
    - left. right. exact K.
    - right. exists (c :: p), d, q. rewrite K. split; [reflexivity|exact X]. }
  specialize (IH HB' HE').
  rewrite replace_cons. destruct (Ascii.eqb_spec c quote) as [->|NQ].
  - rewrite in_quotes_escaped, IH. reflexivity.
  - cbn [app in_quotes]. rewrite (ascii_neq _ _ NQ).
    assert (NB : c <> backquote) by (intros ->; apply HE; left; left; reflexivity).
    rewrite (ascii_neq _ _ NB).
    assert (NS : c <> backslash) by (intros ->; apply HB; left; reflexivity).
    rewrite (ascii_neq _ _ NS).
    destruct (Ascii.eqb_spec c dollar) as [->|ND]; [|rewrite IH; reflexivity].
    destruct r as [|d q].
    + reflexivity.
    + assert (X : expands d = false).
      { destruct (expands d) eqn:X; [|reflexivity]. exfalso. apply HE. right. exists [], d, q. split; [reflexivity|exact X]. }
      rewrite replace_cons. rewrite replace_cons in IH.
      destruct (Ascii.eqb_spec d quote) as [->|NE].
      * cbn [app]. cbn [app] in IH.
        change (expands backslash) with false. cbv iota. rewrite IH. reflexivity.
      * cbn [app]. cbn [app] in IH. rewrite X, IH. reflexivity.
Qed.

Lemma in_quotes_expanded t : ~ In backslash t -> has_expansion t ->
  in_quotes (replace_all quote [backslash; quote] t ++ [quote]) = QExpanded.
Proof.
  induction t as [|c r IH]; intros HB HE.
  - destruct HE as [[]|(p & d & q & K & _)]. destruct p; discriminate K.
  - assert (HB' : ~ In backslash r) by (intros K; apply HB; right; exact K).
    assert (NS : c <> backslash) by (intros ->; apply HB; left; reflexivity).
    assert (HC : c = backquote \/ (c = dollar /\ exists d q, r = d :: q /\ expands d = true) \/ has_expansion r).
    { destruct HE as [[K|K]|(p & d & q & K & X)].
      - left. exact K.
      - right. right. left. exact K.
      - destruct p as [|x p]; cbn [List.app] in K; injection K as K0 K.
        + right. left. split; [exact K0|]. exists d, q. split; [exact K|exact X].
        + right. right. right. exists p, d, q. split; [exact K|exact X]. }
    rewrite replace_cons.
    destruct HC as [->|[[-> (d & q & -> & X)]|HR]].
    + reflexivity.
    + rewrite replace_cons.
      destruct (Ascii.eqb_spec d quote) as [->|NE]; [discriminate X|].
      change (Ascii.eqb dollar quote) with false. cbv iota. cbn [app in_quotes].
      rewrite X. reflexivity.
    + specialize (IH HB' HR).
      destruct (Ascii.eqb_spec c quote) as [->|NQ].
      * rewrite in_quotes_escaped, IH. reflexivity.
      * cbn [app in_quotes]. rewrite (ascii_neq _ _ NQ), (ascii_neq _ _ NS).
        destruct (Ascii.eqb c backquote); [reflexivity|].
        destruct (Ascii.eqb c dollar); [|rewrite IH; reflexivity].
        rewrite IH. destruct (replace_all quote [backslash; quote] r ++ [quote]) as [|d q] eqn:K.
        { destruct (replace_all quote [backslash; quote] r); discriminate K. }
        destruct (expands d); reflexivity.
Qed.

Lemma notification_inj command q q' : notification command q -> notification command q' -> q = q'.
Proof.
  intros (t & -> & <-) (t' & K & <-). apply app_inv_head in K. injection K as ->. reflexivity.
Qed.

Lemma show_just t : ~ In backslash t -> (just_shows (show_notification t) t <-> ~ has_expansion t).
Proof.
  intros HB. unfold show_notification. rewrite (replace_absent _ _ _ HB). split.
  - intros (q & K & X) HE. apply app_inv_head in K. injection K as <-.
    rewrite (in_quotes_expanded t HB HE) in X. discriminate X.
  - intros HE. eexists. split; [reflexivity|]. apply (in_quotes_plain t HB HE).
Qed.
Lemma show_expanded t : ~ In backslash t -> has_expansion t -> notification (show_notification t) QExpanded.
Proof.
  intros HB HE. unfold show_notification. rewrite (replace_absent _ _ _ HB).
  eexists. split; [reflexivity|]. apply (in_quotes_expanded t HB HE).
Qed.

(** * The command line *)

Lemma in_cons_iff {A} (x y : A) l : x <> y -> (In x (y :: l) <-> In x l).
Proof. intros H. split; [intros [->|K]; [congruence|exact K]|right; assumption]. Qed.

(** the settings which are there before, then what the arguments say *)
Record extends (s0 : settings) (l : list argument) (s : settings) : Prop := Extends {
  ex_config : (se_config s = se_config s0 /\ forall q, ~ In (GConfig q) l) \/
    (exists a b, l = a ++ GConfig (se_config s) :: b /\ forall q, ~ In (GConfig q) b);
  ex_update : se_update s = true <-> se_update s0 = true \/ In GUpdate l;
  ex_verbose : se_verbose s = true <-> se_verbose s0 = true \/ In GVerbose l;
  ex_check : se_check s = true <-> se_check s0 = true \/ In GCheck l;
  ex_tray : se_no_tray s = true <-> se_no_tray s0 = true \/ In GNoTray l;
  ex_notify : se_no_notify s = true <-> se_no_notify s0 = true \/ In GNoNotify l
}.

Definition with_argument (g : argument) (s : settings) : settings :=
  match g with
  | GUpdate => Settings (se_config s) true (se_verbose s) (se_check s) (se_no_tray s) (se_no_notify s)
  | GVerbose => Settings (se_config s) (se_update s) true (se_check s) (se_no_tray s) (se_no_notify s)
  | GCheck => Settings (se_config s) (se_update s) (se_verbose s) true (se_no_tray s) (se_no_notify s)
  | GNoTray => Settings (se_config s) (se_update s) (se_verbose s) (se_check s) true (se_no_notify s)
  | GNoNotify => Settings (se_config s) (se_update s) (se_verbose s) (se_check s) (se_no_tray s) true
  | GConfig p => Settings p (se_update s) (se_verbose s) (se_check s) (se_no_tray s) (se_no_notify s)
  end.

Lemma interpret_spelled g a r s : spelled g a ->
  interpret_commandline (a ++ r) s = interpret_commandline r (with_argument g s).
Proof. intros H. destruct H; reflexivity. Qed.

Lemma extends_cons g l s0 s : extends (with_argument g s0) l s -> extends s0 (g :: l) s.
Proof.
  intros [HC HU HV HK HT HN].
  split.
  - destruct HC as [[K X]|(a & b & K & X)].
    + destruct g; cbn in K; try (left; split; [exact K|intros q [Y|Y]; [discriminate Y|exact (X q Y)]]).
      right. exists [], l. rewrite K. split; [reflexivity|exact X].
    + right. exists (g :: a), b. rewrite K at 1. split; [reflexivity|exact X].
  - rewrite HU. destruct g; cbn; intuition congruence.
  - rewrite HV. destruct g; cbn; intuition congruence.
  - rewrite HK. destruct g; cbn; intuition congruence.
  - rewrite HT. destruct g; cbn; intuition congruence.
  - rewrite HN. destruct g; cbn; intuition congruence.
Qed.

Lemma interpret_sound args l : spelled_all l args -> forall s0,
  exists s, interpret_commandline args s0 = Some s /\ extends s0 l s.
Proof.
  induction 1 as [|g l a r HS HA IH]; intros s0.
  - exists s0. split; [reflexivity|]. split; [left; split; [reflexivity|intros q []]|..]; cbn; tauto.
  - destruct (IH (with_argument g s0)) as (s & K & X).
    exists s. split; [rewrite (interpret_spelled g a r s0 HS); exact K|exact (extends_cons _ _ _ _ X)].
Qed.

Lemma interpret_spells n : forall args s0 s, (length args <= n)%nat ->
  interpret_commandline args s0 = Some s -> exists l, spelled_all l args.
Proof.
  induction n as [|n IH]; intros args s0 s L H; (destruct args as [|a r]; [exists []; constructor|]).
  - cbn in L. lia.
  - cbn [length] in L. cbn [interpret_commandline] in H.
    assert (one : forall g s1, spelled g [a] -> interpret_commandline r s1 = Some s -> exists l, spelled_all l (a :: r)).
    { intros g s1 HS K. destruct (IH r s1 s ltac:(lia) K) as (l & X). exists (g :: l).
      exact (sa_cons g l [a] r HS X). }
    destruct (text_eqb a (T "-u") || text_eqb a (T "--update")) eqn:E1.
    { apply orb_true_iff in E1. refine (one GUpdate _ _ H).
      destruct E1 as [E1|E1]; apply text_eqb_eq in E1; subst a; constructor. }
    destruct (text_eqb a (T "-c") || text_eqb a (T "--config")) eqn:E2.
    { destruct r as [|p r]; [discriminate H|]. cbn [length] in L.
      destruct (IH r _ s ltac:(lia) H) as (l & X). exists (GConfig p :: l).
      refine (sa_cons (GConfig p) l [a; p] r _ X).
      apply orb_true_iff in E2. destruct E2 as [E2|E2]; apply text_eqb_eq in E2; subst a; constructor. }
    destruct (text_eqb a (T "-v") || text_eqb a (T "--verbose")) eqn:E3.
    { apply orb_true_iff in E3. refine (one GVerbose _ _ H).
      destruct E3 as [E3|E3]; apply text_eqb_eq in E3; subst a; constructor. }
    destruct (text_eqb a (T "--check")) eqn:E4.
    { apply text_eqb_eq in E4. subst a. refine (one GCheck _ _ H). constructor. }
    destruct (text_eqb a (T "--no-tray")) eqn:E5.
    { apply text_eqb_eq in E5. subst a. refine (one GNoTray _ _ H). constructor. }
    destruct (text_eqb a (T "--no-notify")) eqn:E6; [|discriminate H].
    apply text_eqb_eq in E6. subst a. refine (one GNoNotify _ _ H). constructor.
Qed.

Lemma extends_means l s : extends no_settings l s -> means l s.
Proof.
  intros [HC HU HV HK HT HN]. cbn in *.
  split; [destruct HC as [[K X]|K]; [left; split; [exact K|exact X]|right; exact K]|..];
    intuition congruence.
Qed.

Lemma commandline args s : interpret_commandline args no_settings = Some s ->
  exists l, spelled_all l args /\ means l s.
Proof.
  intros H. destruct (interpret_spells (length args) args no_settings s (le_n _) H) as (l & X).
  exists l. split; [exact X|]. destruct (interpret_sound args l X no_settings) as (s' & K & Y).
  rewrite H in K. injection K as <-. exact (extends_means _ _ Y).
Qed.
Lemma commandline_refused args : interpret_commandline args no_settings = None <->
  ~ exists l, spelled_all l args.
Proof.
  split.
  - intros H (l & X). destruct (interpret_sound args l X no_settings) as (s & K & _). congruence.
  - intros H. destruct (interpret_commandline args no_settings) as [s|] eqn:K; [|reflexivity].
    exfalso. apply H. exact (interpret_spells (length args) args no_settings s (le_n _) K).
Qed.

(** * The options in effect *)

Lemma apply_update opts : forall s,
  se_update (fold_left apply_option opts s) = true <-> wants_update s opts.
Proof.
  induction opts as [|o r IH] using rev_ind; intros s.
  - cbn. unfold wants_update. split.
    + intros H. right. split; [exact H|intros []].
    + intros [(p & q & K & _)|[H _]]; [destruct p; discriminate K|exact H].
  - rewrite fold_left_app. cbn [fold_left].
    assert (snoc : forall o', o' = T "no-update" -> wants_update s (r ++ [o']) -> False).
    { intros o' -> [(p & q & K & X)|[_ X]].
      - destruct q as [|y q _] using rev_ind.
        + apply app_inj_tail in K. destruct K as [_ K]. discriminate K.
        + rewrite app_comm_cons, app_assoc in K. apply app_inj_tail in K. destruct K as [_ <-].
          apply X. apply in_or_app. right. left. reflexivity.
      - apply X. apply in_or_app. right. left. reflexivity. }
    unfold apply_option.
    destruct (text_eqb o (T "update")) eqn:E1.
    { apply text_eqb_eq in E1. subst o. cbn. split; [intros _|reflexivity].
      left. exists r, []. split; [reflexivity|intros []]. }
    destruct (text_eqb o (T "no-update")) eqn:E2.
    { apply text_eqb_eq in E2. cbn. split; [discriminate|]. intros H. destruct (snoc o E2 H). }
    apply text_eqb_neq in E1. apply text_eqb_neq in E2.
    assert (same : wants_update s (r ++ [o]) <-> wants_update s r).
    { split.
      - intros [(p & q & K & X)|[H X]].
        + destruct q as [|y q _] using rev_ind.
          * apply app_inj_tail in K. destruct K as [_ K]. congruence.
          * rewrite app_comm_cons, app_assoc in K. apply app_inj_tail in K. destruct K as [-> <-].
            left. exists p, q. split; [reflexivity|]. intros Y. apply X. apply in_or_app. left. exact Y.
        + right. split; [exact H|]. intros Y. apply X. apply in_or_app. left. exact Y.
      - intros [(p & q & -> & X)|[H X]].
        + left. exists p, (q ++ [o]). rewrite <- app_assoc. split; [reflexivity|].
          intros Y. apply in_app_or in Y. destruct Y as [Y|[Y|[]]]; [exact (X Y)|congruence].
        + right. split; [exact H|]. intros Y. apply in_app_or in Y. destruct Y as [Y|[Y|[]]]; [exact (X Y)|congruence]. }
    rewrite same, <- (IH s).
    destruct (text_eqb o (T "verbose")), (text_eqb o (T "no-tray")), (text_eqb o (T "no-notify")); reflexivity.
Qed.

Lemma in_snoc_iff {A} (x : A) l y : In x (l ++ [y]) <-> In x l \/ y = x.
Proof. rewrite in_app_iff. cbn. tauto. Qed.

Lemma apply_flags opts : forall s,
  let s' := fold_left apply_option opts s in
  (se_verbose s' = true <-> se_verbose s = true \/ In (T "verbose") opts) /\
  (se_no_tray s' = true <-> se_no_tray s = true \/ In (T "no-tray") opts) /\
  (se_no_notify s' = true <-> se_no_notify s = true \/ In (T "no-notify") opts).
Proof.
  induction opts as [|o r IH] using rev_ind; intros s; cbv zeta.
  - cbn. tauto.
  - rewrite fold_left_app. cbn [fold_left]. specialize (IH s). cbv zeta in IH.
    destruct IH as (HV & HT & HN). rewrite !in_snoc_iff.
    unfold apply_option.
    destruct (text_eqb o (T "update")) eqn:E1.
    { apply text_eqb_eq in E1. subst o. cbn [se_verbose se_no_tray se_no_notify]. rewrite HV, HT, HN.
      split; [|split]; (split; [tauto|intros [K|[K|K]]; [left; exact K|right; exact K|discriminate K]]). }
    destruct (text_eqb o (T "no-update")) eqn:E2.
    { apply text_eqb_eq in E2. subst o. cbn [se_verbose se_no_tray se_no_notify]. rewrite HV, HT, HN.
      split; [|split]; (split; [tauto|intros [K|[K|K]]; [left; exact K|right; exact K|discriminate K]]). }
    destruct (text_eqb o (T "verbose")) eqn:E3.
    { apply text_eqb_eq in E3. subst o. cbn [se_verbose se_no_tray se_no_notify]. rewrite HT, HN.
      split; [tauto|split]; (split; [tauto|intros [K|[K|K]]; [left; exact K|right; exact K|discriminate K]]). }
    destruct (text_eqb o (T "no-tray")) eqn:E4.
    { apply text_eqb_eq in E4. subst o. cbn [se_verbose se_no_tray se_no_notify]. rewrite HV, HN.
      split; [|split; [tauto|]]; (split; [tauto|intros [K|[K|K]]; [left; exact K|right; exact K|discriminate K]]). }
    destruct (text_eqb o (T "no-notify")) eqn:E5.
    { apply text_eqb_eq in E5. subst o. cbn [se_verbose se_no_tray se_no_notify]. rewrite HV, HT.
      split; [|split; [|tauto]]; (split; [tauto|intros [K|[K|K]]; [left; exact K|right; exact K|discriminate K]]). }
    apply text_eqb_neq in E3. apply text_eqb_neq in E4. apply text_eqb_neq in E5.
    rewrite HV, HT, HN. split; [|split]; (split; [tauto|intros [K|[K|K]]; [left; exact K|right; exact K|congruence]]).
Qed.

Lemma update_options_effect a :
  in_effect (ap_settings a) (cfg_options (cl_config (ap_client a))) (update_options a).
Proof.
  unfold update_options, apply_config_options.
  generalize (apply_update (cfg_options (cl_config (ap_client a))) (ap_settings a)).
  generalize (apply_flags (cfg_options (cl_config (ap_client a))) (ap_settings a)). cbv zeta.
  generalize (fold_left apply_option (cfg_options (cl_config (ap_client a))) (ap_settings a)).
  intros s (HV & HT & HN) HU. split; cbn [ap_update ap_outputs ap_tray ou_verbose ou_notification].
  - exact HU.
  - exact HV.
  - rewrite negb_false_iff. exact HN.
  - rewrite negb_false_iff. exact HT.
Qed.

Section Run.
Variable search : text -> text -> bool.
Variable typer : text -> list stroke.
Variable key_name : key -> option text.
Variable system : text.
Variable sent : nat -> bool.
Variable focus : nat -> option window.
Variable disk : nat -> files.
Notation turn_of := (loop_turn search typer key_name system sent focus disk).
Notation step_of := (client_step search typer key_name system sent focus disk).
Notation run_of := (client_run search typer key_name system sent focus disk).
Notation app_turn := (app_turn search typer key_name system sent focus disk).
Notation app_step := (app_step search typer key_name system sent focus disk).
Notation app_run := (app_run search typer key_name system sent focus disk).

(** ** What does not concern the file *)

Lemma file_send m c : cl_file (snd (Client.send sent m c)) = cl_file c.
Proof. unfold Client.send. destruct (negb (cl_broken c) && sent (cl_sends c)); reflexivity. Qed.
Lemma updates_send m c : cl_updates (snd (Client.send sent m c)) = cl_updates c.
Proof. unfold Client.send. destruct (negb (cl_broken c) && sent (cl_sends c)); reflexivity. Qed.

Lemma file_contexts c : cl_file (snd (update_active_contexts search focus c)) = cl_file c /\
  cl_updates (snd (update_active_contexts search focus c)) = cl_updates c.
Proof.
  unfold update_active_contexts. destruct (negb (cl_active c)); [split; reflexivity|].
  cbv zeta. destruct (focus (cl_focus c)) as [w|].
  - cbn [cl_active_contexts c_window emit].
    destruct (zlist_eqb _ _); split; reflexivity.
  - cbn [cl_active_contexts c_window]. destruct (cl_active_contexts c); [|split; reflexivity].
    destruct (zlist_eqb _ _); split; reflexivity.
Qed.

Lemma file_send_config c : cl_file (snd (send_config search sent focus c)) = cl_file c /\
  cl_updates (snd (send_config search sent focus c)) = cl_updates c.
Proof.
  unfold send_config.
  generalize (file_send (SConfig (cl_config c)) c) (updates_send (SConfig (cl_config c)) c).
  destruct (Client.send sent (SConfig (cl_config c)) c) as [ok c1]. cbn [snd]. intros F U.
  destruct ok; cbn [negb]; [|split; assumption]. cbv zeta. cbn [snd].
  destruct (cl_active _).
  - unfold send_active_contexts. rewrite file_send, updates_send.
    destruct (file_contexts (c_contexts [] (c_aliases (cfg_aliases (cl_config c1)) c1))) as [A B].
    rewrite A, B. split; assumption.
  - split; assumption.
Qed.

Lemma file_fold_server l : forall c,
  cl_file (fold_left (fun c m => on_server_message key_name system m c) l c) = cl_file c.
Proof.
  induction l as [|m r IH]; intros c; [reflexivity|]. cbn [fold_left]. rewrite IH.
  apply q_file. apply quiet_server.
Qed.
Lemma file_fold_control s l : (forall n, ~ In (QConfig n) l) -> forall c,
  cl_file (fold_left (fun c m => on_control_message search typer sent focus disk s m c) l c) = cl_file c.
Proof.
  induction l as [|m r IH]; intros H c; [reflexivity|]. cbn [fold_left].
  rewrite IH; [|intros n K; apply (H n); right; exact K].
  apply q_file. apply quiet_control. intros n ->. apply (H n). left. reflexivity.
Qed.
Lemma file_control_loop reads sockets : (forall s n, ~ In (QConfig n) (fst (reads s))) -> forall c,
  cl_file (control_loop search typer sent focus disk reads sockets c) = cl_file c.
Proof.
  intros H. induction sockets as [|s r IH]; intros c; [reflexivity|]. cbn [control_loop].
  destruct (get_control s (cl_controls c)); [|apply IH].
  specialize (H s). destruct (reads s) as [l ok]. cbn [fst] in H. rewrite IH.
  destruct ok; [|cbn [cl_file emit c_controls]]; apply file_fold_control; exact H.
Qed.

Lemma file_rest srv acc ctl c : (forall s n, ~ In (QConfig n) (fst (ctl s))) ->
  cl_file (snd (turn_of (Turn false srv acc ctl) c)) = cl_file c.
Proof.
  intros H. unfold loop_turn. cbn [tu_auto tu_server tu_accept tu_control negb].
  destruct (file_contexts c) as [F _].
  destruct (update_active_contexts search focus c) as [changed c1]. cbn [snd] in F.
  assert (F2 : cl_file (snd (if changed then send_active_contexts sent c1 else (true, c1))) = cl_file c).
  { destruct changed; [unfold send_active_contexts; rewrite file_send|]; exact F. }
  destruct (if changed then send_active_contexts sent c1 else (true, c1)) as [ok c2]. cbn [snd] in F2.
  destruct ok; cbn [negb]; [|exact F2].
  destruct (negb (snd srv)); cbn [snd].
  - rewrite file_fold_server. exact F2.
  - unfold read_control_messages. rewrite file_control_loop by exact H.
    destruct acc; cbn [cl_file accept_control emit c_controls]; rewrite file_fold_server; exact F2.
Qed.

Lemma turn_auto srv acc ctl c : turn_of (Turn true srv acc ctl) c =
  let '(changed, c) := update_file disk true c in
  let '(ok, c) := if changed then send_config search sent focus c else (true, c) in
  if negb ok then (false, c) else turn_of (Turn false srv acc ctl) c.
Proof. reflexivity. Qed.

(** ** The program does what the client does which checks the file when the options say so *)

Definition with_auto (b : bool) (s : cstep) : cstep :=
  match s with CTurn t => CTurn (Turn b (tu_server t) (tu_accept t) (tu_control t)) | s => s end.

Lemma app_turn_client t a :
  turn_of (Turn (ap_update a) (tu_server t) (tu_accept t) (tu_control t)) (ap_client a) =
  (fst (app_turn t a), ap_client (snd (app_turn t a))).
Proof.
  unfold ClientMain.app_turn. cbv zeta. destruct (ap_update a).
  - rewrite turn_auto. destruct (update_file disk true (ap_client a)) as [changed c].
    destruct changed; cbn [negb].
    + destruct (send_config search sent focus c) as [ok c1]. destruct ok; cbn [negb]; [|reflexivity].
      change (ap_client (update_options (with_client c1 a))) with c1.
      destruct (turn_of _ c1); reflexivity.
    + change (ap_client (with_client c a)) with c. destruct (turn_of _ c); reflexivity.
  - destruct (turn_of _ (ap_client a)); reflexivity.
Qed.

Lemma app_step_client s a :
  step_of (with_auto (ap_update a) s) (ap_client a) = (fst (app_step s a), ap_client (snd (app_step s a))).
Proof.
  destruct s as [t| | |]; cbn [with_auto]; try reflexivity.
  unfold client_step, ClientMain.app_step. rewrite (app_turn_client t a).
  destruct (app_turn t a) as [ok a1]. cbn [fst snd]. destruct ok; [reflexivity|].
  unfold app_connect. change (ap_client (with_client (on_server_disconnected (ap_client a1)) a1))
    with (on_server_disconnected (ap_client a1)).
  destruct (connect search sent focus (on_server_disconnected (ap_client a1))) as [ok c].
  destruct ok; reflexivity.
Qed.

Lemma app_run_client l : forall a a', app_run l a = Some a' ->
  exists bs, length bs = length l /\
    run_of (map (fun x => with_auto (fst x) (snd x)) (combine bs l)) (ap_client a) = ap_client a'.
Proof.
  induction l as [|s r IH]; intros a a' H.
  - injection H as <-. exists []. split; reflexivity.
  - cbn [ClientMain.app_run] in H. generalize (app_step_client s a).
    destruct (app_step s a) as [ok a1]. cbn [fst snd]. intros K. destruct ok; [|discriminate H].
    destruct (IH a1 a' H) as (bs & L & X). exists (ap_update a :: bs). split; [cbn; f_equal; exact L|].
    cbn [combine map client_run fst snd]. rewrite K. exact X.
Qed.

(** ** The options stay those of the configuration *)

Record fine (cmd : settings) (a : program) : Prop := Fine {
  fi_settings : ap_settings a = cmd;
  fi_box : ou_box (ap_outputs a) = true;
  fi_effect : in_effect cmd (cfg_options (cl_config (ap_client a))) a
}.

Lemma fine_updated cmd a : ap_settings a = cmd -> ou_box (ap_outputs a) = true -> fine cmd (update_options a).
Proof.
  intros S0 B0. split; [exact S0|exact B0|]. rewrite <- S0. exact (update_options_effect a).
Qed.
Lemma fine_client cmd a c : cl_config c = cl_config (ap_client a) -> fine cmd a -> fine cmd (with_client c a).
Proof.
  intros K [S0 B0 [U0 V0 N0 T0]]. split; [exact S0|exact B0|]. cbn [ap_client with_client]. rewrite K.
  split; assumption.
Qed.

Lemma update_fails check c : fst (update_file disk check c) = false ->
  cl_config (snd (update_file disk check c)) = cl_config c.
Proof.
  unfold update_file, file_update, cl_config.
  destruct (check && _)%bool; [reflexivity|].
  destruct (fs_parse (disk (cl_updates c)) (cf_name (cl_file c))); [discriminate|reflexivity].
Qed.

Lemma settings_turn t a : ap_settings (snd (app_turn t a)) = ap_settings a /\
  ou_box (ap_outputs (snd (app_turn t a))) = ou_box (ap_outputs a).
Proof.
  unfold ClientMain.app_turn. cbv zeta. destruct (ap_update a).
  - destruct (update_file disk true (ap_client a)) as [[] c].
    + destruct (send_config search sent focus c) as [[] c1]; [|split; reflexivity].
      destruct (turn_of _ _); split; reflexivity.
    + destruct (turn_of _ _); split; reflexivity.
  - destruct (turn_of _ _); split; reflexivity.
Qed.

Lemma fine_rest cmd t a : (forall s n, ~ In (QConfig n) (fst (tu_control t s))) -> fine cmd a ->
  fine cmd (with_client (snd (turn_of (Turn false (tu_server t) (tu_accept t) (tu_control t)) (ap_client a))) a).
Proof.
  intros H F. apply fine_client; [|exact F]. unfold cl_config.
  rewrite (file_rest _ _ _ (ap_client a) H). reflexivity.
Qed.

Lemma fine_turn cmd t a : (forall s n, ~ In (QConfig n) (fst (tu_control t s))) -> fine cmd a ->
  fst (app_turn t a) = true -> fine cmd (snd (app_turn t a)).
Proof.
  intros H F. unfold ClientMain.app_turn. cbv zeta. destruct (ap_update a).
  - generalize (update_fails true (ap_client a)).
    destruct (update_file disk true (ap_client a)) as [changed c]. cbn [fst snd]. intros K.
    destruct changed.
    + destruct (send_config search sent focus c) as [[] c1]; [|discriminate].
      assert (F1 : fine cmd (update_options (with_client c1 a)))
        by (apply fine_updated; [exact (fi_settings _ _ F)|exact (fi_box _ _ F)]).
      generalize (fine_rest cmd t _ H F1).
      destruct (turn_of _ _) as [ok c2]. cbn [fst snd]. intros X _. exact X.
    + assert (F1 : fine cmd (with_client c a)) by (apply fine_client; [exact (K eq_refl)|exact F]).
      generalize (fine_rest cmd t _ H F1).
      destruct (turn_of _ _) as [ok c2]. cbn [fst snd]. intros X _. exact X.
  - generalize (fine_rest cmd t _ H F).
    destruct (turn_of _ _) as [ok c2]. cbn [fst snd]. intros X _. exact X.
Qed.

Lemma fine_connect cmd a : ap_settings a = cmd -> ou_box (ap_outputs a) = true ->
  fst (app_connect search sent focus a) = true -> fine cmd (snd (app_connect search sent focus a)).
Proof.
  intros S0 B0. unfold app_connect. destruct (connect search sent focus (ap_client a)) as [[] c]; [|discriminate].
  intros _. apply fine_updated; [exact S0|exact B0].
Qed.

Lemma file_toggle c : cl_file (toggle_active search sent focus c) = cl_file c.
Proof.
  unfold toggle_active, send_active_contexts. rewrite file_send.
  destruct (cl_active _); [|reflexivity]. rewrite (proj1 (file_contexts _)). reflexivity.
Qed.

Lemma fine_step cmd s a : no_switch s -> fine cmd a -> fst (app_step s a) = true -> fine cmd (snd (app_step s a)).
Proof.
  intros H F. destruct s as [t| | |].
  - cbn [no_switch] in H. unfold ClientMain.app_step.
    destruct (settings_turn t a) as [S0 B0]. generalize (fine_turn cmd t a H F).
    destruct (app_turn t a) as [ok a1]. cbn [fst snd] in *. destruct ok.
    + intros X _. exact (X eq_refl).
    + intros _. apply fine_connect; cbn [ap_settings ap_outputs with_client];
        [rewrite S0; exact (fi_settings _ _ F)|rewrite B0; exact (fi_box _ _ F)].
  - intros _. apply fine_client; [|exact F]. unfold cl_config. cbn [client_step snd]. rewrite file_toggle. reflexivity.
  - intros _. apply fine_updated; [exact (fi_settings _ _ F)|exact (fi_box _ _ F)].
  - intros _. apply fine_client; [|exact F]. unfold cl_config. cbn [client_step snd]. rewrite file_send. reflexivity.
Qed.

Lemma fine_run cmd l : Forall no_switch l -> forall a a', fine cmd a -> app_run l a = Some a' -> fine cmd a'.
Proof.
  induction 1 as [|s r HS HR IH]; intros a a' F K.
  - injection K as <-. exact F.
  - cbn [ClientMain.app_run] in K. generalize (fine_step cmd s a HS F).
    destruct (app_step s a) as [ok a1]. cbn [fst snd]. destruct ok; [|discriminate K].
    intros X. exact (IH a1 a' (X eq_refl) K).
Qed.

Lemma box_run l : forall a a', ou_box (ap_outputs a) = true -> app_run l a = Some a' -> ou_box (ap_outputs a') = true.
Proof.
  induction l as [|s r IH]; intros a a' B K.
  - injection K as <-. exact B.
  - cbn [ClientMain.app_run] in K. destruct (app_step s a) as [ok a1] eqn:X. destruct ok; [|discriminate K].
    refine (IH a1 a' _ K). destruct s as [t| | |]; cbn [ClientMain.app_step] in X.
    + destruct (settings_turn t a) as [_ B0]. destruct (app_turn t a) as [[] a2]; cbn [snd] in B0.
      * injection X as <-. congruence.
      * unfold app_connect in X. destruct (connect _ _ _ _) as [[] c]; [|discriminate X].
        injection X as <-. cbn. congruence.
    + injection X as <-. exact B.
    + injection X as <-. exact B.
    + injection X as <-. exact B.
Qed.

Lemma main_fine e args a : app_main search sent focus disk e args = Runs a ->
  exists cmd, interpret_commandline args no_settings = Some cmd /\
    ap_settings a = Settings (resolve_config_file_path e (se_config cmd)) (se_update cmd) (se_verbose cmd)
                      (se_check cmd) (se_no_tray cmd) (se_no_notify cmd) /\
    fine (ap_settings a) a.
Proof.
  unfold app_main. destruct (interpret_commandline args no_settings) as [cmd|]; [|discriminate].
  cbv zeta. cbn [se_config se_update se_verbose se_check se_no_tray se_no_notify].
  destruct (load_config disk _ new_client) as [ok c].
  destruct (se_check cmd) eqn:EC; [discriminate|].
  destruct (negb ok && se_no_tray cmd); [discriminate|].
  match goal with |- context [app_connect search sent focus ?x] => set (a0 := x) end.
  generalize (fine_connect (ap_settings a0) a0 eq_refl eq_refl).
  assert (S0 : ap_settings (snd (app_connect search sent focus a0)) = ap_settings a0).
  { unfold app_connect. destruct (connect search sent focus (ap_client a0)) as [[] c1]; reflexivity. }
  destruct (app_connect search sent focus a0) as [ok1 a1]. cbn [fst snd] in *.
  destruct ok1; [|discriminate]. intros F K. injection K as <-.
  exists cmd. split; [reflexivity|]. rewrite S0. split; [subst a0; cbn; rewrite ?EC; reflexivity|exact (F eq_refl)].
Qed.
End Run.

(** * Following the file *)

(** ** What does not check the file *)

Section Updates.
Variable search : text -> text -> bool.
Variable typer : text -> list stroke.
Variable key_name : key -> option text.
Variable system : text.
Variable sent : nat -> bool.
Variable focus : nat -> option window.
Variable disk : nat -> files.

Lemma updates_state s k c : cl_updates (send_virtual_key_state s k c) = cl_updates c.
Proof.
  unfold send_virtual_key_state, get_virtual_key_state. destruct (is_virtual_key k); [|reflexivity].
  destruct (nth_error _ _); reflexivity.
Qed.
Lemma updates_notify k l : forall c, cl_updates (snd (notify_loop k l c)) = cl_updates c.
Proof.
  induction l as [|x r IH]; intros c; [reflexivity|]. cbn [notify_loop].
  destruct (ct_notify x =? k).
  - specialize (IH (send_virtual_key_state (ct_socket x) k c)). rewrite updates_state in IH.
    cbv zeta. destruct (notify_loop k r _) as [l' c']. exact IH.
  - specialize (IH c). destruct (notify_loop k r c) as [l' c']. exact IH.
Qed.
Lemma updates_reply t l : forall c, cl_updates (snd (reply_loop t l c)) = cl_updates c.
Proof.
  induction l as [|x r IH]; intros c; [reflexivity|]. cbn [reply_loop]. cbv zeta.
  specialize (IH (if ct_info x then answer (ct_socket x) (ANextKeyInfo t) c else c)).
  destruct (reply_loop t r _) as [[b l'] c']. cbn [snd] in *. rewrite IH. destruct (ct_info x); reflexivity.
Qed.
Lemma updates_server m c : cl_updates (on_server_message key_name system m c) = cl_updates c.
Proof.
  destruct m as [i|k st|k n id]; unfold on_server_message; cbv zeta.
  - destruct (0 <=? i)%Z; [|reflexivity]. destruct (nth_error _ _); reflexivity.
  - unfold on_virtual_key_state_changed. destruct (is_virtual_key k); [|reflexivity]. cbv zeta.
    match goal with |- context [notify_loop k ?l ?x] => generalize (updates_notify k l x); destruct (notify_loop k l x) as [l' c'] end.
    cbn [snd cl_updates c_controls]. intros ->. destruct (Nat.ltb _ _); reflexivity.
  - match goal with |- context [reply_loop ?t ?l ?x] => generalize (updates_reply t l x); destruct (reply_loop t l x) as [[b l'] c'] end.
    cbn [snd]. intros K. destruct b; cbn; exact K.
Qed.
Lemma updates_closed l : forall c, cl_updates (fold_left (fun c x => emit (FClosed (ct_socket x)) c) l c) = cl_updates c.
Proof. induction l as [|x r IH]; intros c; [reflexivity|]. cbn [fold_left]. rewrite IH. reflexivity. Qed.
Lemma updates_instance s id c : cl_updates (on_set_instance_id s id c) = cl_updates c.
Proof.
  unfold on_set_instance_id. destruct (get_control s (cl_controls c)) as [x|]; [|reflexivity].
  destruct (text_eqb (ct_id x) id); [reflexivity|]. cbv zeta. cbn [cl_updates c_controls].
  unfold disconnect_by_instance_id. destruct (trivial_id id); [reflexivity|].
  cbv zeta. rewrite updates_closed. reflexivity.
Qed.
Lemma updates_control s m c : (forall n, m <> QConfig n) ->
  cl_updates (on_control_message search typer sent focus disk s m c) = cl_updates c.
Proof.
  intros H. destruct m; unfold on_control_message; cbv zeta.
  - rewrite updates_state. reflexivity.
  - rewrite updates_state, updates_send. reflexivity.
  - unfold on_toggle_requested. destruct (_ =? 0); [rewrite updates_state|]; reflexivity.
  - rewrite updates_state, updates_instance. reflexivity.
  - exfalso. eapply H. reflexivity.
  - rewrite updates_send. reflexivity.
  - destruct (parse_injected typer _); unfold answer_bool, answer; cbn [cl_updates emit]; rewrite ?updates_send; reflexivity.
  - destruct (parse_injected typer _); unfold answer_bool, answer; cbn [cl_updates emit]; rewrite ?updates_send; reflexivity.
Qed.
Lemma updates_control_loop reads sockets : (forall s n, ~ In (QConfig n) (fst (reads s))) -> forall c,
  cl_updates (control_loop search typer sent focus disk reads sockets c) = cl_updates c.
Proof.
  intros H. induction sockets as [|s r IH]; intros c; [reflexivity|]. cbn [control_loop].
  destruct (get_control s (cl_controls c)); [|apply IH].
  specialize (H s). destruct (reads s) as [l ok]. cbn [fst] in H. rewrite IH.
  assert (K : forall c, cl_updates (fold_left (fun c m => on_control_message search typer sent focus disk s m c) l c) = cl_updates c).
  { clear -H. induction l as [|m r IH]; intros c; [reflexivity|]. cbn [fold_left].
    rewrite IH; [|intros n K; apply (H n); right; exact K].
    apply updates_control. intros n ->. apply (H n). left. reflexivity. }
  destruct ok; [|cbn [cl_updates emit c_controls]]; apply K.
Qed.
Lemma updates_rest srv acc ctl c : (forall s n, ~ In (QConfig n) (fst (ctl s))) ->
  cl_updates (snd (loop_turn search typer key_name system sent focus disk (Turn false srv acc ctl) c)) = cl_updates c.
Proof.
  intros H. unfold loop_turn. cbn [tu_auto tu_server tu_accept tu_control negb].
  destruct (file_contexts search focus c) as [_ F].
  destruct (update_active_contexts search focus c) as [changed c1]. cbn [snd] in F.
  assert (F2 : cl_updates (snd (if changed then send_active_contexts sent c1 else (true, c1))) = cl_updates c).
  { destruct changed; [unfold send_active_contexts; rewrite updates_send|]; exact F. }
  destruct (if changed then send_active_contexts sent c1 else (true, c1)) as [ok c2]. cbn [snd] in F2.
  destruct ok; cbn [negb]; [|exact F2].
  assert (K : forall l c, cl_updates (fold_left (fun c m => on_server_message key_name system m c) l c) = cl_updates c).
  { induction l as [|m r IH]; intros c0; [reflexivity|]. cbn [fold_left]. rewrite IH. apply updates_server. }
  destruct (negb (snd srv)); cbn [snd].
  - rewrite K. exact F2.
  - unfold read_control_messages. rewrite updates_control_loop by exact H.
    destruct acc; cbn [cl_updates accept_control emit c_controls]; rewrite K; exact F2.
Qed.
End Updates.

Lemma fold_latest fs l : forall t, (t <= fold_left (fun t i => let u := fs_time fs i in if (u =? 0)%Z then t else Z.max t u) l t)%Z.
Proof.
  induction l as [|i r IH]; intros t; [cbn; lia|]. cbn [fold_left]. cbv zeta.
  destruct (fs_time fs i =? 0)%Z; [apply IH|]. eapply Z.le_trans; [|apply IH]. lia.
Qed.
Lemma fold_latest_in fs l : forall t i, In i l -> fs_time fs i <> 0%Z ->
  (fs_time fs i <= fold_left (fun t i => let u := fs_time fs i in if (u =? 0)%Z then t else Z.max t u) l t)%Z.
Proof.
  induction l as [|x r IH]; intros t i H NZ; [destruct H|]. cbn [fold_left]. cbv zeta.
  destruct H as [->|H]; [|apply IH; assumption].
  destruct (Z.eqb_spec (fs_time fs i) 0) as [K|_]; [contradiction|].
  eapply Z.le_trans; [|apply fold_latest]. lia.
Qed.
Lemma fold_latest_most fs b l : (forall m, (fs_time fs m <= b)%Z) -> forall t, (t <= b)%Z ->
  (fold_left (fun t i => let u := fs_time fs i in if (u =? 0)%Z then t else Z.max t u) l t <= b)%Z.
Proof.
  intros H. induction l as [|i r IH]; intros t K; [exact K|]. cbn [fold_left]. cbv zeta. apply IH.
  destruct (fs_time fs i =? 0)%Z; [exact K|]. specialize (H i). lia.
Qed.

Lemma latest_least fs name l m : fs_time fs name <> 0%Z -> In m (name :: l) -> fs_time fs m <> 0%Z ->
  (fs_time fs m <= latest_time fs name l)%Z.
Proof.
  intros NZ H MZ. unfold latest_time. cbv zeta.
  destruct (Z.eqb_spec (fs_time fs name) 0) as [K|_]; [contradiction|].
  destruct H as [->|H]; [apply fold_latest|apply fold_latest_in; assumption].
Qed.
Lemma latest_most fs name l b : (forall m, (fs_time fs m <= b)%Z) -> (latest_time fs name l <= b)%Z.
Proof.
  intros H. unfold latest_time. cbv zeta. destruct (fs_time fs name =? 0)%Z; [apply H|].
  apply fold_latest_most; [exact H|apply H].
Qed.

Section Follow.
Variable disk : nat -> files.
Variable name : text.
Variable clock : nat -> Z.
Hypothesis CK : clocked disk name clock.

(** the file as it was at check [n] *)
Record current (n : nat) (f : cfile) : Prop := Current {
  cu_name : cf_name f = name;
  cu_time : (cf_time f <= clock n)%Z;
  cu_config : forall g, fs_parse (disk n) name = Some g -> cf_config f = g
}.

Lemma follow_reload n check f : cf_name f = name ->
  latest_time (disk n) name (cfg_includes (cf_config f)) <> cf_time f \/ check = false ->
  current n (snd (file_update (disk n) check f)).
Proof.
  intros HN H. unfold file_update. cbv zeta. rewrite HN.
  assert (K : check && (latest_time (disk n) name (cfg_includes (cf_config f)) =? cf_time f)%Z = false).
  { destruct H as [H| ->]; [|reflexivity]. apply Z.eqb_neq in H. rewrite H. apply andb_false_r. }
  rewrite K. generalize (latest_most (disk n) name (cfg_includes (cf_config f)) (clock n) (ck_past _ _ _ CK n)).
  intros L. destruct (fs_parse (disk n) name) as [g|] eqn:P; cbn [snd]; split; cbn [cf_name cf_time cf_config];
    try assumption; try reflexivity; intros g' Q; congruence.
Qed.

Lemma follow_update n check f : current n f -> current (S n) (snd (file_update (disk (S n)) check f)).
Proof.
  intros [HN HT HC].
  destruct check; [|apply follow_reload; [exact HN|right; reflexivity]].
  destruct (Z.eq_dec (latest_time (disk (S n)) name (cfg_includes (cf_config f))) (cf_time f)) as [E0|NE];
    [|apply follow_reload; [exact HN|left; exact NE]].
  unfold file_update. cbv zeta. rewrite HN, E0, Z.eqb_refl. cbn [andb snd].
  assert (EX := ck_exists _ _ _ CK). assert (PA := ck_past _ _ _ CK).
  assert (NZ : fs_time (disk (S n)) name <> 0%Z) by (specialize (EX (S n)); lia).
  assert (old : forall m, In m (name :: cfg_includes (cf_config f)) -> (clock n < fs_time (disk (S n)) m)%Z -> False).
  { intros m IN L. assert (MZ : fs_time (disk (S n)) m <> 0%Z) by (specialize (EX n); specialize (PA n name); lia).
    generalize (latest_least _ _ _ _ NZ IN MZ). lia. }
  split; [exact HN|rewrite <- E0; apply latest_most; exact (PA (S n))|].
  intros g P. destruct (fs_parse (disk n) name) as [g0|] eqn:P0.
  - specialize (HC g0 eq_refl). destruct (ck_newer _ _ _ CK n g0 P0) as [Q|(m & IN & L)].
    + congruence.
    + subst g0. destruct (old m IN L).
  - destruct (ck_fixed _ _ _ CK n P0) as [Q|L]; [congruence|].
    destruct (old name (or_introl eq_refl) L).
Qed.

Variable search : text -> text -> bool.
Variable typer : text -> list stroke.
Variable key_name : key -> option text.
Variable system : text.
Variable sent : nat -> bool.
Variable focus : nat -> option window.

Definition follows (c : client) : Prop := exists n, cl_updates c = S n /\ current n (cl_file c).

Lemma follows_same c c' : cl_file c' = cl_file c -> cl_updates c' = cl_updates c -> follows c -> follows c'.
Proof. intros F U (n & K & X). exists n. rewrite F, U. split; assumption. Qed.
Lemma follows_update check c : follows c -> follows (snd (update_file disk check c)).
Proof.
  intros (n & K & X). exists (S n). unfold update_file. rewrite K.
  generalize (follow_update n check (cl_file c) X).
  destruct (file_update (disk (S n)) check (cl_file c)) as [r f]. cbn [snd]. intros Y.
  destruct r; split; try reflexivity; exact Y.
Qed.

Lemma follows_send m c : follows c -> follows (snd (Client.send sent m c)).
Proof. apply follows_same; [apply file_send|apply updates_send]. Qed.
Lemma follows_send_config c : follows c -> follows (snd (send_config search sent focus c)).
Proof. destruct (file_send_config search sent focus c) as [F U]. apply follows_same; assumption. Qed.

Notation turn_of := (loop_turn search typer key_name system sent focus disk).
Notation step_of := (client_step search typer key_name system sent focus disk).
Notation run_of := (client_run search typer key_name system sent focus disk).

Lemma follows_turn srv acc ctl c : (forall s n, ~ In (QConfig n) (fst (ctl s))) -> follows c ->
  follows (snd (turn_of (Turn true srv acc ctl) c)).
Proof.
  intros H F. rewrite turn_auto. apply (follows_update true) in F.
  destruct (update_file disk true c) as [changed c1]. cbn [snd] in F.
  assert (F2 : follows (snd (if changed then send_config search sent focus c1 else (true, c1)))).
  { destruct changed; [apply follows_send_config|]; exact F. }
  destruct (if changed then send_config search sent focus c1 else (true, c1)) as [ok c2]. cbn [snd] in F2.
  destruct ok; cbn [negb]; [|exact F2].
  revert F2. apply follows_same; [apply file_rest|apply updates_rest]; exact H.
Qed.

Lemma follows_step s c : checking s -> follows c -> follows (snd (step_of s c)).
Proof.
  intros [HS HA] F. destruct s as [t| | |].
  - destruct t as [b srv acc ctl]. cbn in HA, HS. subst b. unfold client_step.
    apply (follows_turn srv acc ctl c HS) in F.
    destruct (turn_of (Turn true srv acc ctl) c) as [ok c1]. cbn [snd] in F. destruct ok; [exact F|].
    unfold connect. apply follows_send_config. revert F. apply follows_same; reflexivity.
  - unfold client_step, toggle_active, send_active_contexts. cbn [snd]. apply follows_send. cbv zeta.
    destruct (cl_active _).
    + destruct (file_contexts search focus (emit (FActive (negb (cl_active c))) (c_active (negb (cl_active c)) c))) as [A B].
      revert F. apply follows_same; [exact A|exact B].
    + revert F. apply follows_same; reflexivity.
  - unfold client_step. cbn [snd]. apply follows_send_config. apply follows_update. exact F.
  - unfold client_step. cbn [snd]. apply follows_send. exact F.
Qed.

Lemma follows_run l : Forall checking l -> forall c, follows c -> follows (run_of l c).
Proof.
  induction 1 as [|s r HS HR IH]; intros c F; [exact F|]. cbn [client_run].
  apply (follows_step s c HS) in F. destruct (step_of s c) as [ok c1]. cbn [snd] in F.
  destruct ok; [apply IH|]; exact F.
Qed.

Lemma follows_start : name <> [] -> follows (snd (start_client search sent focus disk name)).
Proof.
  intros NE. unfold start_client, connect. apply follows_send_config.
  apply (follows_same (snd (load_config disk name new_client))); [reflexivity..|].
  exists 0%nat. unfold load_config. cbn [cl_file new_client no_file cf_name cl_recent swap_recent].
  assert (Q : text_eqb [] name = false) by (destruct name; [congruence|reflexivity]). rewrite Q.
  unfold file_load. change (cl_updates new_client) with 0%nat.
  assert (X := follow_reload 0 true (CF name (-1) no_config) eq_refl).
  cbn [cf_config cf_time] in X.
  assert (T0 : latest_time (disk 0%nat) name (cfg_includes no_config) <> (-1)%Z).
  { assert (E0 := ck_exists _ _ _ CK 0%nat).
    assert (NZ : fs_time (disk 0%nat) name <> 0%Z) by lia.
    generalize (latest_least (disk 0%nat) name (cfg_includes no_config) name NZ (or_introl eq_refl) NZ). lia. }
  specialize (X (or_introl T0)).
  destruct (file_update (disk 0%nat) true (CF name (-1) no_config)) as [r f]. cbn [snd] in X.
  destruct r as [[]|]; split; try reflexivity; exact X.
Qed.
End Follow.

(** * Where the configuration is looked for *)

Lemma join_within d f : directory d -> join d f = within d f.
Proof.
  intros (p & c & -> & NE). unfold join, within.
  destruct (p ++ [c]) as [|x r] eqn:K; [destruct p; discriminate K|]. rewrite <- K.
  rewrite last_last. rewrite (ascii_neq _ _ NE). reflexivity.
Qed.
Lemma directory_within d f : directory f -> directory (within d f).
Proof.
  intros (p & c & -> & NE). exists (d ++ slash :: p), c. split; [|exact NE].
  unfold within. rewrite <- app_assoc. reflexivity.
Qed.
Lemma directory_keymapper : directory (T "keymapper").
Proof. exists (T "keymappe"), "r"%char. split; [reflexivity|discriminate]. Qed.
Lemma directory_config : directory (T ".config").
Proof. exists (T ".confi"), "g"%char. split; [reflexivity|discriminate]. Qed.

Lemma first_skip e x l p : en_exists e x = false -> is_first e l p -> is_first e (x :: l) p.
Proof.
  intros H (a & b & -> & K & X). exists (x :: a), b. split; [reflexivity|]. split; [exact K|].
  intros q [<-|Y]; [exact H|exact (X q Y)].
Qed.
Lemma first_here e x l : en_exists e x = true -> is_first e (x :: l) x.
Proof. intros H. exists [], l. split; [reflexivity|]. split; [exact H|intros q []]. Qed.

Lemma first_both e d r b : join d default_config_filename = within b (T "keymapper.conf") ->
  join (join d (T "keymapper")) default_config_filename = within (within b (T "keymapper")) (T "keymapper.conf") ->
  forall rest,
  (forall p, search_bases e r = Some p -> is_first e rest p) ->
  (search_bases e r = None -> forall q, In q rest -> en_exists e q = false) ->
  (forall p, search_bases e (d :: r) = Some p -> is_first e (both b ++ rest) p) /\
  (search_bases e (d :: r) = None -> forall q, In q (both b ++ rest) -> en_exists e q = false).
Proof.
  intros J1 J2 rest HS HN. cbn [search_bases]. cbv zeta. rewrite J1, J2. unfold both. cbn [List.app].
  destruct (en_exists e (within b (T "keymapper.conf"))) eqn:E1.
  { split; [|discriminate]. intros p K. injection K as <-. apply first_here. exact E1. }
  destruct (en_exists e (within (within b (T "keymapper")) (T "keymapper.conf"))) eqn:E2.
  { split; [|discriminate]. intros p K. injection K as <-. apply first_skip; [exact E1|apply first_here; exact E2]. }
  split.
  - intros p K. apply first_skip; [exact E1|apply first_skip; [exact E2|exact (HS p K)]].
  - intros K q [<-|[<-|X]]; [exact E1|exact E2|exact (HN K q X)].
Qed.

Lemma first_app e l r p : is_first e l p -> is_first e (l ++ r) p.
Proof.
  intros (a & b & -> & K & X). exists a, (b ++ r). split; [rewrite <- app_assoc; reflexivity|split; assumption].
Qed.
Lemma first_after e l r p : (forall q, In q l -> en_exists e q = false) -> is_first e r p -> is_first e (l ++ r) p.
Proof.
  intros H F. induction l as [|x l IH]; [exact F|]. cbn. apply first_skip; [apply H; left; reflexivity|].
  apply IH. intros q Q. apply H. right. exact Q.
Qed.

Lemma search_places e b : directory b ->
  (forall p, search_bases e [b; T "/etc/"] = Some p -> is_first e (both b ++ both (T "/etc")) p) /\
  (search_bases e [b; T "/etc/"] = None -> forall q, In q (both b ++ both (T "/etc")) -> en_exists e q = false).
Proof.
  intros D. apply first_both.
  - apply join_within. exact D.
  - rewrite (join_within b) by exact D. apply join_within. apply directory_within. exact directory_keymapper.
  - intros p K. destruct (first_both e (T "/etc/") [] (T "/etc") eq_refl eq_refl []) as [A _];
      [intros q X; discriminate X|intros _ q []|]. specialize (A p K). rewrite app_nil_r in A. exact A.
  - intros K q Q. destruct (first_both e (T "/etc/") [] (T "/etc") eq_refl eq_refl []) as [_ A];
      [intros x X; discriminate X|intros _ x []|]. specialize (A K q). rewrite app_nil_r in A. exact (A Q).
Qed.

Definition config_home (e : environment) : text :=
  match en_xdg e with Some d => d | None => home_config e end.

Lemma resolve_default e : directory (en_home e) -> directory (en_cwd e) -> relative_names e ->
  (forall d, en_xdg e = Some d -> directory d /\ forall q, In q (both (home_config e)) -> en_exists e q = false) ->
  let p := resolve_config_file_path e [] in
  is_first e (places e) p \/
  (p = within (config_home e) (T "keymapper.conf") /\ forall q, In q (places e) -> en_exists e q = false).
Proof.
  intros DH DC RN HX. cbv zeta. unfold resolve_config_file_path.
  assert (B : get_config_path e = config_home e).
  { unfold get_config_path, config_home. destruct (en_xdg e); [reflexivity|]. apply join_within. exact DH. }
  assert (D : directory (config_home e)).
  { unfold config_home. destruct (en_xdg e) as [d|]; [apply (proj1 (HX d eq_refl))|].
    apply directory_within. exact directory_config. }
  rewrite B. destruct (search_places e (config_home e) D) as [HS HN].
  (* the files of README among those which are looked for *)
  assert (common : (forall p, is_first e (both (config_home e) ++ both (T "/etc")) p -> is_first e (common_places e) p) /\
    ((forall q, In q (both (config_home e) ++ both (T "/etc")) -> en_exists e q = false) ->
      forall q, In q (common_places e) -> en_exists e q = false)).
  { unfold common_places, config_home. destruct (en_xdg e) as [d|]; [|split; intros; auto].
    destruct (HX d eq_refl) as [_ NO]. split.
    - intros p (a & b & K & X & Y).
      assert (CASES : is_first e (both d) p \/ (forall q, In q (both d) -> en_exists e q = false) /\ is_first e (both (T "/etc")) p).
      { unfold both in K at 1. cbn [List.app] in K.
        destruct a as [|x [|y a]]; cbn in K.
        - injection K as K0 K. left. rewrite <- K0 in X |- *. apply first_here. exact X.
        - injection K as K0 K1 K. left. rewrite <- K1 in X |- *. unfold both. apply first_skip; [|apply first_here; exact X].
          apply Y. left. symmetry. exact K0.
        - injection K as K0 K1 K. right. split.
          + intros q [<-|[<-|[]]]; apply Y; [left|right; left]; symmetry; assumption.
          + exists a, b. split; [exact K|]. split; [exact X|]. intros q Q. apply Y. right. right. exact Q. }
      destruct CASES as [F|[N0 F]].
      + apply first_app. exact F.
      + apply first_after; [exact N0|]. apply first_after; [exact NO|exact F].
    - intros H q Q. apply in_app_or in Q. destruct Q as [Q|Q]; [apply H; apply in_or_app; left; exact Q|].
      apply in_app_or in Q. destruct Q as [Q|Q]; [exact (NO q Q)|apply H; apply in_or_app; right; exact Q]. }
  destruct common as [CF CN].
  destruct (search_bases e [config_home e; T "/etc/"]) as [p|].
  - left. unfold places. apply first_app. apply CF. apply HS. reflexivity.
  - specialize (CN (HN eq_refl)). change default_config_filename with (T "keymapper.conf").
    unfold relative_names in RN. rewrite RN.
    destruct (en_exists e (within (en_cwd e) (T "keymapper.conf"))) eqn:X; cbn [negb].
    + left. unfold places. apply first_after; [exact CN|].
      change (absolute (en_cwd e) (T "keymapper.conf")) with (join (en_cwd e) (T "keymapper.conf")).
      rewrite (join_within _ _ DC). apply first_here. exact X.
    + right. split; [apply join_within; exact D|].
      intros q Q. unfold places in Q. apply in_app_or in Q. destruct Q as [Q|[<-|[]]]; [exact (CN q Q)|exact X].
Qed.

(** * Names of files *)

Lemma plain_not_blank c : plain c = true -> blank c = false.
Proof.
  intros H. destruct (blank c) eqn:B; [|reflexivity].
  unfold blank, one_of in B. cbn [existsb] in B.
  destruct (Ascii.eqb_spec c (chr 32)) as [->|_]; [discriminate H|].
  destruct (Ascii.eqb_spec c (chr 9)) as [->|_]; [discriminate H|]. discriminate B.
Qed.

Lemma words_plain t : forallb plain t = true -> forall w, words t w = match w ++ t with [] => [] | x => [x] end.
Proof.
  induction t as [|c r IH]; intros H w.
  - rewrite app_nil_r. destruct w; reflexivity.
  - cbn [forallb] in H. apply andb_true_iff in H. destruct H as [HC HR].
    cbn [words]. rewrite (plain_not_blank c HC), (IH HR), <- app_assoc. reflexivity.
Qed.
Lemma plain_or_blank t : forallb plain t = true -> forallb (fun c => plain c || blank c) t = true.
Proof.
  intros H. apply forallb_forall. intros c K. rewrite forallb_forall in H. rewrite (H c K). reflexivity.
Qed.

Lemma expand_plain we t : posix_wordexp we -> forallb plain t = true -> t <> [] -> expand_path we t = Some t.
Proof.
  intros P H NE. unfold expand_path. rewrite (we_words we P t (plain_or_blank t H)), (words_plain t H []).
  destruct t; [congruence|reflexivity].
Qed.
Lemma open_plain t : forallb plain t = true -> t <> [] -> simple_command (open_command t) = Some [T "xdg-open"; t].
Proof.
  intros H NE. unfold simple_command, open_command.
  rewrite forallb_app, (plain_or_blank t H). cbn [andb].
  change (forallb (fun c => plain c || blank c) (T "xdg-open ")) with true. cbv iota. cbn [andb].
  change (words (T "xdg-open " ++ t) []) with (T "xdg-open" :: words t []).
  rewrite (words_plain t H []). destruct t; [congruence|reflexivity].
Qed.

(** * Starting *)

Lemma join_not_empty a b : b <> [] -> join a b <> [].
Proof.
  intros H. unfold join. destruct a as [|x r]; [exact H|].
  destruct (Ascii.eqb _ _); intros K; discriminate K.
Qed.
Lemma resolve_not_empty e name : resolve_config_file_path e name <> [].
Proof.
  destruct name as [|c r]; unfold resolve_config_file_path.
  - assert (D : default_config_filename <> []) by discriminate.
    assert (S0 : forall l p, search_bases e l = Some p -> p <> []).
    { induction l as [|b l IH]; intros p K; [discriminate K|]. cbn [search_bases] in K. cbv zeta in K.
      destruct (en_exists e _); [injection K as <-; apply join_not_empty; exact D|].
      destruct (en_exists e _); [injection K as <-; apply join_not_empty; exact D|]. exact (IH p K). }
    destruct (search_bases e [get_config_path e; T "/etc/"]) as [p|] eqn:K; [exact (S0 _ _ K)|].
    destruct (negb _); [apply join_not_empty; exact D|].
    change (absolute (en_cwd e) default_config_filename) with (join (en_cwd e) default_config_filename).
    apply join_not_empty. exact D.
  - cbn [absolute]. destruct (Ascii.eqb c slash); [discriminate|]. apply join_not_empty. discriminate.
Qed.

Lemma first_load disk p : p <> [] -> (0 <= fs_time (disk 0%nat) p)%Z ->
  let r := load_config disk p new_client in
  fst r = match fs_parse (disk 0%nat) p with Some _ => true | None => false end /\
  cl_file (snd r) = CF p (fs_time (disk 0%nat) p) (match fs_parse (disk 0%nat) p with Some g => g | None => no_config end) /\
  cl_broken (snd r) = false.
Proof.
  intros NE T0. cbv zeta. unfold load_config. cbn [cl_file new_client no_file cf_name cl_recent swap_recent].
  assert (Q : text_eqb [] p = false) by (destruct p; [congruence|reflexivity]). rewrite Q.
  unfold file_load, file_update. change (cl_updates new_client) with 0%nat.
  cbn [cf_name cf_time cf_config]. unfold latest_time. change (cfg_includes no_config) with (@nil text).
  cbn [fold_left]. cbv zeta.
  assert (K : (if (fs_time (disk 0%nat) p =? 0)%Z then fs_time (disk 0%nat) p else fs_time (disk 0%nat) p) = fs_time (disk 0%nat) p)
    by (destruct (_ =? _)%Z; reflexivity).
  rewrite K. assert (N0 : (fs_time (disk 0%nat) p =? -1)%Z = false) by (apply Z.eqb_neq; lia). rewrite N0.
  cbn [andb]. destruct (fs_parse (disk 0%nat) p); (split; [|split]); reflexivity.
Qed.

Lemma sends_ok search focus c : cl_broken c = false -> fst (send_config search (fun _ => true) focus c) = true.
Proof. intros B. unfold send_config, Client.send. rewrite B. reflexivity. Qed.
