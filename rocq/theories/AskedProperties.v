(** C118: clients are told keys they asked for, with assumptions and a non-trivial instance
    beside each theorem. *)
From Coq Require Import String Ascii List Arith NArith ZArith Bool Lia.
From Verif Require Import Base Key Text ParseSeq Match Stage StageProperties MultiStage MultiProperties.
From Verif Require Import Server ServerLoop ServerSpec ServerProofs ServerLift ServerInput ServerProperties.
From Verif Require Import Config Client ClientSpec ClientProofs ClientProperties Device Grab GrabSpec GrabProofs GrabRun GrabAlign GrabProperties.
From Verif Require Import Session SessionSpec SessionProofs SessionRun SessionProperties.
Import ListNotations.
Local Open Scope nat_scope.

(** * What is asked for *)

(** The requests for the next key among what clients send *)
Definition asks_one (m : umessage) : nat := match m with UOther MNextKey => 1 | _ => 0 end.
Definition asks (l : list umessage) : nat := list_sum (map asks_one l).
Definition asked (x : uevent) : nat :=
  match x with
  | XRead l _ _ => asks l
  | XTurn t => asks (ut_messages t)
  | _ => 0
  end.

(** How many keys clients were told so far *)
Definition keys_told (u : usys) : nat := List.length (answered (sv_trace (us_server u))).

(** * Proofs *)

(** What was told, and the request which is open *)
Definition owed (s : server) : nat := List.length (answered (sv_trace s)) + if sv_next s then 1 else 0.
Definition no_more (s s' : server) : Prop := owed s' <= owed s.

Lemma no_more_trans a b c : no_more a b -> no_more b c -> no_more a c.
Proof. unfold no_more. lia. Qed.
Lemma no_more_refl s : no_more s s.
Proof. unfold no_more. lia. Qed.
Lemma no_more_same s s' : sv_next s' = sv_next s -> sv_trace s' = sv_trace s -> no_more s s'.
Proof. intros H1 H2. unfold no_more, owed. rewrite H1, H2. lia. Qed.
Lemma no_more_log x s : answered_one x = [] -> no_more s (log x s).
Proof. intros Hx. unfold no_more, owed. cbn [log sv_trace sv_next]. rewrite answered_cons, Hx, app_nil_r. lia. Qed.
Lemma no_more_pushes l : forall s, no_more s (send_key_sequence l s).
Proof.
  induction l as [|e l IH]; intros s; [apply no_more_refl|]. unfold send_key_sequence in *. cbn [fold_left].
  eapply no_more_trans; [|apply IH]. unfold push. eapply no_more_trans; [|apply no_more_log; reflexivity].
  apply no_more_same; reflexivity.
Qed.
Section Told.
Variable clock : nat -> Z.
Lemma no_more_feed e dev s : no_more s (feed clock e dev s).
Proof.
  unfold feed. destruct (m_update e dev (sv_stage s)) as [m out].
  assert (H0 : no_more s (put_stage m (log (EFeed e dev) s))).
  { eapply no_more_trans; [apply (no_more_log (EFeed e dev)); reflexivity|apply no_more_same; reflexivity]. }
  destruct (back out) as [r|]; [destruct (N.eqb (ek r) k_timeout)|];
    (eapply no_more_trans; [|eapply no_more_trans; [apply no_more_pushes|apply no_more_same; reflexivity]]); try exact H0.
  eapply no_more_trans; [exact H0|]. unfold schedule_timeout. eapply no_more_trans; [|apply no_more_log; reflexivity].
  apply no_more_same; reflexivity.
Qed.
Lemma no_more_core reset : (forall s, no_more s (reset s)) -> forall e dev s,
  no_more s (fst (translate_core clock reset e dev s)).
Proof.
  intros Hr e dev s. rewrite core_cases. set (s0 := if N.eqb _ _ then s else _).
  assert (H0 : no_more s s0) by (unfold s0; destruct (N.eqb _ _); apply no_more_same; reflexivity).
  eapply no_more_trans; [exact H0|]. destruct (m_should_exit _); cbn [fst]; [|apply no_more_feed].
  eapply no_more_trans; [|apply no_more_log; reflexivity]. eapply no_more_trans; [|apply Hr].
  eapply no_more_trans; [apply (no_more_log (EFeed e dev)); reflexivity|apply no_more_same; reflexivity].
Qed.
Lemma no_more_translate reset : (forall s, no_more s (reset s)) -> forall fuel e dev s,
  no_more s (fst (translate_with clock reset fuel e dev s)).
Proof.
  intros Hr. induction fuel as [|fuel IH]; intros e dev s; cbn [translate_with fst]; [apply no_more_same; reflexivity|].
  destruct (event_eqb e (sv_last s) && _); [apply no_more_refl|].
  destruct (sv_next s && _ && _ && _) eqn:En.
  { apply andb_prop in En as [En _]. apply andb_prop in En as [En _]. apply andb_prop in En as [En _].
    unfold no_more, owed. cbn [fst put_next log sv_next sv_trace]. rewrite En, answered_cons, app_length. cbn. lia. }
  eapply no_more_trans; [|apply no_more_core; exact Hr].
  set (s1 := match sv_start s with Some _ => _ | None => _ end).
  assert (H1 : no_more s s1).
  { unfold s1. destruct (sv_start s) as [t|]; [|apply no_more_refl]. destruct (_ || _); [|apply no_more_refl].
    eapply no_more_trans; [|apply IH]. unfold cancel_timeout. eapply no_more_trans; [|apply no_more_log; reflexivity].
    apply no_more_same; reflexivity. }
  destruct (is_mouse_wheel (ek e) && kstate_eqb (es e) Up); [|exact H1]. eapply no_more_trans; [exact H1|apply IH].
Qed.
Lemma no_more_lifts : lifts clock no_more (fun _ _ => True) (fun _ => True) (fun _ => True) (fun _ => True) False.
Proof.
  constructor; try (intros; exact Logic.I); try (intros; apply no_more_same; reflexivity); try contradiction;
    try (intros; apply no_more_log; reflexivity).
  - exact no_more_trans.
  - intros. apply no_more_translate. assumption.
  - intros reset Hr s _. eapply no_more_trans; [|apply no_more_translate; exact Hr].
    unfold cancel_timeout. eapply no_more_trans; [|apply no_more_log; reflexivity]. apply no_more_same; reflexivity.
  - intros s. apply no_more_pushes.
  - intros e b s. eapply no_more_trans; [|apply no_more_log; reflexivity]. apply no_more_same; reflexivity.
  - intros v s. unfold schedule_flush. destruct (sv_flush s); [apply no_more_refl|].
    eapply no_more_trans; [|apply no_more_log; reflexivity]. apply no_more_same; reflexivity.
  - intros l m out s _. eapply no_more_trans; [apply no_more_pushes|]. apply no_more_same; reflexivity.
  - intros l s _. apply no_more_pushes.
Qed.
Lemma no_more_step send x s : x <> SMessage MNextKey -> no_more s (server_step clock send x s).
Proof.
  intros Hx. apply (li_step clock send _ _ _ _ _ _ no_more_lifts).
  destruct x as [e dev| | |ds|[[m|]|l'|k st|f| |l'|l']| ]; cbn; auto. apply Forall_forall. auto.
Qed.
Lemma no_more_flush send s : no_more s (fst (flush_send_buffer clock send s)).
Proof. exact (no_more_step send SFlush s ltac:(discriminate)). Qed.
Lemma no_more_input send t s : no_more s (turn_input clock send t s).
Proof.
  unfold turn_input. cbn zeta.
  set (s1 := match t_input t with IKey e dev => _ | _ => s end).
  assert (H : no_more s s1).
  { unfold s1. destruct (t_input t) as [|e dev|]; try apply no_more_refl.
    destruct (N.eqb _ _); [apply no_more_refl|apply no_more_step; discriminate]. }
  destruct (timeout_due _ _); [|exact H]. eapply no_more_trans; [exact H|apply no_more_step; discriminate].
Qed.
End Told.

Section Run.
Variable search : text -> text -> bool.
Variable held_keys : nat -> nat -> nat -> option (list N).
Variable monitor_ok : bool.
Variable write_ok create_ok : nat -> nat -> bool.
Variable keyboard_ok : nat -> bool.
Variable clock : nat -> Z.
Variable send_ok : nat -> bool.
Notation at_most u n u' := (owed (us_server u') <= owed (us_server u) + n).

Lemma message_owed send m u : at_most u (asks_one m) (on_umessage clock send m u).
Proof.
  destruct m as [f st|m].
  { unfold on_umessage. cbn [put_server us_server]. pose proof (no_more_step clock send (SMessage (MConfig (Some st))) (us_server u) ltac:(discriminate)) as H.
    unfold no_more in H. cbn [asks_one]. lia. }
  destruct m; cbn [on_umessage asks_one put_server us_server];
    try (match goal with |- context [server_step _ _ ?x _] => pose proof (no_more_step clock send x (us_server u) ltac:(discriminate)) as H end; unfold no_more in H; lia); try lia.
  cbn [server_step on_message]. unfold owed. cbn [put_next sv_next sv_trace]. destruct (sv_next (us_server u)); lia.
Qed.
Lemma messages_owed send l : forall u, at_most u (asks l) (on_umessages clock send l u).
Proof.
  induction l as [|m l IH]; intros u; [cbn; lia|]. unfold on_umessages in *. cbn [fold_left].
  pose proof (message_owed send m (put_reads (us_read u ++ [m]) u)) as H. change (us_server (put_reads (us_read u ++ [m]) u)) with (us_server u) in H.
  specialize (IH (on_umessage clock send m (put_reads (us_read u ++ [m]) u))). unfold asks in *. cbn [map list_sum fold_right]. cbn [list_sum fold_right] in IH. unfold list_sum in *. lia.
Qed.
Lemma start_owed during u : at_most u 0 (start_session search held_keys monitor_ok create_ok keyboard_ok clock send_ok during u).
Proof.
  unfold start_session. cbn zeta. destruct (negb _); [cbn; lia|].
  destruct (ds_over _); [cbn [put_phase put_dev put_number us_server]; lia|]. cbn [put_phase put_server put_dev put_number us_server].
  match goal with |- context [server_step _ _ ?x ?s] => pose proof (no_more_step clock send_ok x s ltac:(discriminate)) as H end. unfold no_more in H. lia.
Qed.
Lemma initial_owed during u : at_most u 0 (read_initial search held_keys monitor_ok create_ok keyboard_ok clock send_ok during u).
Proof. unfold read_initial. destruct (has_configuration _); [apply start_owed|cbn; lia]. Qed.
Lemma end_owed b u : at_most u 0 (end_session held_keys clock send_ok b u).
Proof.
  unfold end_session, next_connection. cbn zeta. cbn [put_phase put_dev put_server put_signal us_server].
  pose proof (no_more_step clock send_ok SReset (us_server u) ltac:(discriminate)) as H. unfold no_more in H. lia.
Qed.
Lemma rest_owed t i y u : at_most u (asks (ut_messages t)) (fst (turn_rest search held_keys monitor_ok create_ok clock send_ok t i y u)).
Proof.
  unfold turn_rest. cbn zeta.
  pose proof (no_more_input clock send_ok (ServerLoop.Turn (ut_now t) i None []) (us_server u)) as H1.
  set (s1 := turn_input clock send_ok _ (us_server u)) in *.
  assert (H2 : no_more s1 (fst (if flush_due (ut_now t) s1 then flush_send_buffer clock send_ok s1 else (s1, true)))).
  { destruct (flush_due _ _); [apply no_more_flush|apply no_more_refl]. }
  destruct (if flush_due (ut_now t) s1 then _ else _) as [s2 ok]. cbn [fst] in H2. unfold no_more in H1, H2.
  destruct (negb ok); [cbn [fst put_server put_dev us_server]; lia|].
  match goal with |- context [ds_over ?y'] => set (y2 := y') end.
  destruct (ds_over y2); [cbn [fst put_server put_dev us_server]; lia|].
  match goal with |- context [on_umessages clock send_ok (ut_messages t) ?v] => set (u2 := v) end.
  assert (H3 : owed (us_server u2) <= owed s2).
  { unfold u2. destruct (gs_changed _); [|cbn [put_server put_dev us_server]; lia]. cbn [put_server put_dev us_server].
    apply (no_more_step clock send_ok (SDevices _) s2). discriminate. }
  pose proof (messages_owed send_ok (ut_messages t) u2) as H4.
  repeat match goal with |- context [if ?b then _ else _] => destruct b end; cbn [fst put_filters_changed us_server]; lia.
Qed.
Lemma turn_owed t u : at_most u (asks (ut_messages t)) (fst (main_turn search held_keys monitor_ok write_ok create_ok clock send_ok t u)).
Proof.
  unfold main_turn. destruct (shutdown u); [cbn [fst]; lia|]. cbn zeta.
  destruct (read_input_event _ _) as [result g]. destruct result as [| |i e|].
  all: try (cbn [fst put_dev us_server]; lia); try apply rest_owed.
  destruct (to_key_event e) as [k|]; [|cbn [fst put_dev us_server]; lia]. destruct (N.eqb _ _); apply rest_owed.
Qed.
Lemma step_owed x u : at_most u (asked x) (ustep search held_keys monitor_ok write_ok create_ok keyboard_ok clock send_ok x u).
Proof.
  unfold ustep. destruct x as [a|l ok during|t| |w]; cbn [asked].
  - destruct (us_phase u), a; try lia; try (cbn; lia). exact (initial_owed during (put_reads [] u)).
  - destruct (us_phase u); try lia. cbn zeta. pose proof (messages_owed send_none l u) as H. destruct ok.
    + pose proof (initial_owed during (on_umessages clock send_none l u)) as H'. lia.
    + unfold next_connection. cbn [put_phase us_server]. exact H.
  - destruct (us_phase u); try lia. pose proof (turn_owed t u) as H.
    destruct (main_turn _ _ _ _ _ _ _ t u) as [u' [b|]]; cbn [fst] in H; [|exact H].
    pose proof (end_owed b u') as H'. lia.
  - destruct (us_phase u); cbn; lia.
  - destruct (us_phase u); cbn; lia.
Qed.
Lemma run_owed l : forall u, at_most u (list_sum (map asked l)) (urun search held_keys monitor_ok write_ok create_ok keyboard_ok clock send_ok l u).
Proof.
  induction l as [|x l IH]; intros u; [cbn; lia|]. unfold urun in *. cbn [fold_left].
  specialize (IH (ustep search held_keys monitor_ok write_ok create_ok keyboard_ok clock send_ok x u)). pose proof (step_owed x u) as H.
  cbn [map]. unfold list_sum in *. cbn [fold_right]. lia.
Qed.
End Run.

(** * The theorems *)

(** From any point at which no request is open, in particular from the start: whatever clients
    and devices do, no more keys are told than clients ask for. *)
Theorem C118_told_partial : forall search held_keys monitor_ok write_ok create_ok keyboard_ok clock send_ok w l0 l,
  let run l := urun search held_keys monitor_ok write_ok create_ok keyboard_ok clock send_ok l (init_usys monitor_ok w) in
  sv_next (us_server (run l0)) = false ->
  keys_told (run (l0 ++ l)) <= keys_told (run l0) + list_sum (map asked l).
Proof.
  intros search hk mo wo co ko clock send w l0 l run H.
  assert (E : run (l0 ++ l) = urun search hk mo wo co ko clock send l (run l0)) by (unfold run, urun; apply fold_left_app).
  rewrite E. pose proof (run_owed search hk mo wo co ko clock send l (run l0)) as R. unfold keys_told, owed in *. rewrite H in R.
  destruct (sv_next (us_server (urun search hk mo wo co ko clock send l (run l0)))); lia.
Qed.
Print Assumptions C118_told_partial.

(** So a client which connects then and does not ask is not told anything, and no key is kept
    from the applications for it. *)
Corollary C118_quiet_partial : forall search held_keys monitor_ok write_ok create_ok keyboard_ok clock send_ok w l0 l,
  let run l := urun search held_keys monitor_ok write_ok create_ok keyboard_ok clock send_ok l (init_usys monitor_ok w) in
  sv_next (us_server (run l0)) = false -> Forall (fun x => asked x = 0) l ->
  keys_told (run (l0 ++ l)) <= keys_told (run l0).
Proof.
  intros search hk mo wo co ko clock send w l0 l run H Q. pose proof (C118_told_partial search hk mo wo co ko clock send w l0 l H) as T. fold run in T.
  assert (Z0 : list_sum (map asked l) = 0) by (clear -Q; induction Q as [|x l Hx _ IH]; [reflexivity|]; unfold list_sum in *; cbn [map fold_right]; lia). lia.
Qed.
Print Assumptions C118_quiet_partial.

Definition asks_next : uevent := XTurn (UT 0 (Some (Ready false true (fun _ => None))) None [UOther MNextKey] true).
Definition one_client : list uevent := [XAccept (AClient None); XRead [sends_to "A >> X" []; all_active "A >> X"] true None].
Example C118_case :
  let u0 := init_usys true [a_keyboard 0 0] in
  let u := play (one_client ++ [asks_next; presses 0 30; presses 0 48]) u0 in
  sv_next (us_server u0) = false /\ list_sum (map asked (one_client ++ [asks_next; presses 0 30; presses 0 48])) = 1 /\
  keys_told u = 1 /\ out (us_server u) = "+B"%string /\ sv_next (us_server u) = false.
Proof. vm_compute. repeat split. Qed.

(** Missing: a request outlives its client.  The first client asks and goes before a key is
    pressed.  The next one does not ask; the first key which is pressed then is kept from the
    applications and told to it. *)
Theorem C118_left_refuted : exists w l l',
  let u0 := init_usys true w in
  proper w /\ Forall well_sent (l ++ l') /\
  sessions_orderly no_regex (fun _ => released) true (fun _ => fine) (fun _ => fine) fine ms_clock sends (l ++ l') u0 /\
  us_phase (play l u0) = PAccept /\ keys_told (play l u0) = 0 /\
  Forall (fun x => asked x = 0) l' /\ l' = one_client ++ [presses 0 48] /\
  keys_told (play (l ++ l') u0) = 1 /\ out (us_server (play (l ++ l') u0)) = ""%string /\
  out (us_server (play l' u0)) = "+B"%string.
Proof.
  exists [a_keyboard 0 0], (one_client ++ [asks_next; hangs_up]), (one_client ++ [presses 0 48]).
  cbn zeta. split; [apply properb_true; vm_compute; reflexivity|]. split; [apply well_sentb_true; vm_compute; reflexivity|].
  split; [apply sessionsb_true; vm_compute; reflexivity|]. split; [vm_compute; reflexivity|]. split; [vm_compute; reflexivity|].
  split; [repeat constructor|]. vm_compute. repeat split; reflexivity.
Qed.
Print Assumptions C118_left_refuted.
