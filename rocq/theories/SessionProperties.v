(** Properties C84 to C86 of the sessions of the server, with their assumptions and a
    non-trivial case beside each. *)
From Coq Require Import String Ascii List Arith NArith ZArith Bool Lia.
From Verif Require Import Base Key Text ParseSeq Match Stage StageProperties MultiStage MultiProperties Server ServerLoop ServerSpec ServerProofs ServerFlush ServerReset ServerProperties.
From Verif Require Import Config Client ClientSpec ClientProofs ClientProperties Device Grab GrabSpec GrabProofs GrabRun GrabAlign GrabProperties.
From Verif Require Import Session SessionSpec SessionProofs SessionRun.
Import ListNotations.
Local Open Scope Z_scope.

Lemma maps_mouse_spec m : m_has_mouse_mappings m = true <-> maps_mouse m.
Proof.
  assert (Q : forall l, seq_has_mouse l = true <-> exists e, In e l /\ mouse_key (ek e) = true) by (intro l; apply existsb_exists).
  unfold m_has_mouse_mappings, has_mouse_mappings, maps_mouse. rewrite existsb_exists. split.
  - intros (st & H1 & H2). apply existsb_exists in H2. destruct H2 as (c & H2 & H3). apply orb_prop in H3. destruct H3 as [H3|H3].
    + apply Q in H3. destruct H3 as (e & H3 & H4). exists st, c, e. auto.
    + apply existsb_exists in H3. destruct H3 as (i & H3 & H4). apply Q in H4. destruct H4 as (e & H4 & H5). exists st, c, e. eauto 10.
  - intros (st & c & e & H1 & H2 & H3 & H4). exists st. split; [exact H1|]. apply existsb_exists. exists c. split; [exact H2|]. apply orb_true_intro.
    destruct H4 as [H4|(i & H4 & H5)]; [left; apply Q; eauto|right]. apply existsb_exists. exists i. split; [exact H4|]. apply Q. eauto.
Qed.
Lemma maps_mouse_same mice m : (mice = true <-> maps_mouse m) -> mice = m_has_mouse_mappings m.
Proof. rewrite <- maps_mouse_spec. destruct mice, (m_has_mouse_mappings m); intuition congruence. Qed.

(** ** C84 The devices grabbed follow the configuration *)

(** Clients come and go and send configurations, devices come and go.  Unless the kernel has
    a change to report or the server is about to exit, exactly those devices are grabbed
    which the configuration last read from the client asks for. *)
Theorem C84_grabbed_partial : forall search held_keys write_ok create_ok keyboard_ok clock send_ok w l,
  proper w -> sessions_orderly search held_keys true write_ok create_ok keyboard_ok clock send_ok l (init_usys true w) -> Forall well_sent l ->
  let u := urun search held_keys true write_ok create_ok keyboard_ok clock send_ok l (init_usys true w) in
  let grabbed := is_grabbed (gs_log (ds_grab (us_dev u))) in
  us_phase u = PLoop -> shutdown u = false -> ds_pending (us_dev u) = false ->
  exists filters m, given (us_read u) = Some (filters, m) /\ m_stages m <> [] /\
  forall mice, (mice = true <-> maps_mouse m) ->
  let wants := wanted search (map read_grab_filter filters) mice in
  (forall n, In n (ds_world (us_dev u)) -> grabbed (n_dev n) = true -> wants n) /\
  (forall n, In n (ds_world (us_dev u)) -> wants n -> n_grabs n = true -> grabbed (n_dev n) = true) /\
  (forall dev, grabbed dev = true -> exists n, In n (ds_world (us_dev u)) /\ n_dev n = dev).
Proof.
  intros search hk wo co ko clock send w l P O W u g Ph SD Pe.
  pose proof (run_sound search hk wo co ko clock send l (init_usys true w) (init_sound search w P) O W) as U. fold u in U.
  destruct U as [_ U]. rewrite Ph in U. destruct U as (F & Ov & mice & filters & SY & M).
  destruct M as [M|(M1 & M2 & M3)]; [destruct (no_exit u SD M)|].
  unfold follows in F. destruct (given (us_read u)) as [[fs m]|]; [|destruct F as [F|F]; [destruct (no_exit u SD F)|contradiction]].
  destruct F as [F1 F2]. destruct F2 as [F2|F2]; [destruct (no_exit u SD F2)|]. exists fs, m. split; [reflexivity|].
  split; [intro X; apply M3; rewrite F2; now apply shape_empty|]. intros mc Hmc. apply maps_mouse_same in Hmc.
  assert (E1 : mice = mc) by (rewrite M2, Hmc, !shape_mouse, F2; reflexivity).
  destruct SY as [[A1 A2 A3 A4] Em Ef Mo P' K KP Ch Fi]. destruct (Fi Pe) as (G1 & G2 & G3). rewrite Em, Ef, E1, M1, F1 in G1, G2.
  unfold g. split; [|split].
  - intros n Hn Q. apply G1; [exact Hn|]. now apply A4.
  - intros n Hn Wn G. apply A4. now apply G2.
  - intros dev Q. apply G3. now apply A4.
Qed.
Print Assumptions C84_grabbed_partial.

(** Between sessions, while the configuration is waited for and after the server exited
    normally no device is grabbed. *)
Theorem C84_released : forall search held_keys write_ok create_ok keyboard_ok clock send_ok w l,
  proper w -> sessions_orderly search held_keys true write_ok create_ok keyboard_ok clock send_ok l (init_usys true w) -> Forall well_sent l ->
  let u := urun search held_keys true write_ok create_ok keyboard_ok clock send_ok l (init_usys true w) in
  us_phase u = PAccept \/ us_phase u = PConfig \/ us_phase u = PDone 0 ->
  forall dev, is_grabbed (gs_log (ds_grab (us_dev u))) dev = false.
Proof.
  intros search hk wo co ko clock send w l P O W u Ph.
  pose proof (run_sound search hk wo co ko clock send l (init_usys true w) (init_sound search w P) O W) as U. fold u in U.
  destruct U as [_ U]. destruct Ph as [Ph|[Ph|Ph]]; rewrite Ph in U.
  - apply U.
  - apply U.
  - apply U. reflexivity.
Qed.
Print Assumptions C84_released.

(** A session goes on with configurations which ask for the same devices, unless the server
    is to exit. *)
Theorem C84_kept_partial : forall search held_keys write_ok create_ok keyboard_ok clock send_ok w l t r,
  proper w -> (forall n, send_ok n = true) ->
  sessions_orderly search held_keys true write_ok create_ok keyboard_ok clock send_ok l (init_usys true w) -> Forall well_sent l -> Forall single l ->
  let u := urun search held_keys true write_ok create_ok keyboard_ok clock send_ok l (init_usys true w) in
  let u' := urun search held_keys true write_ok create_ok keyboard_ok clock send_ok (l ++ [XTurn t]) (init_usys true w) in
  us_phase u = PLoop -> ds_pending (us_dev u) = false -> ut_ready t = Some r -> sl_client r = true -> ut_ok t = true ->
  (forall fs m fs' m', given (us_read u) = Some (fs, m) -> In (UConfig fs' m') (ut_messages t) ->
     fs' = fs /\ m_stages m' <> [] /\ (maps_mouse m' <-> maps_mouse m)) ->
  shutdown u' = true \/ (us_phase u' = PLoop /\ us_number u' = us_number u /\ us_dev u' = us_dev u).
Proof.
  intros search hk wo co ko clock send w l t r P SK O W Si u u' Ph Pe Rd Cl Ok A.
  pose proof (run_sound search hk wo co ko clock send l (init_usys true w) (init_sound search w P) O W) as U. fold u in U.
  pose proof (run_flag search hk wo co ko clock send l (init_usys true w) (init_sound search w P) O W Si (or_intror eq_refl)) as FL. fold u in FL.
  assert (Q : u' = ustep search hk true wo co ko clock send (XTurn t) u) by (unfold u', urun; now rewrite fold_left_app).
  rewrite Q. clear Q u'. clearbody u. unfold ustep. rewrite Ph. destruct U as [S0 U]. rewrite Ph in U. destruct U as (F & Ov & mice & filters & SY & M).
  destruct (shutdown u) eqn:SD.
  { left. unfold main_turn. rewrite SD. unfold end_session, next_connection, shutdown. cbn. now rewrite orb_true_r. }
  destruct M as [M|M]; [destruct (no_exit u SD M)|]. destruct FL as [FL|FL]; [destruct (no_exit u SD FL)|]. pose proof M as (M1 & M2 & M3).
  pose proof F as F0. unfold follows in F. destruct (given (us_read u)) as [[fs m]|]; [|destruct F as [F|F]; [destruct (no_exit u SD F)|contradiction]].
  destruct F as [F1 F2]. destruct F2 as [F2|F2]; [destruct (no_exit u SD F2)|].
  assert (AL : Forall (alike mice filters) (ut_messages t)).
  { apply Forall_forall. intros [fs' m'|x] Hx; [|exact Logic.I]. destruct (A fs m fs' m' eq_refl Hx) as (A1 & A2 & A3). split; [congruence|]. split; [|exact A2].
    rewrite M2, (shape_mouse (sv_stage _)), F2, <- shape_mouse. rewrite <- !maps_mouse_spec in A3. destruct (m_has_mouse_mappings m'), (m_has_mouse_mappings m); intuition congruence. }
  pose proof (turn_kept search hk wo co clock send t u r mice filters SK S0 F0 Ov SY M FL SD Pe Rd Cl Ok AL) as T.
  destruct (main_turn search hk true wo co clock send t u) as [u1 [b|]].
  - destruct T as [T0 [T|[T _]]]; [|discriminate]. left. unfold end_session, next_connection, shutdown in *.
    cbn [put_phase put_dev put_server put_signal us_signal us_server] in *. destruct b; cbn [negb] in *; [|now rewrite orb_true_r].
    rewrite orb_false_r. apply orb_prop in T. destruct T as [T|T]; [now rewrite T|]. apply exited_iff in T.
    apply orb_true_intro. right. apply exited_iff. now apply step_exited.
  - destruct T as [_ [T|(_ & T1 & T2 & T3)]]; [left; exact T|right]. rewrite T2, Ph. auto.
Qed.
Print Assumptions C84_kept_partial.

(** Deciding the conditions for the cases below *)
Notation play := (urun no_regex (fun _ => released) true (fun _ => fine) (fun _ => fine) fine ms_clock sends).
Definition sends_to (t : string) (filters : list sent_filter) : umessage := UConfig filters (new_multi_stage (load_multi t)).
Definition all_active (t : string) : umessage := UOther (Server.MContexts (all_contexts (load_multi t))).
Definition calls (l : list umessage) : uevent := XTurn (UT 0 (Some (Ready false true (fun _ => None))) None l true).
Definition tick : uevent := XTurn (UT 0 (Some quiet) None [] true).
Definition hangs_up : uevent := XTurn (UT 0 (Some (Ready false true (fun _ => None))) None [] false).
Definition presses (dev : nat) (k : N) : uevent := XTurn (UT 0 (Some (reads_from dev (IE 1 k 1))) None [] true).
Definition holds (u : usys) : list nat := List.filter (is_grabbed (gs_log (ds_grab (us_dev u)))) (seq 0 10).
Definition no_config_after (l : list umessage) : bool := forallb (fun m => match m with UConfig _ _ => false | _ => true end) l.
Fixpoint no_gapb (l : list umessage) : bool :=
  match l with
  | [] => true
  | UConfig _ st :: r => (match m_stages st with [] => no_config_after r | _ => true end) && no_gapb r
  | UOther _ :: r => no_gapb r
  end.
Lemma no_config_after_true l : no_config_after l = true -> forall f s, ~ In (UConfig f s) l.
Proof. intros H f s X. unfold no_config_after in H. rewrite forallb_forall in H. discriminate (H _ X). Qed.
Lemma no_gapb_true l : no_gapb l = true -> no_gap l.
Proof.
  induction l as [|[f st|m] l IH]; intro H; [exact Logic.I| |exact (IH H)]. cbn [no_gapb] in H. apply andb_prop in H. destruct H as [H1 H2].
  split; [|auto]. intro E. rewrite E in H1. now apply no_config_after_true.
Qed.
Fixpoint one_configb (l : list umessage) : bool :=
  match l with [] => true | UConfig _ _ :: r => no_config_after r | UOther _ :: r => one_configb r end.
Lemma one_configb_true l : one_configb l = true -> one_config l.
Proof.
  induction l as [|m l IH]; intros H a f s b f' s' Q X; [destruct a; discriminate|]. destruct a as [|m' a]; injection Q as -> Q.
  - subst b. cbn [one_configb] in H. exact (no_config_after_true l H f' s' X).
  - destruct m' as [f0 s0|x]; cbn [one_configb] in H; [|exact (IH H a f s b f' s' Q X)].
    apply (no_config_after_true l H f s). rewrite Q. apply in_or_app. right. now left.
Qed.
Definition well_sentb (x : uevent) : bool :=
  match x with
  | XRead l ok _ => (ok || match l with [] => true | _ => false end) && no_gapb l
  | XTurn t => (ut_ok t || match ut_messages t with [] => true | _ => false end) && no_gapb (ut_messages t)
  | _ => true
  end.
Lemma well_sentb_true l : forallb well_sentb l = true -> Forall well_sent l.
Proof.
  assert (Q : forall ok (l : list umessage), ok || match l with [] => true | _ => false end = true -> ok = false -> l = []).
  { intros [] [] H E; try discriminate; reflexivity. }
  rewrite forallb_forall. intro H. apply Forall_forall. intros x Hx. specialize (H x Hx). destruct x as [a|m ok d|t| |w]; try exact Logic.I;
    cbn [well_sentb] in H; apply andb_prop in H; destruct H as [H1 H2]; (split; [now apply Q|now apply no_gapb_true]).
Qed.
Definition singleb (x : uevent) : bool := match x with XRead l _ _ => one_configb l | _ => true end.
Lemma singleb_true l : forallb singleb l = true -> Forall single l.
Proof.
  rewrite forallb_forall. intro H. apply Forall_forall. intros x Hx. specialize (H x Hx). destruct x; try exact Logic.I. now apply one_configb_true.
Qed.
Definition comesb (w : list node) (u : usys) : bool :=
  properb w && (keepsb w (open_nodes (ds_grab (us_dev u))) && samesb w (open_nodes (ds_grab (us_dev u)))).
Fixpoint sessionsb (l : list uevent) (u : usys) : bool :=
  match l with
  | [] => true
  | x :: r =>
      match x with
      | XTurn t => match ut_during t with Some w => comesb w u | None => true end
      | XWorld w => comesb w u
      | XRead _ _ (Some w) | XAccept (AClient (Some w)) => properb w
      | _ => true
      end && sessionsb r (ustep no_regex (fun _ => released) true (fun _ => fine) (fun _ => fine) fine ms_clock sends x u)
  end.
Lemma sessionsb_true l : forall u, sessionsb l u = true ->
  sessions_orderly no_regex (fun _ => released) true (fun _ => fine) (fun _ => fine) fine ms_clock sends l u.
Proof.
  assert (Q : forall w u, comesb w u = true -> proper w /\ keeps_numbers w (open_nodes (ds_grab (us_dev u))) /\ keeps_properties w (open_nodes (ds_grab (us_dev u)))).
  { intros w u H. apply andb_prop in H. destruct H as [H1 H2]. apply andb_prop in H2. destruct H2 as [H2 H3].
    split; [now apply properb_true|]. split; [now apply keepsb_true|now apply samesb_true]. }
  induction l as [|x l IH]; intros u H; [exact Logic.I|]. cbn [sessionsb] in H. apply andb_prop in H. destruct H as [H1 H2].
  split; [|now apply IH]. destruct x as [[[w|]| |]|m ok [w|]|t| |w]; cbn [devices_orderly]; auto using properb_true.
  intros w E. rewrite E in H1. auto.
Qed.

(** A client maps keys only; then also buttons, and its grabbed devices; a mouse is plugged
    in; the client hangs up and another one connects. *)
Example C84_case :
  let w0 := [a_keyboard 0 0; a_mouse 1 1; a_button 2 2] in
  let w1 := a_mouse 3 3 :: w0 in
  let keys := sends_to "A >> B" [] in
  let buttons := sends_to "ButtonLeft >> B" [(T "Power Button", true, false)] in
  let u0 := init_usys true w0 in
  let l1 := [XAccept (AClient None); XRead [keys] true None; calls [sends_to "A >> C" []]] in
  let l2 := l1 ++ [calls [buttons]; XAccept (AClient None); XRead [buttons] true None] in
  let l3 := l2 ++ [XWorld w1; tick] in
  let l4 := l3 ++ [hangs_up] in
  let l5 := l4 ++ [XAccept (AClient None); XRead [keys] true None; tick] in
  proper w0 /\ Forall well_sent l5 /\ Forall single l5 /\
  sessions_orderly no_regex (fun _ => released) true (fun _ => fine) (fun _ => fine) fine ms_clock sends l5 u0 /\
  (us_phase (play l1 u0) = PLoop /\ us_number (play l1 u0) = 1%nat /\ holds (play l1 u0) = [0; 2]%nat) /\
  (us_phase (play l2 u0) = PLoop /\ us_number (play l2 u0) = 2%nat /\ holds (play l2 u0) = [0; 1]%nat) /\
  (us_phase (play l3 u0) = PLoop /\ ds_pending (us_dev (play l3 u0)) = false /\ holds (play l3 u0) = [0; 1; 3]%nat) /\
  (us_phase (play l4 u0) = PAccept /\ holds (play l4 u0) = []) /\
  (us_phase (play l5 u0) = PLoop /\ shutdown (play l5 u0) = false /\ holds (play l5 u0) = [0; 2]%nat).
Proof.
  cbn zeta. split; [apply properb_true; vm_compute; reflexivity|]. split; [apply well_sentb_true; vm_compute; reflexivity|].
  split; [apply singleb_true; vm_compute; reflexivity|]. split; [apply sessionsb_true; vm_compute; reflexivity|].
  vm_compute. repeat split; reflexivity.
Qed.

(** An empty configuration and one with buttons read at once: the mouse is not grabbed though
    the configuration maps its buttons. *)
Theorem C84_gap_refuted : exists w l fs m,
  let u := play l (init_usys true w) in
  proper w /\ sessions_orderly no_regex (fun _ => released) true (fun _ => fine) (fun _ => fine) fine ms_clock sends l (init_usys true w) /\
  us_phase u = PLoop /\ shutdown u = false /\ ds_pending (us_dev u) = false /\ given (us_read u) = Some (fs, m) /\ maps_mouse m /\
  exists n, In n (ds_world (us_dev u)) /\ n_grabs n = true /\ is_mouse n /\ holds u = [0]%nat /\ n_dev n = 1%nat.
Proof.
  exists [a_keyboard 0 0; a_mouse 1 1],
    [XAccept (AClient None); XRead [sends_to "A >> B" []] true None; calls [UConfig [] (MS [] [] []); sends_to "ButtonLeft >> B" []]; tick],
    [], (new_multi_stage (load_multi "ButtonLeft >> B")).
  cbn zeta. split; [apply properb_true; vm_compute; reflexivity|]. split; [apply sessionsb_true; vm_compute; reflexivity|].
  split; [vm_compute; reflexivity|]. split; [vm_compute; reflexivity|]. split; [vm_compute; reflexivity|]. split; [vm_compute; reflexivity|].
  split; [apply maps_mouse_spec; vm_compute; reflexivity|]. exists (a_mouse 1 1). split; [vm_compute; auto|]. split; [reflexivity|].
  split; [left; reflexivity|]. split; vm_compute; reflexivity.
Qed.
Print Assumptions C84_gap_refuted.

(** Two configurations in the first read, which ask for different devices: the session which
    is started for the second one is ended again though nothing happens. *)
Theorem C84_restart_refuted : exists w l,
  let u := play l (init_usys true w) in let u' := play (l ++ [tick]) (init_usys true w) in
  proper w /\ sessions_orderly no_regex (fun _ => released) true (fun _ => fine) (fun _ => fine) fine ms_clock sends l (init_usys true w) /\
  Forall well_sent l /\ us_phase u = PLoop /\ shutdown u = false /\ ds_pending (us_dev u) = false /\ holds u = [0; 1]%nat /\
  us_phase u' = PAccept /\ shutdown u' = false /\ holds u' = [].
Proof.
  exists [a_keyboard 0 0; a_mouse 1 1], [XAccept (AClient None); XRead [sends_to "A >> B" []; sends_to "ButtonLeft >> B" []] true None].
  cbn zeta. split; [apply properb_true; vm_compute; reflexivity|]. split; [apply sessionsb_true; vm_compute; reflexivity|].
  split; [apply well_sentb_true; vm_compute; reflexivity|]. vm_compute. repeat split; reflexivity.
Qed.
Print Assumptions C84_restart_refuted.

(** ** C85 The server exits when asked to *)

Lemma done_stays search hk mo wo co ko clock send z l : forall u, us_phase u = PDone z ->
  let u' := urun search hk mo wo co ko clock send l u in us_phase u' = PDone z /\ gs_log (ds_grab (us_dev u')) = gs_log (ds_grab (us_dev u)).
Proof.
  induction l as [|x l IH]; intros u Ph; [auto|]. unfold urun in *. cbn [fold_left]. cbn zeta in *.
  assert (A : us_phase (ustep search hk mo wo co ko clock send x u) = PDone z /\
    gs_log (ds_grab (us_dev (ustep search hk mo wo co ko clock send x u))) = gs_log (ds_grab (us_dev u))).
  { unfold ustep. rewrite Ph. destruct x as [[]| | | |w]; auto. }
  destruct A as [A1 A2]. destruct (IH _ A1) as [B1 B2]. split; [exact B1|]. congruence.
Qed.

(** After a signal or the emergency exit the process ends with the next turn, whatever is
    read in it and whatever happens then, and all devices are released. *)
Theorem C85_exits : forall search held_keys write_ok create_ok keyboard_ok clock send_ok w l t l',
  proper w -> sessions_orderly search held_keys true write_ok create_ok keyboard_ok clock send_ok l (init_usys true w) -> Forall well_sent l ->
  let run l := urun search held_keys true write_ok create_ok keyboard_ok clock send_ok l (init_usys true w) in
  us_phase (run l) = PLoop ->
  us_signal (run l) = true \/ In EExit (sv_trace (us_server (run l))) ->
  us_phase (run (l ++ XTurn t :: l')) = PDone 0 /\ forall dev, is_grabbed (gs_log (ds_grab (us_dev (run (l ++ XTurn t :: l'))))) dev = false.
Proof.
  intros search hk wo co ko clock send w l t l' P O W run Ph X.
  pose proof (run_sound search hk wo co ko clock send l (init_usys true w) (init_sound search w P) O W) as U.
  assert (Q : run (l ++ XTurn t :: l') = urun search hk true wo co ko clock send l' (ustep search hk true wo co ko clock send (XTurn t) (run l)))
    by (unfold run, urun; rewrite fold_left_app; reflexivity).
  rewrite Q. clear Q. fold (run l) in U. set (u := run l) in *. clearbody u.
  assert (SD : shutdown u = true) by (destruct X as [X|X]; [unfold shutdown; now rewrite X|now apply exited_shutdown]).
  assert (E1 : ustep search hk true wo co ko clock send (XTurn t) u = end_session hk clock send false u) by (unfold ustep, main_turn; now rewrite Ph, SD).
  destruct U as [S0 U]. rewrite Ph in U. destruct U as (F & Ov & mice & filters & SY & M). destruct (settled_sound _ _ _ _ SY) as [SG SP].
  pose proof (end_sound search hk clock send false u S0 SG SP) as [_ V]. rewrite E1.
  assert (E2 : us_phase (end_session hk clock send false u) = PDone 0).
  { unfold end_session, next_connection, shutdown. cbn [put_phase put_dev put_server put_signal us_phase us_signal us_server negb]. now rewrite orb_true_r. }
  destruct (done_stays search hk true wo co ko clock send 0 l' _ E2) as [D1 D2]. split; [exact D1|]. intro dev. rewrite D2.
  rewrite E2 in V. now apply V.
Qed.
Print Assumptions C85_exits.

(** A server which was asked to exit accepts no client. *)
Theorem C85_accepts_none : forall search held_keys monitor_ok write_ok create_ok keyboard_ok clock send_ok w l,
  let u := urun search held_keys monitor_ok write_ok create_ok keyboard_ok clock send_ok l (init_usys monitor_ok w) in
  us_signal u = true \/ In EExit (sv_trace (us_server u)) -> us_phase u <> PAccept.
Proof.
  intros search hk mo wo co ko clock send w l u X Ph.
  assert (SD : shutdown u = true) by (destruct X as [X|X]; [unfold shutdown; now rewrite X|now apply exited_shutdown]).
  assert (Q : forall l u, (us_phase u = PAccept -> shutdown u = false) ->
    us_phase (urun search hk mo wo co ko clock send l u) = PAccept -> shutdown (urun search hk mo wo co ko clock send l u) = false).
  { clear. induction l as [|x l IH]; intros u H; [exact H|]. unfold urun in *. cbn [fold_left]. apply IH. clear IH.
    assert (NC : forall v, us_phase (next_connection v) = PAccept -> shutdown (next_connection v) = false).
    { intros v. unfold next_connection. cbn [put_phase us_phase]. change (shutdown (put_phase (if shutdown v then PDone 0 else PAccept) v)) with (shutdown v).
      destruct (shutdown v); [discriminate|reflexivity]. }
    assert (ST : forall d v, us_phase (read_initial search hk mo co ko clock send d v) <> PAccept).
    { intros d v. unfold read_initial, start_session. cbn zeta. destruct (has_configuration _); [|discriminate].
      destruct (negb _); [discriminate|]. destruct (ds_over _); discriminate. }
    assert (TU : forall t v, us_phase v = PLoop -> us_phase (fst (main_turn search hk mo wo co clock send t v)) <> PAccept).
    { intros t v Pv. assert (MS : forall l v, us_phase (on_umessages clock send l v) = us_phase v).
      { induction l0 as [|m l0 IH]; intro v0; [reflexivity|]. unfold on_umessages in *. cbn [fold_left]. rewrite IH. destruct m as [f st|m]; [reflexivity|destruct m; reflexivity]. }
      assert (R : forall i y, us_phase (fst (turn_rest search hk mo co clock send t i y v)) = PLoop).
      { intros i y. unfold turn_rest. cbn zeta. destruct (if flush_due _ _ then _ else _) as [s2 ok]. destruct (negb ok); [exact Pv|].
        destruct (ds_over _); [exact Pv|]. match goal with |- context [on_umessages clock send (ut_messages t) ?x] => set (u2 := x) end.
        assert (P2 : us_phase u2 = PLoop) by (unfold u2; destruct (gs_changed (ds_grab y)); exact Pv).
        pose proof (MS (ut_messages t) u2) as P3. rewrite P2 in P3. clearbody u2.
        destruct (negb _); [exact P3|]. destruct (us_changed _); [exact P3|]. destruct (negb _); [exact P3|]. destruct (m_should_exit _); exact P3. }
      unfold main_turn. cbn zeta. destruct (shutdown v); [cbn [fst]; congruence|]. destruct (read_input_event _ _) as [[| |i e|] g]; try (cbn [fst put_dev us_phase]; congruence).
      destruct (to_key_event e) as [k|]; [|cbn [fst put_dev us_phase]; congruence]. destruct (N.eqb _ _); rewrite R; discriminate. }
    unfold ustep. destruct (us_phase u) eqn:Ph, x as [[during| |]|m ok during|t| |w]; 
      try (cbn [put_dev put_phase put_signal us_phase]; intro Y; first [exact (H eq_refl)|congruence|discriminate Y]; fail).
    - destruct ok; [intro Y; destruct (ST _ _ Y)|apply NC].
    - pose proof (TU t u Ph) as T. destruct (main_turn search hk mo wo co clock send t u) as [u' [r|]]; [unfold end_session; apply NC|]. intro Y. destruct (T Y). }
  assert (B : shutdown u = false) by (apply Q; [reflexivity|exact Ph]). congruence.
Qed.
Print Assumptions C85_accepts_none.

(** A signal; and the emergency exit typed on a keyboard *)
Example C85_case :
  let w := [a_keyboard 0 0; a_mouse 1 1] in
  let u0 := init_usys true w in
  let start := [XAccept (AClient None); XRead [sends_to "Any >> B" []; all_active "Any >> B"] true None] in
  let signalled := start ++ [presses 0 30; XSignal] in
  let typed := start ++ [presses 0 42; presses 0 1; presses 0 37] in
  proper w /\ Forall well_sent (signalled ++ typed) /\
  sessions_orderly no_regex (fun _ => released) true (fun _ => fine) (fun _ => fine) fine ms_clock sends signalled u0 /\
  sessions_orderly no_regex (fun _ => released) true (fun _ => fine) (fun _ => fine) fine ms_clock sends typed u0 /\
  us_phase (play signalled u0) = PLoop /\ us_signal (play signalled u0) = true /\ holds (play signalled u0) = [0]%nat /\
  existsb is_exit_effect (sv_trace (us_server (play typed u0))) = true /\ us_signal (play typed u0) = false /\
  us_phase (play typed u0) = PDone 0 /\ holds (play typed u0) = [] /\
  us_phase (play (signalled ++ [tick]) u0) = PDone 0 /\ holds (play (signalled ++ [tick]) u0) = [].
Proof.
  cbn zeta. split; [apply properb_true; vm_compute; reflexivity|]. split; [apply well_sentb_true; vm_compute; reflexivity|].
  split; [apply sessionsb_true; vm_compute; reflexivity|]. split; [apply sessionsb_true; vm_compute; reflexivity|].
  vm_compute. repeat split; reflexivity.
Qed.

Lemma play_app a b u : play (a ++ b) u = play b (play a u).
Proof. apply fold_left_app. Qed.
Lemma exit_logged s : existsb is_exit_effect (sv_trace s) = true -> In EExit (sv_trace s).
Proof. apply exited_iff. Qed.
Lemma waits n : forall u, us_phase u = PConfig -> has_configuration (us_server u) = false -> us_phase (play (repeat (XRead [] true None) n) u) = PConfig.
Proof.
  induction n as [|n IH]; intros u H1 H2; [exact H1|]. cbn [repeat]. unfold urun in *. cbn [fold_left].
  assert (E1 : ustep no_regex (fun _ => released) true (fun _ => fine) (fun _ => fine) fine ms_clock sends (XRead [] true None) u = put_phase PConfig u).
  { unfold ustep. rewrite H1. cbn [on_umessages fold_left]. unfold read_initial. now rewrite H2. }
  rewrite E1. now apply IH.
Qed.
Definition asks_early : list uevent :=
  [XAccept (AClient None); XRead [sends_to "A >> B" []; UOther (MInjectInput [ev0 42%N Down; ev0 1%N Down; ev0 37%N Down])] true None].
(** While a configuration is waited for the exit has no effect: the client asks for the
    emergency exit with what it sends first, and the server waits for more. *)
Theorem C85_waiting_refuted : exists w l,
  let u0 := init_usys true w in
  proper w /\ Forall well_sent l /\
  sessions_orderly no_regex (fun _ => released) true (fun _ => fine) (fun _ => fine) fine ms_clock sends l u0 /\
  In EExit (sv_trace (us_server (play l u0))) /\ us_phase (play l u0) = PConfig /\
  forall n, us_phase (play (l ++ repeat (XRead [] true None) n) u0) = PConfig.
Proof.
  exists [a_keyboard 0 0], asks_early. cbv zeta. split; [apply properb_true; vm_compute; reflexivity|]. split; [apply well_sentb_true; vm_compute; reflexivity|].
  split; [apply sessionsb_true; vm_compute; reflexivity|]. split; [apply exit_logged; vm_compute; reflexivity|]. split; [vm_compute; reflexivity|].
  intro n. rewrite play_app. apply waits; vm_compute; reflexivity.
Qed.
Print Assumptions C85_waiting_refuted.

(** ** C86 Output is put out when it is asked for, or not at all *)

(** When the client goes while neither a delay nor the toggling of a virtual key is queued
    and every key can be sent, nothing is left for another session. *)
Theorem C86_nothing_left_partial : forall search held_keys write_ok create_ok keyboard_ok clock send_ok w l t r,
  proper w -> (forall n, send_ok n = true) ->
  sessions_orderly search held_keys true write_ok create_ok keyboard_ok clock send_ok l (init_usys true w) -> Forall well_sent l ->
  let run l := urun search held_keys true write_ok create_ok keyboard_ok clock send_ok l (init_usys true w) in
  us_phase (run l) = PLoop -> ds_pending (us_dev (run l)) = false -> shutdown (run l) = false ->
  sv_start (us_server (run l)) = None -> idle (us_server (run l)) ->
  ut_ready t = Some r -> sl_client r = true -> ut_ok t = false -> ut_messages t = [] ->
  us_phase (run (l ++ [XTurn t])) <> PLoop /\ sv_buf (us_server (run (l ++ [XTurn t]))) = [].
Proof.
  intros search hk wo co ko clock send w l t r P SK O W run Ph Pe SD St Id Rd Cl Ok Ms.
  pose proof (run_sound search hk wo co ko clock send l (init_usys true w) (init_sound search w P) O W) as U.
  assert (Q : run (l ++ [XTurn t]) = ustep search hk true wo co ko clock send (XTurn t) (run l)) by (unfold run, urun; rewrite fold_left_app; reflexivity).
  rewrite Q. clear Q. fold (run l) in U. set (u := run l) in *. clearbody u. clear run O W.
  destruct U as [[Hs R] U]. rewrite Ph in U. destruct U as (F & Ov & mice & filters & SY & M).
  assert (FP : forall s, sv_sending s = false -> idle s -> sv_buf (fst (flush_send_buffer clock send s)) = [] /\ sv_sending (fst (flush_send_buffer clock send s)) = false).
  { intros s H1 [H2 H3]. destruct (flush_prefix clock send SK s (sv_buf s) [] H1 (eq_sym (app_nil_r _)) H2 H3 (or_introl eq_refl)) as (B & _ & _ & C & _). auto. }
  assert (EN : forall v b, sv_sending (us_server v) = false -> idle (us_server v) -> us_phase (end_session hk clock send b v) <> PLoop /\ sv_buf (us_server (end_session hk clock send b v)) = []).
  { intros v b H1 [H2 H3]. split.
    { unfold end_session, next_connection. cbn zeta. match goal with |- context [shutdown ?x] => destruct (shutdown x) end; intro Y; discriminate Y. }
    unfold end_session, next_connection. cbn zeta. cbn [put_phase put_dev put_server put_signal us_server]. rewrite (replaced clock send SReset _ Logic.I).
    change (sv_buf (fst (flush_send_buffer clock send (release_all_keys (us_server v)))) = []). apply FP.
    - destruct (release_fields (us_server v)) as (-> & _). exact H1.
    - split; [now apply release_timeout|now apply release_virtual]. }
  unfold ustep. rewrite Ph. unfold main_turn. rewrite SD, Rd. cbn zeta. cbn [option_map read_input_event sl_monitor sl_client].
  rewrite (se_monitor _ _ _ _ SY), Pe, Cl. cbn [andb]. rewrite put_grab_same. unfold turn_rest. cbn zeta.
  assert (TI : ServerLoop.turn_input clock send (ServerLoop.Turn (ut_now t) INone None []) (us_server u) = us_server u).
  { unfold ServerLoop.turn_input. cbn [t_input t_now]. unfold timeout_due. now rewrite St. }
  rewrite TI. assert (FD : let s := fst (if flush_due (ut_now t) (us_server u) then flush_send_buffer clock send (us_server u) else (us_server u, true)) in
    sv_sending s = false /\ idle s).
  { cbn zeta. destruct (flush_due _ _); [|auto]. destruct (FP (us_server u) Hs Id) as [B C]. split; [exact C|]. unfold idle. rewrite B. split; constructor. }
  assert (OK : snd (if flush_due (ut_now t) (us_server u) then flush_send_buffer clock send (us_server u) else (us_server u, true)) = true) by (destruct (flush_due _ _); [now apply SessionRun.flush_ok|reflexivity]).
  destruct (if flush_due (ut_now t) (us_server u) then flush_send_buffer clock send (us_server u) else (us_server u, true)) as [s2 ok]. cbn [fst snd] in *. subst ok. cbn [negb].
  rewrite unchanged_update by exact (se_changed _ _ _ _ SY). rewrite Ov, (se_changed _ _ _ _ SY), Ok, Ms. cbn [negb on_umessages fold_left]. destruct FD. now apply EN.
Qed.
Print Assumptions C86_nothing_left_partial.

(** A key is typed, the client goes *)
Example C86_case :
  let w := [a_keyboard 0 0] in let u0 := init_usys true w in
  let l := [XAccept (AClient None); XRead [sends_to "A >> X Y" []; all_active "A >> X Y"] true None; presses 0 30] in
  proper w /\ Forall well_sent l /\
  sessions_orderly no_regex (fun _ => released) true (fun _ => fine) (fun _ => fine) fine ms_clock sends l u0 /\
  us_phase (play l u0) = PLoop /\ ds_pending (us_dev (play l u0)) = false /\ shutdown (play l u0) = false /\ sv_start (us_server (play l u0)) = None /\
  sv_buf (us_server (play l u0)) = [] /\ us_phase (play (l ++ [hangs_up]) u0) = PAccept /\
  out (us_server (play (l ++ [hangs_up]) u0)) = "+X -X +Y -Y"%string.
Proof.
  cbn zeta. split; [apply properb_true; vm_compute; reflexivity|]. split; [apply well_sentb_true; vm_compute; reflexivity|].
  split; [apply sessionsb_true; vm_compute; reflexivity|]. vm_compute. repeat split; reflexivity.
Qed.

(** A client which has no valid configuration yet passes on a text to be typed.  It is
    typed much later, when there is a configuration. *)
Theorem C86_typed_later_refuted : exists w l l' x,
  let u0 := init_usys true w in
  proper w /\ Forall well_sent (l ++ l') /\
  sessions_orderly no_regex (fun _ => released) true (fun _ => fine) (fun _ => fine) fine ms_clock sends (l ++ l') u0 /\
  us_phase (play l u0) = PConfig /\ out (us_server (play l u0)) = ""%string /\
  (forall n, In (XRead [UOther (MInjectOutput x)] true None) l /\ ~ In (XRead [UOther (MInjectOutput n)] true None) l') /\
  us_phase (play (l ++ l') u0) = PLoop /\ out (us_server (play (l ++ l') u0)) = "+P -P"%string.
Proof.
  exists [a_keyboard 0 0], [XAccept (AClient None); XRead [UConfig [] (MS [] [] [])] true None; XRead [UOther (MInjectOutput [ev0 25%N Down; ev0 25%N Up])] true None],
    [XRead [sends_to "A >> B" []] true None; tick], [ev0 25%N Down; ev0 25%N Up].
  cbn zeta. split; [apply properb_true; vm_compute; reflexivity|]. split; [apply well_sentb_true; vm_compute; reflexivity|].
  split; [apply sessionsb_true; vm_compute; reflexivity|]. split; [vm_compute; reflexivity|]. split; [vm_compute; reflexivity|].
  split; [intro n; split; [cbn; auto|cbn; intros [X|[X|[]]]; discriminate X]|]. split; vm_compute; reflexivity.
Qed.
Print Assumptions C86_typed_later_refuted.

(** An output with two delays: the client goes during the first one.  What follows it is put
    out at once, and what follows the second one in the session of another client with
    another configuration. *)
Theorem C86_rest_later_refuted : exists w l l',
  let u0 := init_usys true w in
  proper w /\ Forall well_sent (l ++ l') /\
  sessions_orderly no_regex (fun _ => released) true (fun _ => fine) (fun _ => fine) fine ms_clock sends (l ++ l') u0 /\
  us_phase (play l u0) = PAccept /\ out (us_server (play l u0)) = "+X -X +Y -Y"%string /\
  l' = [XAccept (AClient None); XRead [sends_to "B >> C" []] true None; tick] /\
  us_phase (play (l ++ l') u0) = PLoop /\ out (us_server (play (l ++ l') u0)) = "+X -X +Y -Y +Z -Z"%string.
Proof.
  exists [a_keyboard 0 0], [XAccept (AClient None); XRead [sends_to "A >> X 500ms Y 500ms Z" []; all_active "A >> X 500ms Y 500ms Z"] true None; presses 0 30; hangs_up],
    [XAccept (AClient None); XRead [sends_to "B >> C" []] true None; tick].
  cbn zeta. split; [apply properb_true; vm_compute; reflexivity|]. split; [apply well_sentb_true; vm_compute; reflexivity|].
  split; [apply sessionsb_true; vm_compute; reflexivity|]. vm_compute. repeat split; reflexivity.
Qed.
Print Assumptions C86_rest_later_refuted.
