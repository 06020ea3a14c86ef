(** The properties of the server as theorems, with their assumptions and a non-trivial
    instance beside each. *)
From Coq Require Import String List Arith NArith ZArith Bool Lia SpecFloat.
From Verif Require Import Base Key Match Stage Text ParseSeq Config MultiStage Replay.
From Verif Require Import StageSpec StageSafe StageProperties MultiSpec MultiProofs MultiProperties.
From Verif Require Import Server ServerLoop ServerSpec ServerProofs ServerQueue ServerFlush
  ServerVirtual ServerLift ServerInput ServerSafe ServerReset ServerTime.
Import ListNotations.
Local Open Scope N_scope.

(** * Examples *)

(** A clock which advances by a millisecond with each reading; all sends succeed. *)
Definition ms_clock (n : nat) : Z := (Z.of_nat n * 1000000)%Z.
Definition sends (n : nat) : bool := true.
Definition configure (t : string) : step := SMessage (MConfig (Some (new_multi_stage (load_multi t)))).
Definition activate (t : string) : step := SMessage (Server.MContexts (all_contexts (load_multi t))).
Definition typed (t : string) : list step :=
  match events t with Some l => map (fun e => SInput e 0) l | None => [] end.
Definition started (t : string) : server := server_run ms_clock sends [configure t; activate t] init_server.
Definition after (t : string) (l : list step) : server := server_run ms_clock sends l (started t).
Definition wheel (n : string) (v : N) : step := SInput (Ev (keyn n) Up v) 0.
Definition out (s : server) : string := fmt (delivered (sv_trace s)).

(** * C10 No undefined behaviour in the mapping engine *)

(** Whatever configurations, inputs, timeouts and requests the server gets. *)
Definition wf_request (x : step) : Prop :=
  match x with
  | SInput e dev => server_input e dev
  | SMessage (MConfig (Some m)) => exists cfg, Forall wf_stage_config cfg /\ m = new_multi_stage cfg
  | SMessage (MVirtual k _) => is_virtual_key k = true
  | SMessage (MInjectInput l) => wheels_paired (fun _ => None) l
  | _ => True
  end.
Theorem C10_server : forall clock send_ok l, Forall wf_request l ->
  let s := server_run clock send_ok l init_server in undamaged s /\ sv_oof s = false.
Proof.
  intros clock send_ok l Hl. cbn zeta. split; [|rewrite run_complete; reflexivity].
  destruct (run_safe clock send_ok l init_server) as (p & _ & p' & _ & H & _).
  - eapply Forall_impl; [|exact Hl]. intros [e dev| | |ds|[[m|]|l'|k st|f| |l'|l']| ] Hx; try exact Hx.
    destruct Hx as (cfg & Hc & ->). intros md. apply minv_init. exact Hc.
  - exists (fun _ => None). split; [intros k; reflexivity|]. exists (fun _ => None).
    split; [intros k; left; reflexivity|]. split; [split; [reflexivity|exact I]|]. intros _ _. reflexivity.
  - eapply safe_undamaged. exact H.
Qed.
Print Assumptions C10_server.

(** The same for the main loop. *)
Theorem C10_loop : forall clock send_ok ts,
  Forall (fun t => forall x, may_take t x -> wf_request x) ts ->
  let s := fst (server_turns clock send_ok ts init_server) in undamaged s /\ sv_oof s = false.
Proof.
  intros clock send_ok ts Ht. cbn zeta. destruct (turns_run clock send_ok ts init_server) as (l & Hl & ->).
  apply C10_server. eapply Forall_impl; [|exact Hl]. intros x (t & Hi & Hx). rewrite Forall_forall in Ht.
  apply (Ht t Hi x Hx).
Qed.
Print Assumptions C10_loop.

(** With wheel steps without values (most mice), lone wheel presses are fine, too. *)
Definition wf_request0 (x : step) : Prop :=
  match x with
  | SInput e dev => zero_input e dev
  | SMessage (MConfig (Some m)) => exists cfg, Forall wf_stage_config cfg /\ m = new_multi_stage cfg
  | SMessage (MVirtual k _) => is_virtual_key k = true
  | SMessage (MInjectInput l) => Forall (fun e => ev e = 0) l
  | _ => True
  end.
Theorem C10_server_no_values : forall clock send_ok l, Forall wf_request0 l ->
  undamaged (server_run clock send_ok l init_server).
Proof.
  intros clock send_ok l Hl. apply (safe_undamaged None). apply run_safe_zero; [|split; [reflexivity|exact I]].
  eapply Forall_impl; [|exact Hl]. intros [e dev| | |ds|[[m|]|l'|k st|f| |l'|l']| ] Hx; try exact Hx.
  destruct Hx as (cfg & Hc & ->). intros md. apply minv_init. exact Hc.
Qed.
Print Assumptions C10_server_no_values.

(** But presses and steps injected separately, with different values than those of the
    mouse, lead to undefined behaviour. *)
Theorem C10_injected_wheel_refuted : exists t l,
  Forall wf_stage_config (load_multi t) /\
  Forall (fun x => match x with
                   | SInput e dev => server_input e dev
                   | SMessage (MInjectInput l) => Forall wf_event l
                   | _ => False
                   end) l /\
  ~ undamaged (after t l).
Proof.
  exists "? D D >> X"%string,
    (let press := SMessage (MInjectInput [Ev WheelUp Down 0]) in
     [press; press; press; SInput (Ev WheelUp Up 1) 0; SMessage (MInjectInput [Ev WheelUp Up 0])]).
  split; [apply wf_stage_configs_dec; vm_compute; reflexivity|]. split.
  - assert (Hp : wf_event (Ev WheelUp Down 0)).
    { split; [discriminate|]. left. split; [reflexivity|]. split; [discriminate|]. left. reflexivity. }
    assert (Hu : forall v, wf_event (Ev WheelUp Up v)).
    { intros v. split; [discriminate|]. right. split; [reflexivity|]. right. right. reflexivity. }
    repeat (apply Forall_cons; [repeat (apply Forall_cons; [first [exact Hp|apply Hu]|]); try apply Forall_nil
      |]); try apply Forall_nil.
    split; [apply Hu|]. split; reflexivity.
  - intros H. cbn zeta in H. vm_compute in H. inversion_clear H. destruct H0. discriminate.
Qed.
Print Assumptions C10_injected_wheel_refuted.

Example C10_server_case :
  let t := "WheelUp X{100ms} >> Y"%string in
  let l := [configure t; activate t; wheel "WheelUp" 120;
            SMessage (MInjectInput [Ev (keyn "WheelUp") Down 7; Ev (keyn "WheelUp") Up 7])] ++ typed "+X" ++ [SExpire; SFlush] in
  Forall wf_request l /\ out (server_run ms_clock sends l init_server) = "-WheelUp -WheelUp +Y"%string.
Proof.
  cbn zeta. split; [|vm_compute; reflexivity].
  assert (E1 : keyn "WheelUp" = WheelUp) by (vm_compute; reflexivity). unfold wheel. rewrite E1.
  assert (E2 : typed "+X" = [SInput (Ev 45 Down 0) 0]) by (vm_compute; reflexivity). rewrite E2.
  assert (Hw : forall v, wf_event (Ev WheelUp Up v)).
  { intros v. split; [discriminate|]. right. split; [reflexivity|]. right. right. reflexivity. }
  cbn [app]. repeat (apply Forall_cons); try exact I; [| |  | |apply Forall_nil].
  - exists (load_multi "WheelUp X{100ms} >> Y"). split; [|reflexivity]. apply wf_stage_configs_dec. vm_compute. reflexivity.
  - split; [apply Hw|]. split; reflexivity.
  - cbn [wf_request wheels_paired ek es ev]. change (is_mouse_wheel WheelUp) with true. cbn beta iota.
    split; [left; reflexivity|]. split; [right; reflexivity|]. intros k. unfold wheel_next. cbn [ek es ev].
    change (is_mouse_wheel WheelUp) with true. cbn beta iota.
    repeat match goal with |- context [k =? WheelUp] => destruct (k =? WheelUp) end; reflexivity.
  - split; [|split; [reflexivity|discriminate]]. split; [discriminate|]. left. split; [reflexivity|]. split; [discriminate|]. left. reflexivity.
Qed.

(** * C25 Output is sent in order, without loss or duplication *)

(** Whatever happens, what was delivered and done so far belongs to the events queued
    first, and the rest of them is still in the queue. *)
Theorem C25_order : forall clock send_ok l, let s := server_run clock send_ok l init_server in
  exists sent, queued (sv_trace s) = sent ++ sv_buf s /\ done (sv_trace s) = visible sent.
Proof.
  intros clock send_ok l. apply queue_order; [reflexivity|]. split; [cbn; lia|]. exists []. split; reflexivity.
Qed.
Print Assumptions C25_order.
Theorem C25_order_loop : forall clock send_ok ts, let s := fst (server_turns clock send_ok ts init_server) in
  exists sent, queued (sv_trace s) = sent ++ sv_buf s /\ done (sv_trace s) = visible sent.
Proof.
  intros clock send_ok ts. cbn zeta. destruct (turns_run clock send_ok ts init_server) as (l & _ & ->). apply C25_order.
Qed.
Print Assumptions C25_order_loop.

Lemma run_sending : forall clock send_ok l s, sv_sending s = false -> sv_sending (server_run clock send_ok l s) = false.
Proof.
  intros clock send_ok l s Hs. refine (runs_sending clock send_ok any_label None s _ _ Hs).
  apply run_runs; [exact closed_any|exact I|exact Hs|]. apply Forall_forall. intros. apply step_ok_any.
Qed.

(** A flush empties the queue or schedules another one. *)
Theorem C25_progress : forall clock send_ok l, (forall n, send_ok n = true) ->
  let s := server_run clock send_ok (l ++ [SFlush]) init_server in sv_buf s = [] \/ sv_flush s <> None.
Proof.
  intros clock send_ok l Hok. cbn zeta. rewrite run_app. set (s := server_run clock send_ok l init_server).
  pose proof (flush_progress clock send_ok Hok s (run_sending clock send_ok l init_server eq_refl)) as H.
  cbn [server_run server_step]. destruct (flush_send_buffer clock send_ok s) as [s' b]. apply H.
Qed.
Print Assumptions C25_progress.

(** The events before a delay are sent at once; nothing else is until it is over, unless
    the exit sequence is pressed. *)
Theorem C25_delay : forall clock send_ok l now st v later ts, (forall n, send_ok n = true) -> v < 4096 ->
  let s := server_run clock send_ok l init_server in
  sv_buf s = now ++ Ev k_timeout st v :: later -> no_timeout now -> no_virtual now ->
  Forall turn_keeps ts -> Forall (fun t => (t_now t < clock (sv_ticks s) + Z.of_N v * 1000000)%Z) ts ->
  let s1 := server_step clock send_ok SFlush s in
  let s2 := fst (server_turns clock send_ok ts s1) in
  done (sv_trace s1) = done (sv_trace s) ++ visible now /\ sv_buf s1 = later /\
  (exits s1 s2 \/ done (sv_trace s2) = done (sv_trace s1)).
Proof.
  intros clock send_ok l now st v later ts Hok Hv s Hb Hn1 Hn2 Hk Ht. cbn zeta.
  destruct (flush_prefix clock send_ok Hok s now (Ev k_timeout st v :: later) (run_sending clock send_ok l init_server eq_refl)
              Hb Hn1 Hn2 (or_intror (ex_intro _ _ (ex_intro _ _ (conj eq_refl eq_refl))))) as (A & _ & _ & _ & (new & B & C) & D).
  cbn [tl ev] in *. cbn [server_step]. set (s1 := fst (flush_send_buffer clock send_ok s)) in *. split.
  { rewrite C, !done_app. destruct (minor_silent new B) as [_ E]. rewrite E, app_nil_r. f_equal.
    unfold done. rewrite rev_involutive. clear. unfold visible. induction now as [|e r IH]; [reflexivity|].
    cbn [flat_map]. rewrite flat_map_app, IH. f_equal. unfold calls_for.
    repeat match goal with |- context [if ?b then _ else _] => destruct b end; try reflexivity.
    destruct (es e); reflexivity. }
  split; [exact A|].
  destruct (turns_wait clock send_ok ts s1 _ Hk D) as [_ [H|H]]; [|left; exact H|right].
  { eapply Forall_impl; [|exact Ht]. intros t H. cbv beta in *. pose proof (delay_ticks v Hv). fold s in H. lia. }
  destruct (h_trace _ _ H) as (new' & E & F). rewrite E, done_app.
  replace (done new') with (@nil effect); [apply app_nil_r|]. symmetry. unfold done. apply Forall_rev in F. revert F. clear.
  induction (rev new') as [|x r IH]; intros F; [reflexivity|]. inversion_clear F. cbn [flat_map]. rewrite IH by assumption.
  destruct x; try contradiction; reflexivity.
Qed.
Print Assumptions C25_delay.

(** When it is over, the next turn of the loop goes on with the queue. *)
Theorem C25_delay_over : forall clock send_ok l t T now rest, (forall n, send_ok n = true) ->
  let s := server_run clock send_ok l init_server in
  sv_flush s = Some T -> (T < t_now t)%Z -> t_input t = INone -> sv_start s = None ->
  sv_buf s = now ++ rest -> no_timeout now -> no_virtual now ->
  rest = [] \/ (exists x r, rest = x :: r /\ ek x = k_timeout) ->
  let s' := fst (server_turn clock send_ok t s) in
  exists more, done (sv_trace s') = done (sv_trace s) ++ visible now ++ more.
Proof.
  intros clock send_ok l t T now rest Hok s Hf Ht Hi Hs Hb Hn1 Hn2 Hr. cbn zeta. unfold server_turn. rewrite Hi.
  assert (Ei : turn_input clock send_ok t s = s).
  { unfold turn_input. rewrite Hi. unfold timeout_due. rewrite Hs. reflexivity. }
  rewrite Ei. unfold flush_due. rewrite Hf. apply Z.ltb_lt in Ht. rewrite Ht.
  destruct (flush_prefix clock send_ok Hok s now rest (run_sending clock send_ok l init_server eq_refl) Hb Hn1 Hn2 Hr)
    as (_ & _ & _ & _ & (new & B & C) & _).
  pose proof (flush_progress clock send_ok Hok s (run_sending clock send_ok l init_server eq_refl)) as P.
  destruct (flush_send_buffer clock send_ok s) as [s1 b]. destruct P as [-> _]. cbn [fst] in *.
  destruct (updates_grow clock send_ok t s1) as (more & E). exists (done more). rewrite E, C, !done_app.
  destruct (minor_silent new B) as [_ En]. rewrite En, app_nil_r, <- app_assoc. f_equal. f_equal.
  unfold done. rewrite rev_involutive. clear. unfold visible. induction now as [|e r IH]; [reflexivity|].
  cbn [flat_map]. rewrite flat_map_app, IH. f_equal. unfold calls_for.
  repeat match goal with |- context [if ?b then _ else _] => destruct b end; try reflexivity.
  destruct (es e); reflexivity.
Qed.
Print Assumptions C25_delay_over.

Definition delays : string := "A >> X 100ms Y 100ms Z".
Example C25_case :
  let s := after delays (typed "+A") in
  let s1 := server_step ms_clock sends SFlush s in
  sv_buf s = match events "+X -X" with Some l => l | None => [] end ++
             Ev k_timeout Down 100 :: match events "+Y -Y" with Some l => l | None => [] end ++
             Ev k_timeout Down 100 :: match events "+Z -Z" with Some l => l | None => [] end /\
  out s1 = "+X -X"%string /\ out (server_step ms_clock sends SFlush s1) = "+X -X +Y -Y"%string /\
  ms_clock (sv_ticks s) = 0%Z /\ sv_flush s1 = Some 100000000%Z /\
  out (fst (server_turns ms_clock sends [Turn 99999999 INone None []; Turn 50 (IKey (Ev 48 Down 0) 0) None []] s1)) = "+X -X"%string /\
  out (fst (server_turns ms_clock sends [Turn 100000001 INone None []] s1)) = "+X -X +Y -Y"%string.
Proof. vm_compute. repeat split. Qed.

(** * C26 The state of virtual keys and the notifications agree *)
Theorem C26_reports_partial : forall clock send_ok l k, Forall keeps_config l -> is_virtual_key k = true ->
  let s := server_run clock send_ok l init_server in ~ In EExit (sv_trace s) -> agrees k (sv_virtual s) (sv_trace s).
Proof.
  intros clock send_ok l k Hl Hk s He. apply virtual_agree; [|exact Hl|exact He|exact Hk].
  split; [constructor|]. intros k' _. split; [exact I|]. split; [intros []|discriminate].
Qed.
Print Assumptions C26_reports_partial.

(** Setting a key to the state it has does nothing but to continue with the queue. *)
Theorem C26_same_state : forall clock send_ok k st s,
  (In k (sv_virtual s) /\ st = Down) \/ (~ In k (sv_virtual s) /\ st = Up) ->
  server_step clock send_ok (SMessage (MVirtual k st)) s =
  match sv_flush s with Some _ => s | None => server_step clock send_ok SFlush s end.
Proof.
  intros clock send_ok k st s H. cbn [server_step on_message]. unfold set_virtual_with, flush_unless_scheduled.
  pose proof (find_key k (sv_virtual s)) as F. destruct H as [[H ->]|[H ->]]; destruct (find_index _ _); cbn [negb kstate_eqb]; try reflexivity.
  - contradiction.
  - exfalso. exact (H (proj1 F)).
Qed.
Print Assumptions C26_same_state.

(** But replacing the configuration releases virtual keys without a report. *)
Theorem C26_reset_refuted : exists t l k, is_virtual_key k = true /\
  let s := after t l in ~ In EExit (sv_trace s) /\ ~ agrees k (sv_virtual s) (sv_trace s).
Proof.
  exists "A >> Virtual1"%string, (typed "+A" ++ [SFlush; configure "A >> Virtual1"]), (keyn "Virtual1").
  split; [vm_compute; reflexivity|]. cbn zeta. split.
  - vm_compute. intros H. repeat (destruct H as [H|H]; [discriminate|]). exact H.
  - intros [_ [_ H]]. vm_compute in H. apply H. reflexivity.
Qed.
Print Assumptions C26_reset_refuted.

Example C26_case :
  let v1 := keyn "Virtual1" in
  let l := typed "+A" ++ [SFlush] ++ typed "-A +B" ++ [SFlush; SMessage (MVirtual v1 Not); SMessage (MVirtual v1 Down)] in
  let t := "A >> Virtual1
Virtual1{B} >> X Virtual1"%string in
  let s := after t l in
  is_virtual_key v1 = true /\ existsb (fun x => match x with EExit => true | _ => false end) (sv_trace s) = false /\
  reported v1 (sv_trace s) = [Down; Up; Down] /\ sv_virtual s = [v1] /\ out s = "+X -X"%string /\
  out (server_step ms_clock sends (SMessage (MVirtual v1 Down)) s) = "+X -X"%string.
Proof. vm_compute. repeat split. Qed.

(** * C27 Virtual keys toggling each other do not hang the server *)

(** The loop of a flush ends, with one result, for any stages and any queue. *)
Theorem C27_flush_ends : forall clock send_ok s, exists s' i ok,
  iterates clock send_ok s 0 0 s' i ok /\
  forall s2 i2 ok2, iterates clock send_ok s 0 0 s2 i2 ok2 -> (s2, i2, ok2) = (s', i, ok).
Proof.
  intros clock send_ok s. pose proof (flush_loop_body clock send_ok 9 0 0 s eq_refl) as H.
  destruct (flush_loop clock send_ok 9 0 s) as [[s' i] ok]. exists s', i, ok. split; [exact H|].
  intros s2 i2 ok2 H2. exact (iterates_fun clock send_ok _ _ _ _ _ _ _ _ _ H2 H).
Qed.
Print Assumptions C27_flush_ends.
(** It toggles virtual keys at most nine times. *)
Theorem C27_flush_limit : forall clock send_ok s,
  (reports (sv_trace (server_step clock send_ok SFlush s)) <= reports (sv_trace s) + 9)%nat.
Proof. intros. exact (flush_reports clock send_ok s). Qed.
Print Assumptions C27_flush_limit.

(** Two contexts which activate each other. *)
Example C27_case :
  let t := "[modifier=""!Virtual1""]
ContextActive >> Virtual1
[modifier=""Virtual1""]
ContextActive >> Virtual1
[default]
C >> Virtual1 X"%string in
  let s := after t (typed "+C") in let s' := server_step ms_clock sends SFlush s in
  reports (sv_trace s') = (reports (sv_trace s) + 9)%nat /\ out s' = "+X -X"%string /\ sv_buf s' = [].
Proof. vm_compute. repeat split. Qed.

(** * C28 Replacing the configuration releases everything *)

(** Sessions begin with a configuration; steps do not inject outputs which keep keys
    pressed; configurations are replaced while no virtual key waits to be toggled.  Then
    releases are queued for all keys down, whatever sends fail, and once the queue is
    empty all keys are up. *)
Theorem C28_releases_partial : forall clock send_ok n s x l, session clock send_ok n s -> no_virtual (sv_buf s) ->
  ~ In EExit (sv_trace s) -> replaces x -> Forall (eq SFlush) l ->
  let s' := server_run clock send_ok (x :: l) s in
  released (queued (sv_trace s')) /\ (sv_buf s' = [] -> released (delivered (sv_trace s'))).
Proof. exact replace_releases. Qed.
Print Assumptions C28_releases_partial.
(** Without failures and delays they are released at once. *)
Theorem C28_releases_at_once_partial : forall clock send_ok, (forall n, send_ok n = true) -> forall n s x,
  session clock send_ok n s -> idle s -> ~ In EExit (sv_trace s) -> replaces x ->
  let s' := server_step clock send_ok x s in
  released (delivered (sv_trace s')) /\
  sv_buf s' = [] /\ sv_virtual s' = [] /\ sv_flush s' = None /\ sv_start s' = None.
Proof. exact replace_releases_at_once. Qed.
Print Assumptions C28_releases_at_once_partial.

Lemma mapped_dec : forall cfg,
  match cfg with [] => false | _ => true end &&
  forallb (forallb (fun c => forallb (balancedb []) (cx_outputs c) &&
                             forallb (fun m => balancedb [] (cm_out m)) (cx_commands c))) cfg = true -> mapped cfg.
Proof.
  intros cfg H. apply andb_prop in H as [H1 H2]. split; [destruct cfg; discriminate|].
  apply Forall_forall. intros cs Hi. apply balanced_config_dec. rewrite forallb_forall in H2. exact (H2 cs Hi).
Qed.
Definition held_keys : string := "A >> X
B >> (Y Z)".
Example C28_case :
  let l := typed "+A +B" ++ [SFlush; SFlush] in
  let s := after held_keys l in
  session ms_clock sends 1 s /\ idle s /\ ~ In EExit (sv_trace s) /\ replaces (configure held_keys) /\
  out s = "+X +Y +Z"%string /\ out (server_step ms_clock sends (configure held_keys) s) = "+X +Y +Z -X -Y -Z"%string.
Proof.
  cbn zeta. split.
  { unfold after, started. rewrite <- run_app.
    assert (E : typed "+A +B" = [SInput (Ev 30 Down 0) 0; SInput (Ev 48 Down 0) 0]) by (vm_compute; reflexivity).
    rewrite E. cbn [app server_run].
    repeat (refine (se_step ms_clock sends 1 _ _ _ _); [|exact I]).
    apply (se_start ms_clock sends (load_multi held_keys)). apply mapped_dec. vm_compute. reflexivity. }
  split; [split; vm_compute; constructor|].
  split; [vm_compute; intros H; repeat (destruct H as [H|H]; [discriminate|]); exact H|].
  split; [vm_compute; reflexivity|]. split; vm_compute; reflexivity.
Qed.

(** A virtual key which waits to be toggled makes the old configuration press a key
    after its keys were released; the new configuration does not know about it. *)
Definition delayed_toggle : string := "A >> 100ms Virtual1
Virtual1 >> X".
Theorem C28_virtual_refuted : exists n s x,
  session ms_clock sends n s /\ ~ In EExit (sv_trace s) /\ replaces x /\
  let s' := server_run ms_clock sends [x; SFlush; SFlush] s in
  ~ released (delivered (sv_trace s')) /\ sv_buf s' = [] /\ Forall (fun st => s_down (snd st) = []) (m_stages (sv_stage s')).
Proof.
  exists 1%nat, (after delayed_toggle (typed "+A" ++ [SFlush])), (configure delayed_toggle).
  split.
  { unfold after, started. rewrite <- run_app.
    assert (E : typed "+A" = [SInput (Ev 30 Down 0) 0]) by (vm_compute; reflexivity). rewrite E. cbn [app server_run].
    repeat (refine (se_step ms_clock sends 1 _ _ _ _); [|exact I]).
    apply (se_start ms_clock sends (load_multi delayed_toggle)). apply mapped_dec. vm_compute. reflexivity. }
  split; [vm_compute; intros H; repeat (destruct H as [H|H]; [discriminate|]); exact H|].
  split; [vm_compute; reflexivity|]. cbn zeta. split; [|split; [vm_compute; reflexivity|vm_compute; repeat constructor]].
  intros H. specialize (H (keyn "X") eq_refl). vm_compute in H. discriminate.
Qed.
Print Assumptions C28_virtual_refuted.

(** * C29 Timeouts are answered once, with the time passed *)

(** Every timeout event fed to the stages answers a request which was not answered yet;
    inputs do not contain timeouts. *)
Theorem C29_answered_once : forall clock send_ok l, Forall from_keys l ->
  timeouts_answer (sv_trace (server_run clock send_ok l init_server)).
Proof.
  intros clock send_ok l Hl. apply timeouts_answered; [exact Hl|]. split; [exact I|]. split; [intros H; contradiction|discriminate].
Qed.
Print Assumptions C29_answered_once.

(** A key which ends a timeout lets the stages know the milliseconds since the request. *)
Theorem C29_ended : forall clock send_ok l e dev t,
  let s := server_run clock send_ok l init_server in
  let s' := server_step clock send_ok (SInput e dev) s in
  let ns := (clock (sv_ticks s) - t)%Z in
  sv_start s = Some t -> es e = Down \/ sv_on_up s = true -> repeated e s = false -> asked e s = false ->
  (0 <= ns < 2147483648 * 1000000)%Z ->
  exits s s' \/ exists rest, fed (sv_trace s') =
    fed (sv_trace s) ++ Ev k_timeout Up (Z.to_N (Z.min (ns / 1000000) 4095)) :: rest.
Proof.
  intros clock send_ok l e dev t s s' ns Hs He Hr Ha Hn.
  destruct (translate_fed clock (reset_configuration clock send_ok None) (reset_grows clock send_ok) e dev s
              (run_last clock send_ok l init_server ltac:(discriminate))) as [H|(_ & _ & P & _ & _ & H)]; [left; exact H|].
  right. rewrite Hr, Ha in H. cbn [orb] in H. unfold ended in H. rewrite Hs in H.
  replace (kstate_eqb (es e) Down || sv_on_up s) with true in H.
  2:{ destruct He as [-> | ->]; [reflexivity|]. rewrite orb_true_r. reflexivity. }
  fold ns in H. rewrite (elapsed_value ns Hn) in H. exists (P ++ [e]). exact H.
Qed.
Print Assumptions C29_ended.

(** A timeout which expires is reported with the time requested, except for the values
    in [short_values], which are reported one millisecond short. *)
Theorem C29_expired : forall clock send_ok l v,
  let s := server_run clock send_ok l init_server in
  let s' := server_step clock send_ok SExpire s in
  Forall from_keys l -> sv_start s <> None -> requested (sv_trace s) = Some v -> v < 4096 ->
  exits s s' \/ fed (sv_trace s') = fed (sv_trace s) ++ [Ev k_timeout Up (if existsb (N.eqb v) short_values then v - 1 else v)].
Proof.
  intros clock send_ok l v s s' Hl Hs Hv Hb. unfold s'. cbn [server_step]. cbn zeta.
  assert (Hr : room None s).
  { apply timeouts_answered; [exact Hl|]. split; [exact I|]. split; [intros H; contradiction|discriminate]. }
  destruct Hr as (_ & Hr & _). destruct (Hr Hs) as (v' & Ev' & Et). rewrite Hv in Ev'. injection Ev' as <-. rewrite Et.
  destruct (sv_start s) as [t|] eqn:Es; [clear Hs|contradiction].
  destruct (translate_timeout clock (reset_configuration clock send_ok None) (reset_grows clock send_ok) translate_depth
              (expired_event (duration_of_ms v)) any_device (cancel_timeout s)) as [H|(_ & H & _)].
  1-4: try reflexivity; unfold translate_depth; lia.
  - exact (run_last clock send_ok l init_server ltac:(discriminate)).
  - left. destruct H as (new & E & Hin). exists (new ++ [ECancel]). rewrite <- app_assoc. split; [exact E|].
    apply in_app_iff. left. exact Hin.
  - right. unfold translate_input. rewrite H. f_equal; [unfold fed, cancel_timeout, log, put_start; cbn [sv_trace rev];
      rewrite flat_map_app, app_nil_r; reflexivity|]. f_equal.
    destruct (expired_value v Hb) as [H1 H2]. destruct (existsb (N.eqb v) short_values) eqn:E.
    + apply H2. apply existsb_exists in E as (x & Hx & E). apply N.eqb_eq in E. subst x. exact Hx.
    + apply H1. intros Hi. assert (Ht : existsb (N.eqb v) short_values = true)
        by (apply existsb_exists; exists v; split; [exact Hi|apply N.eqb_refl]). rewrite Ht in E. discriminate.
Qed.
Print Assumptions C29_expired.

(** So a mapping of a key held for 1001 milliseconds is never applied, although the
    timeout was requested and expired. *)
Theorem C29_short_refuted : exists t t',
  out (after t (typed "+A" ++ [SExpire; SFlush])) = "+X"%string /\
  out (after t' (typed "+A" ++ [SExpire; SFlush])) = "+A"%string /\
  t = "A{1000ms} >> X"%string /\ t' = "A{1001ms} >> X"%string /\
  requested (sv_trace (after t' (typed "+A"))) = Some 1001.
Proof. do 2 eexists. split; [|split; [|split; [reflexivity|split; [reflexivity|]]]]; vm_compute; reflexivity. Qed.
Print Assumptions C29_short_refuted.

Example C29_case :
  let s := after "A{500ms} >> X" (typed "+A") in
  sv_start s = Some 0%Z /\ requested (sv_trace s) = Some 500 /\
  fmt (fed (sv_trace (server_step (fun _ => 123456789%Z) sends (SInput (Ev 48 Down 0) 0) s))) = "+A -123ms +B"%string /\
  fmt (fed (sv_trace (server_step ms_clock sends SExpire s))) = "+A -500ms"%string.
Proof. vm_compute. repeat split. Qed.

(** * C30 A request for the next key swallows one press *)
Theorem C30_next_key : forall clock send_ok l0 l1 l2 e dev, ~ In (SMessage MNextKey) l0 ->
  Forall no_answer l1 -> ~ In (SMessage MNextKey) l2 -> answers e = true ->
  let s := server_run clock send_ok l0 init_server in
  let s1 := server_run clock send_ok l1 s in
  repeated e s1 = false ->
  let s2 := server_run clock send_ok (l0 ++ SMessage MNextKey :: l1 ++ SInput e dev :: l2) init_server in
  s2 = server_run clock send_ok l2 (log (ENextKey (ek e) (get_device_desc dev s1)) s1) /\
  answered (sv_trace s2) = [(ek e, get_device_desc dev s1)].
Proof.
  intros clock send_ok l0 l1 l2 e dev H0 H1 H2 He s s1 Hr s2. unfold s2. rewrite run_app. fold s.
  destruct (unasked_run clock send_ok l0 init_server H0 eq_refl) as [A B]. fold s in A, B.
  destruct (request_once clock send_ok l1 l2 e dev s H1 H2 He A Hr) as [C D]. fold s1 in C, D. split; [exact C|].
  rewrite D, B. reflexivity.
Qed.
Print Assumptions C30_next_key.
Example C30_case :
  let l1 := typed "-B +ButtonLeft" ++ [SFlush; SMessage (MInjectOutput [])] in let l2 := typed "-A +A" ++ [SFlush] in
  let s := after "A >> X" (typed "+B" ++ SMessage MNextKey :: l1 ++ typed "+A" ++ l2) in
  answered (sv_trace s) = [(keyn "A", None)] /\ out s = "+B -B +ButtonLeft +X"%string /\
  forallb (fun x => match x with SInput e _ => negb (answers e) && negb (wheel_step e) | _ => true end) l1 = true.
Proof. vm_compute. repeat split. Qed.

(** * C31 Translating an event *)

(** Nothing runs out of fuel, and an event is fed to the stages once, unless it is a
    repetition or answers a request; a pending timeout goes ahead, and the press of a
    wheel step, which can itself end a timeout. *)
Theorem C31_translated : forall clock send_ok l e dev,
  let s := server_run clock send_ok l init_server in
  let s' := server_step clock send_ok (SInput e dev) s in
  sv_oof s' = false /\
  (exits s s' \/ exists P,
     (wheel_step e = false -> P = []) /\ preceded (Ev (ek e) Down (ev e)) P /\
     fed (sv_trace s') = fed (sv_trace s) ++ (if repeated e s || asked e s then [] else ended clock e s ++ P ++ [e])).
Proof.
  intros clock send_ok l e dev s s'. split.
  { unfold s', s. change (server_step clock send_ok (SInput e dev) (server_run clock send_ok l init_server))
      with (server_run clock send_ok [SInput e dev] (server_run clock send_ok l init_server)).
    rewrite <- run_app, run_complete. reflexivity. }
  destruct (translate_fed clock (reset_configuration clock send_ok None) (reset_grows clock send_ok) e dev s
              (run_last clock send_ok l init_server ltac:(discriminate))) as [H|(_ & _ & P & H1 & H2 & H)]; [left; exact H|].
  right. exists P. auto.
Qed.
Print Assumptions C31_translated.

(** A wheel step equal to the previous one is taken for a repetition while a delay is
    pending, and is lost. *)
Theorem C31_wheel_refuted : exists t,
  out (after t [wheel "WheelUp" 120; wheel "WheelUp" 120; SFlush]) = "-WheelUp -WheelUp"%string /\
  out (after t (typed "+A" ++ [SFlush; wheel "WheelUp" 120; wheel "WheelUp" 120; SFlush; SFlush])) = "+X -X +Y -Y -WheelUp"%string.
Proof. exists "A >> X 100ms Y"%string. split; vm_compute; reflexivity. Qed.
Print Assumptions C31_wheel_refuted.

Example C31_case :
  let s := after "A{500ms} >> X" (typed "+A") in
  let s' := server_step (fun n => (Z.of_nat n * 7000000)%Z) sends (wheel "WheelUp" 120) s in
  sv_start s <> None /\ repeated (Ev (keyn "WheelUp") Up 120) s = false /\
  fmt (fed (sv_trace s')) = "+A -7ms +WheelUp -WheelUp"%string.
Proof. vm_compute. repeat split. discriminate. Qed.
