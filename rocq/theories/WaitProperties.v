(** C117: output which is queued does not wait for the next key, with assumptions and a
    non-trivial instance beside each theorem. *)
From Coq Require Import String List Arith NArith ZArith Bool Lia SpecFloat.
From Verif Require Import Base Key Match Stage Text ParseSeq Config MultiStage Replay.
From Verif Require Import StageSpec MultiSpec MultiProofs MultiProperties.
From Verif Require Import Server ServerLoop ServerSpec ServerProofs ServerQueue ServerFlush
  ServerVirtual ServerLift ServerReset ServerProperties ServerWait.
Import ListNotations.
Local Open Scope N_scope.

(** * What is asked for *)

(** When the loop waits: either everything was put out or there is a time at which the
    rest is going to be. *)
Definition nothing_forgotten (s : server) : Prop := sv_buf s = [] \/ exists t, sv_flush s = Some t.

(** The double nearest to an integer, and the double nearest to a number of nanoseconds given
    as a double, in seconds *)
Definition nearest (z : Z) : spec_float := binary_normalize 53 1024 z 0 false.
Definition in_seconds (ns : spec_float) : spec_float := SFdiv 53 1024 ns (nearest (10 ^ 9)).

(** The points in time which are waited for, as the seconds left: the time for which the rest
    of the output is scheduled, and the start of the timeout plus its seconds. *)
Inductive deadline (now : Z) (s : server) : spec_float -> Prop :=
| dl_flush t : sv_flush s = Some t -> deadline now s (in_seconds (nearest (t - now)))
| dl_timeout t : sv_start s = Some t ->
    let expires := SFadd 53 1024 (nearest t) (SFmul 53 1024 (sv_timeout s) (nearest (10 ^ 9))) in
    deadline now s (in_seconds (SFsub 53 1024 expires (nearest now))).

(** The client does not send a configuration. *)
Definition same_configuration (m : message) : Prop := match m with MConfig (Some _) => False | _ => True end.

(** * The wait *)

Lemma nearest_f64 z : f64_of_Z z = nearest z.
Proof. destruct z; reflexivity. Qed.
Lemma flush_deadline now s t : sv_flush s = Some t -> deadline now s (flush_in now t).
Proof. intro F. unfold flush_in, seconds_of_ns. rewrite (nearest_f64 (t - now)), (nearest_f64 1000000000). exact (dl_flush now s t F). Qed.
Lemma timeout_deadline now s t : sv_start s = Some t -> deadline now s (timeout_in now t (sv_timeout s)).
Proof. intro U. unfold timeout_in. rewrite (nearest_f64 t), (nearest_f64 now), (nearest_f64 1000000000). exact (dl_timeout now s t U). Qed.
Lemma deadline_cases now s x : deadline now s x ->
  (exists t, sv_flush s = Some t /\ x = flush_in now t) \/ (exists t, sv_start s = Some t /\ x = timeout_in now t (sv_timeout s)).
Proof.
  intros [t F|t U]; [left|right]; exists t; (split; [assumption|]).
  - unfold flush_in, seconds_of_ns. rewrite (nearest_f64 (t - now)), (nearest_f64 1000000000). reflexivity.
  - unfold timeout_in. rewrite (nearest_f64 t), (nearest_f64 now), (nearest_f64 1000000000). reflexivity.
Qed.

Lemma ltb_irrefl x : SFltb x x = false.
Proof.
  unfold SFltb, SFcompare. destruct x as [b|b| |b m e]; try (destruct b; reflexivity); [reflexivity|].
  destruct b; rewrite Z.compare_refl, Pos.compare_cont_refl; reflexivity.
Qed.
Lemma compare_cont_antisym p q : Pos.compare_cont Eq q p = CompOpp (Pos.compare_cont Eq p q).
Proof. symmetry. apply (Pos.compare_cont_antisym p q Eq). Qed.
Lemma ltb_asym x y : SFltb x y = true -> SFltb y x = false.
Proof.
  unfold SFltb, SFcompare. destruct x as [b|b| |b m e], y as [b'|b'| |b' m' e']; try destruct b; try destruct b'; try discriminate; try reflexivity.
  - rewrite (Z.compare_antisym e e'), (compare_cont_antisym m m'). destruct (Z.compare e e'); cbn; try discriminate; try reflexivity.
    destruct (Pos.compare_cont Eq m m'); cbn; try discriminate; reflexivity.
  - rewrite (Z.compare_antisym e e'), (compare_cont_antisym m m'). destruct (Z.compare e e'); cbn; try discriminate; try reflexivity.
    destruct (Pos.compare_cont Eq m m'); cbn; try discriminate; reflexivity.
Qed.

(** The loop waits without a limit exactly when nothing is pending, and otherwise until one
    of the deadlines, before which there is no other. *)
Theorem C117_wait : forall now s,
  match wait_limit now s with
  | None => forall x, ~ deadline now s x
  | Some d => deadline now s d /\ forall x, deadline now s x -> SFltb x d = false
  end.
Proof.
  intros now s. unfold wait_limit, set_limit.
  destruct (sv_flush s) as [t|] eqn:F, (sv_start s) as [u|] eqn:U.
  - destruct (SFltb (timeout_in now u (sv_timeout s)) (flush_in now t)) eqn:L.
    + split; [now apply timeout_deadline|]. intros x D. apply deadline_cases in D. destruct D as [(t' & F' & ->)|(t' & U' & ->)].
      * rewrite F in F'. injection F' as <-. apply ltb_asym. exact L.
      * rewrite U in U'. injection U' as <-. apply ltb_irrefl.
    + split; [now apply flush_deadline|]. intros x D. apply deadline_cases in D. destruct D as [(t' & F' & ->)|(t' & U' & ->)].
      * rewrite F in F'. injection F' as <-. apply ltb_irrefl.
      * rewrite U in U'. injection U' as <-. exact L.
  - split; [now apply flush_deadline|]. intros x D. apply deadline_cases in D. destruct D as [(t' & F' & ->)|(t' & U' & ->)]; [|congruence].
    rewrite F in F'. injection F' as <-. apply ltb_irrefl.
  - split; [now apply timeout_deadline|]. intros x D. apply deadline_cases in D. destruct D as [(t' & F' & ->)|(t' & U' & ->)]; [congruence|].
    rewrite U in U'. injection U' as <-. apply ltb_irrefl.
  - intros x D. apply deadline_cases in D. destruct D as [(t' & F' & ->)|(t' & U' & ->)]; congruence.
Qed.
Print Assumptions C117_wait.

(** * Turns *)

Section Turns.
Variable clock : nat -> Z.
Variable send_ok : nat -> bool.
Hypothesis all_ok : forall n, send_ok n = true.
Notation step_ := (server_step clock send_ok).

Lemma step_sending x s : sv_sending s = false -> sv_sending (step_ x s) = false.
Proof. intros H. exact (run_sending clock send_ok [x] s H). Qed.

Lemma flush_settles s : sv_sending s = false ->
  snd (flush_send_buffer clock send_ok s) = true /\ nothing_forgotten (fst (flush_send_buffer clock send_ok s)).
Proof.
  intros H. pose proof (flush_progress clock send_ok all_ok s H) as P. destruct (flush_send_buffer clock send_ok s) as [s' b].
  destruct P as [Hb [P|P]]; (split; [exact Hb|]); [left; exact P|right]. cbn [fst]. destruct (sv_flush s'); [eauto|contradiction].
Qed.
Lemma unless_settles s : sv_sending s = false -> nothing_forgotten (flush_unless_scheduled clock send_ok s).
Proof. intros H. unfold flush_unless_scheduled. destruct (sv_flush s) as [t|] eqn:F; [right; eauto|]. apply flush_settles, H. Qed.
Lemma schedule_settles v s : nothing_forgotten (schedule_flush clock v s).
Proof. right. unfold schedule_flush. destruct (sv_flush s) as [t|] eqn:F; [eauto|]. cbn. eauto. Qed.

Lemma contexts_settle l s : sv_sending s = false -> nothing_forgotten (set_active_contexts clock send_ok l s).
Proof.
  intros H. unfold set_active_contexts. destruct (m_set_active_client_contexts l (sv_stage s)) as [m o].
  apply unless_settles. change (sv_sending (send_key_sequence o (put_stage m s)) = false).
  rewrite (proj1 (proj2 (proj2 (proj2 (push_all _ _))))). exact H.
Qed.
Lemma filters_settle s : sv_sending s = false -> nothing_forgotten s -> nothing_forgotten (evaluate_filters clock send_ok s).
Proof.
  intros H Q. unfold evaluate_filters. destruct (_ || _); [exact Q|]. now apply contexts_settle.
Qed.

Lemma message_settles m s : sv_sending s = false -> same_configuration m -> nothing_forgotten s ->
  nothing_forgotten (step_ (SMessage m) s).
Proof.
  intros H C Q. destruct m as [[m|]|l|k st|f| |l|l]; cbn [server_step on_message].
  - contradiction.
  - exact Q.
  - now apply contexts_settle.
  - apply unless_settles.
    assert (G : sv_sending (step_ (SMessage (MVirtual k st)) s) = false) by (apply step_sending; exact H).
    revert G. cbn [server_step on_message]. unfold flush_unless_scheduled.
    set (s1 := set_virtual_with _ k st s). destruct (sv_flush s1); [auto|].
    unfold flush_send_buffer. destruct (sv_sending s1) eqn:E; [|auto]. cbn [fst]. congruence.
  - exact Q.
  - exact Q.
  - apply schedule_settles.
  - apply schedule_settles.
Qed.
Lemma messages_settle l : forall s, sv_sending s = false -> Forall same_configuration l -> nothing_forgotten s ->
  let s' := fold_left (fun s m => step_ (SMessage m) s) l s in sv_sending s' = false /\ nothing_forgotten s'.
Proof.
  induction l as [|m l IH]; intros s H C Q; [split; assumption|]. apply Forall_cons_iff in C as [C1 C2]. cbn [fold_left].
  apply IH; [now apply step_sending|exact C2|now apply message_settles].
Qed.
Lemma turn_input_sending t s : sv_sending s = false -> sv_sending (turn_input clock send_ok t s) = false.
Proof.
  intros H. unfold turn_input. cbn zeta.
  assert (G : sv_sending match t_input t with IKey e dev => if ek e =? k_none then s else step_ (SInput e dev) s | _ => s end = false).
  { destruct (t_input t) as [|e dev|]; [exact H| |exact H]. destruct (_ =? _); [exact H|now apply step_sending]. }
  destruct (timeout_due _ _); [now apply step_sending|exact G].
Qed.
Lemma turn_settles t s : sv_sending s = false -> Forall same_configuration (t_messages t) -> nothing_forgotten s ->
  let '(s', ok) := server_turn clock send_ok t s in ok = true /\ sv_sending s' = false /\ nothing_forgotten s'.
Proof.
  intros H C Q.
  assert (G : forall s1, sv_sending s1 = false ->
    let '(s', ok) := (let '(s, ok) := if flush_due (t_now t) s1 then flush_send_buffer clock send_ok s1 else (s1, true) in
      if ok then (turn_updates clock send_ok t s, true) else (s, false)) in
    ok = true /\ sv_sending s' = false /\ nothing_forgotten s').
  { intros s1 H1.
    assert (R : let '(s2, ok) := if flush_due (t_now t) s1 then flush_send_buffer clock send_ok s1 else (s1, true) in
      ok = true /\ sv_sending s2 = false /\ nothing_forgotten s2).
    { destruct (flush_due (t_now t) s1) eqn:F.
      - destruct (flush_settles s1 H1) as [A B]. pose proof (step_sending SFlush s1 H1) as D. cbn [server_step] in D.
        destruct (flush_send_buffer clock send_ok s1) as [s2 ok]. cbn [fst snd] in *. auto.
      - split; [reflexivity|]. split; [exact H1|]. unfold flush_due in F. destruct (sv_flush s1) as [u|] eqn:E; [right; eauto|discriminate]. }
    destruct (if flush_due (t_now t) s1 then _ else _) as [s2 ok]. destruct R as (-> & H2 & Q2). split; [reflexivity|].
    unfold turn_updates. apply messages_settle; [| exact C|].
    - destruct (t_devices t); [now apply step_sending|exact H2].
    - destruct (t_devices t) as [ds|]; [|exact Q2]. cbn [server_step]. unfold set_device_descs. apply filters_settle; [exact H2|exact Q2]. }
  unfold server_turn. destruct (t_input t) eqn:I.
  - apply G. now apply turn_input_sending.
  - apply G. now apply turn_input_sending.
  - auto.
Qed.
Lemma turns_settle ts : forall s, sv_sending s = false -> Forall (fun t => Forall same_configuration (t_messages t)) ts -> nothing_forgotten s ->
  let '(s', ok) := server_turns clock send_ok ts s in ok = true /\ nothing_forgotten s'.
Proof.
  induction ts as [|t ts IH]; intros s H C Q; [split; [reflexivity|exact Q]|]. apply Forall_cons_iff in C as [C1 C2]. cbn [server_turns].
  pose proof (turn_settles t s H C1 Q) as R. destruct (server_turn clock send_ok t s) as [s1 ok]. destruct R as (-> & H1 & Q1). now apply IH.
Qed.

(** A configuration which arrives while nothing is queued *)
Lemma reset_settles m s : sv_sending s = false -> sv_buf s = [] -> ~ In k_timeout (m_output_keys_down (sv_stage s)) ->
  nothing_forgotten (reset_configuration clock send_ok m s).
Proof.
  intros H B K. unfold reset_configuration. cbn zeta.
  destruct (release_fields s) as (R1 & _).
  assert (RB : sv_buf (release_all_keys s) = map (fun k => ev0 k Up) (m_output_keys_down (sv_stage s)) ++ []).
  { unfold release_all_keys. rewrite (proj1 (proj2 (push_all _ s))), B, app_nil_r. reflexivity. }
  destruct (flush_prefix clock send_ok all_ok (release_all_keys s) _ [] ltac:(congruence) RB) as (E & _ & _ & S1 & _).
  - apply Forall_forall. intros e He. apply in_map_iff in He as (k & <- & Hk). cbn. intros ->. contradiction.
  - apply Forall_forall. intros e He. apply in_map_iff in He as (k & <- & Hk). cbn. discriminate.
  - left. reflexivity.
  - apply filters_settle; [exact S1|]. left. exact E.
Qed.
End Turns.

(** Whatever happened before, while the configuration stays the same and keys can be sent:
    when the loop waits, nothing which was queued is forgotten; the wait is limited by the time
    at which it is put out. *)
Theorem C117_woken_partial : forall clock send_ok l ts now, (forall n, send_ok n = true) ->
  let s := server_run clock send_ok l init_server in nothing_forgotten s ->
  Forall (fun t => Forall same_configuration (t_messages t)) ts ->
  let '(s', ok) := server_turns clock send_ok ts s in
  ok = true /\ (sv_buf s' <> [] -> exists t d, sv_flush s' = Some t /\ wait_limit now s' = Some d /\ SFltb (in_seconds (nearest (t - now))) d = false).
Proof.
  intros clock send_ok l ts now A s Q C.
  pose proof (turns_settle clock send_ok A ts s (run_sending clock send_ok l init_server eq_refl) C Q) as R.
  destruct (server_turns clock send_ok ts s) as [s' ok]. destruct R as [Hok R]. split; [exact Hok|]. intros B.
  destruct R as [R|[t R]]; [contradiction|]. pose proof (C117_wait now s') as W. exists t.
  destruct (wait_limit now s') as [d|].
  - exists d. split; [exact R|]. split; [reflexivity|]. apply W. now constructor.
  - exfalso. apply (W (in_seconds (nearest (t - now)))). now constructor.
Qed.
Print Assumptions C117_woken_partial.

(** A turn without input in which the time of a timeout is reached, exactly or more, tells the
    stages that it elapsed; before, it does nothing. *)
Theorem C117_expires : forall clock send_ok x s t, sv_start s = Some t -> (forall e dev, t_input x <> IKey e dev) ->
  let expires := SFadd 53 1024 (nearest t) (SFmul 53 1024 (sv_timeout s) (nearest (10 ^ 9))) in
  match SFcompare expires (nearest (t_now x)) with
  | Some Lt | Some Eq => turn_input clock send_ok x s = server_step clock send_ok SExpire s
  | _ => turn_input clock send_ok x s = s
  end.
Proof.
  intros clock send_ok x s t U I0 expires. unfold turn_input.
  replace (match t_input x with IKey e dev => if ek e =? k_none then s else server_step clock send_ok (SInput e dev) s | _ => s end) with s
    by (destruct (t_input x) as [|e dev|]; [reflexivity|now destruct (I0 e dev)|reflexivity]).
  unfold timeout_due. rewrite U.
  rewrite (nearest_f64 t), (nearest_f64 1000000000), (nearest_f64 (t_now x)).
  change (nearest 1000000000) with (nearest (10 ^ 9)). fold expires. unfold SFleb.
  destruct (SFcompare expires (nearest (t_now x))) as [[| |]|]; reflexivity.
Qed.
Print Assumptions C117_expires.
Example C117_expires_case :
  let s := schedule_timeout (fun _ => 0%Z) 500 false init_server in
  let expires := SFadd 53 1024 (nearest 0) (SFmul 53 1024 (sv_timeout s) (nearest (10 ^ 9))) in
  sv_start s = Some 0%Z /\ SFcompare expires (nearest 500000000) = Some Eq /\ SFcompare expires (nearest 499999999) = Some Gt.
Proof. vm_compute. auto. Qed.

(** Also when a configuration arrives while nothing is queued. *)
Theorem C117_configuration_partial : forall clock send_ok l m, (forall n, send_ok n = true) ->
  let s := server_run clock send_ok l init_server in
  sv_buf s = [] -> ~ In k_timeout (m_output_keys_down (sv_stage s)) ->
  nothing_forgotten (server_step clock send_ok (SMessage (MConfig (Some m))) s).
Proof.
  intros clock send_ok l m A s B K. cbn [server_step on_message].
  apply reset_settles; auto. apply run_sending. reflexivity.
Qed.
Print Assumptions C117_configuration_partial.

Definition twice_delayed : string := "B >> C
A >> X 100ms Y 100ms Z".
Definition key_turn (now : Z) (k : string) (st : kstate) : turn := Turn now (IKey (Ev (keyn k) st 0) 0) None [].
Example C117_case :
  let s := started twice_delayed in
  let s1 := fst (server_turns ms_clock sends [key_turn 3000000 "B" Down; key_turn 4000000 "A" Down] s) in
  let s2 := fst (server_turns ms_clock sends [Turn 300000000 INone None []] s1) in
  sv_buf s = [] /\ m_output_keys_down (sv_stage s) = [] /\
  Forall (fun t => Forall same_configuration (t_messages t)) [key_turn 3000000 "B" Down; key_turn 4000000 "A" Down] /\
  out s1 = "+C +X -X"%string /\ List.length (sv_buf s1) = 5%nat /\ sv_flush s1 <> None /\ wait_limit 4000000 s1 <> None /\
  out s2 = "+C +X -X +Y -Y"%string /\ sv_flush s2 <> None.
Proof. vm_compute. repeat split; try discriminate; repeat constructor. Qed.

(** A configuration which arrives while output is delayed puts out what follows the delay at
    once, up to the next one.  The rest, with the releases of the keys held, is forgotten: the
    loop waits without a limit, so C stays pressed whatever time passes and whatever is
    forwarded.  The next key makes it go on. *)
Definition reload_turn (now : Z) : turn :=
  Turn now INone None [MConfig (Some (new_multi_stage (load_multi twice_delayed)))].
Theorem C117_woken_refuted : exists ts s, s = fst (server_turns ms_clock sends ts (started twice_delayed)) /\
  sv_buf s <> [] /\ (forall now, wait_limit now s = None) /\
  is_down_after (delivered (sv_trace s)) (keyn "C") = true /\
  (forall others, Forall (fun t => t_input t = IOther) others -> fst (server_turns ms_clock sends others s) = s) /\
  out s = "+C +X -X +Y -Y"%string /\
  out (fst (server_turns ms_clock sends [key_turn 9000000000 "D" Down] s)) = "+C +X -X +Y -Y +Z -Z -C +D"%string.
Proof.
  exists [key_turn 3000000 "B" Down; key_turn 4000000 "A" Down; reload_turn 5000000]. eexists. split; [reflexivity|].
  split; [vm_compute; discriminate|].
  split.
  { intros now.
    assert (F : forall s, sv_flush s = None -> sv_start s = None -> wait_limit now s = None)
      by (intros s H1 H2; unfold wait_limit; rewrite H1, H2; reflexivity).
    apply F; vm_compute; reflexivity. }
  split; [vm_compute; reflexivity|].
  split; [|split; vm_compute; reflexivity].
  generalize (fst (server_turns ms_clock sends [key_turn 3000000 "B" Down; key_turn 4000000 "A" Down; reload_turn 5000000] (started twice_delayed))).
  intros s others H. induction H as [|t r Ht _ IH]; [reflexivity|]. cbn [server_turns]. unfold server_turn. rewrite Ht. exact IH.
Qed.
Print Assumptions C117_woken_refuted.
