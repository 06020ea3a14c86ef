(** Replacing the configuration releases what is held (C28). *)
From Coq Require Import List Arith NArith ZArith Bool Lia SpecFloat.
From Verif Require Import Base Key Match Stage StageSpec StageOut StageRoute MultiStage MultiSpec MultiProofs
  Server ServerSpec ServerProofs ServerQueue ServerFlush.
Import ListNotations.
Local Open Scope N_scope.

Section Reset.
Variable clock : nat -> Z.
Variable send_ok : nat -> bool.

Definition covers (T Q : sequence) : Prop :=
  forall k, is_device_key k = true -> is_down_after Q k = true -> is_down_after T k = true.

(** The stage knows at least what the queued events leave down. *)
Definition tinv (n : nat) (s : server) : Prop :=
  length (m_stages (sv_stage s)) = n /\
  exists T, tracks T (sv_stage s) /\ covers T (queued (sv_trace s)).

Lemma find_last_delta : forall e l k,
  option_map es (find_last (has_key k) (copy_delta e l)) = option_map es (find_last (has_key k) l).
Proof.
  intros e l k. unfold copy_delta. destruct (is_mouse_wheel (ek e)); [|reflexivity].
  induction l as [|x l IH] using rev_ind; [reflexivity|]. rewrite map_app, !find_last_app. cbn [map find_last].
  destruct (is_mouse_wheel (ek x) && (ev x =? 0)); unfold has_key at 1 3; cbn [ek]; destruct (ek x =? k); try reflexivity; exact IH.
Qed.
Lemma find_last_keys : forall e out k, is_device_key k = true ->
  option_map es (find_last (has_key k) (keys_of e out)) = option_map es (find_last (has_key k) out).
Proof.
  intros e out k Hk. unfold keys_of. rewrite find_last_delta. unfold request.
  destruct (back out) as [r|] eqn:Eb; [|reflexivity]. destruct (ek r =? k_timeout) eqn:Er; [|reflexivity].
  destruct out as [|x out] using rev_ind; [discriminate|]. clear IHout.
  rewrite back_snoc in Eb. injection Eb as ->. unfold pop_back. rewrite removelast_last, find_last_app. cbn [find_last].
  unfold has_key at 2. apply N.eqb_eq in Er. rewrite Er. destruct (N.eqb_spec k_timeout k) as [<-|]; [discriminate Hk|reflexivity].
Qed.

Lemma covers_app : forall T Q o o',
  (forall k, is_device_key k = true -> option_map es (find_last (has_key k) o') = option_map es (find_last (has_key k) o)) ->
  covers T Q -> covers (T ++ o) (Q ++ o').
Proof.
  intros T Q o o' Ho H k Hk. rewrite !down_after_app. specialize (Ho k Hk).
  destruct (find_last (has_key k) o') as [a|], (find_last (has_key k) o) as [b|]; cbn in Ho; try discriminate.
  - injection Ho as ->. auto.
  - apply H. exact Hk.
Qed.

Definition kept (n : nat) (l : label) : Prop :=
  match l with
  | LClear _ => False
  | LPush l => released l
  | LValidate _ => (2 <= n)%nat
  | _ => True
  end.

Lemma micro_tinv : forall n x l y, micro clock send_ok x l y -> kept n l -> ~ is_exit l ->
  tinv n (snd x) -> tinv n (snd y).
Proof.
  intros n x l y H Hk He (Hn & T & HT & Hc). destruct H; cbn [snd] in *.
  - destruct H as [Es _ _ _ (new & Et & Hm)]. split; [rewrite Es; exact Hn|]. exists T. rewrite Es, Et, queued_app.
    destruct (minor_silent new Hm) as [-> _]. rewrite app_nil_r. auto.
  - pose proof (tracks_call T (MInput e dev) (sv_stage s) ltac:(discriminate) HT) as [H1 H2].
    cbn [do_mcall] in *. destruct (m_update e dev (sv_stage s)) as [m out] eqn:E. cbn [fst snd] in *.
    destruct (feed_spec clock _ _ _ _ _ E) as (Es & _ & _ & _ & Et & _).
    split; [rewrite Es; congruence|]. exists (T ++ out). rewrite Es. split; [exact H1|].
    rewrite Et, !queued_app, queued_cons. destruct (minor_silent _ (request_minor out)) as [-> _].
    destruct (pushed (keys_of e out)) as [-> _]. cbn. rewrite !app_nil_r.
    apply covers_app; [|exact Hc]. intros k Hk'. apply find_last_keys. exact Hk'.
  - exfalso. apply He. exact I.
  - destruct (push_all l s) as (Es & _ & _ & _ & Et & _). split; [rewrite Es; exact Hn|]. exists T. rewrite Es, Et, queued_app.
    destruct (pushed l) as [-> _]. split; [exact HT|]. intros k Hk'. rewrite down_after_app.
    specialize (Hk k Hk'). unfold is_down_after in Hk. destruct (find_last (has_key k) l); [congruence|apply Hc; exact Hk'].
  - unfold release_all_keys. set (ks := m_output_keys_down _). 
    destruct (push_all (map (fun k => ev0 k Up) ks) s) as (Es & _ & _ & _ & Et & _).
    split; [rewrite Es; exact Hn|]. exists T. rewrite Es, Et, queued_app. destruct (pushed (map (fun k => ev0 k Up) ks)) as [-> _].
    split; [exact HT|]. intros k Hk' Hd. apply down_after_ups in Hd. apply Hc; [exact Hk'|apply Hd].
  - contradiction.
  - exfalso. apply He. exact I.
  - pose proof (tracks_call T (MultiSpec.MContexts l) (sv_stage s) ltac:(discriminate) HT) as [H1 H2].
    cbn [do_mcall] in *. rewrite H in *. cbn [fst snd] in *.
    destruct (push_all out s) as (_ & _ & _ & _ & Et & _). split; [cbn [put_stage sv_stage]; congruence|]. exists (T ++ out).
    cbn [put_stage sv_stage sv_trace]. rewrite Et, queued_app. destruct (pushed out) as [-> _].
    split; [exact H1|]. apply covers_app; [reflexivity|exact Hc].
  - pose proof (tracks_call T (MultiSpec.MDevices ds) (sv_stage s) ltac:(discriminate) HT) as [H1 H2].
    cbn [do_mcall fst snd] in *. rewrite app_nil_r in H1. split; [cbn [put_stage sv_stage]; congruence|].
    exists T. split; [exact H1|exact Hc].
  - cbn [kept] in Hk. pose proof (tracks_call T (MultiSpec.MValidate f) (sv_stage s) ltac:(lia) HT) as [H1 H2].
    cbn [do_mcall fst snd] in *. rewrite app_nil_r in H1. split; [cbn [put_stage sv_stage]; congruence|].
    exists T. split; [exact H1|exact Hc].
  - split; [exact Hn|]. exists T. auto.
  - split; [exact Hn|]. exists T. cbn [log sv_stage sv_trace]. rewrite queued_cons. cbn. rewrite app_nil_r. auto.
  - split; [exact Hn|]. exists T. auto.
  - split; [exact Hn|]. exists T. auto.
  - split; [exact Hn|]. exists T. cbn [log sv_stage sv_trace]. rewrite queued_cons. cbn. rewrite app_nil_r. auto.
  - split; [exact Hn|]. exists T. cbn [log count_send sv_stage sv_trace]. rewrite queued_cons. cbn. rewrite app_nil_r. auto.
  - split; [exact Hn|]. exists T. cbn [log count_send sv_stage sv_trace]. rewrite queued_cons. cbn. rewrite app_nil_r. auto.
  - split; [exact Hn|]. exists T. auto.
Qed.

Lemma steps_tinv : forall n x ls y, steps clock send_ok x ls y -> Forall (kept n) ls -> ~ Exists is_exit ls ->
  tinv n (snd x) -> tinv n (snd y).
Proof.
  intros n x ls y H. induction H as [x|x l y ls z H1 H2 IH]; intros Hk He Hx; [exact Hx|].
  inversion_clear Hk. apply IH; [assumption| |].
  - intros G. apply He. right. exact G.
  - eapply micro_tinv; try eassumption. intros G. apply He. left. exact G.
Qed.

Lemma closed_kept : forall n, closed (kept n).
Proof. intros n. constructor; intros; exact I. Qed.

Lemma calm_step_ok : forall n x, calm_step n x -> step_ok (kept n) x.
Proof.
  intros n [e dev| | |ds|[[m|]|l|k st|f| |l|l]| ] H; cbn in *; auto. apply Forall_forall. auto.
Qed.

Lemma run_tinv : forall n l s, sv_sending s = false -> Forall (calm_step n) l -> tinv n s ->
  In EExit (sv_trace (server_run clock send_ok l s)) \/ tinv n (server_run clock send_ok l s).
Proof.
  intros n l s Hs Hl Ht.
  destruct (run_runs clock send_ok (kept n) (closed_kept n) I l s Hs) as (ls & H1 & H2 & H3).
  { eapply Forall_impl; [|exact Hl]. apply calm_step_ok. }
  destruct (Exists_dec is_exit ls) as [G|G].
  { intros [ | | | | | | | | | | | | ]; try (right; intros []; fail); left; exact I. }
  - left. apply H3. exact G.
  - right. apply (steps_tinv n _ _ _ H1 H2 G Ht).
Qed.

(** * Flushing without virtual keys *)

Definition untracked (x : effect) : Prop :=
  match x with EQueue _ | EExit | EFeed _ _ | EVirtual _ _ => False | _ => True end.

Lemma untracked_queued : forall l, Forall untracked l -> queued l = [].
Proof.
  induction l as [|x l IH]; intros H; [reflexivity|]. inversion_clear H. rewrite queued_cons, IH by assumption.
  destruct x; cbn in *; auto; contradiction.
Qed.

Record flushed (s s' : server) : Prop := {
  f_stage : sv_stage s' = sv_stage s;
  f_virtual : sv_virtual s' = sv_virtual s;
  f_trace : exists new, sv_trace s' = new ++ sv_trace s /\ Forall untracked new
}.
Lemma flushed_refl : forall s, flushed s s.
Proof. intros s. constructor; try reflexivity. exists []. split; [reflexivity|constructor]. Qed.
Lemma flushed_log : forall x a b, untracked x -> flushed (log x a) b -> flushed a b.
Proof.
  intros x a b Hx [H1 H2 (n & E & Hn)]. constructor; [exact H1|exact H2|]. exists (n ++ [x]).
  rewrite E, <- app_assoc. split; [reflexivity|]. apply Forall_app. auto.
Qed.

Lemma scan_flushed : forall left again rest i s, no_virtual rest ->
  let '(s', i', _) := scan clock send_ok left again rest i s in
  flushed s s' /\ sv_buf s' = sv_buf s /\ sv_sending s' = sv_sending s.
Proof.
  intros left again. induction rest as [|e r IH]; intros i s Hv; cbn [scan].
  { split; [apply flushed_refl|auto]. }
  inversion_clear Hv.
  destruct (is_mouse_wheel (ek e) && kstate_eqb (es e) Down); [apply IH; assumption|].
  destruct (is_action_key (ek e)).
  { destruct (kstate_eqb (es e) Down); [|apply IH; assumption].
    specialize (IH (S i) (log (EAction (ek e - first_action)) s) H0).
    destruct (scan _ _ _ _ _ _ _) as [[s' i'] b]. destruct IH as [A B]. split; [|exact B].
    eapply flushed_log; [|exact A]. exact I. }
  destruct (is_virtual_key (ek e)).
  { destruct (kstate_eqb (es e) Down) eqn:Ed; [|apply IH; assumption].
    exfalso. apply H; [reflexivity|]. destruct (es e); try discriminate; reflexivity. }
  destruct (ek e =? k_timeout).
  { unfold schedule_flush. destruct (sv_flush s); [split; [apply flushed_refl|auto]|].
    split; [|auto]. constructor; try reflexivity. eexists [_]. split; [reflexivity|]. constructor; [exact I|constructor]. }
  destruct (send_ok (sv_sends s)).
  - specialize (IH (S i) (log (ESend e true) (count_send s)) H0).
    destruct (scan _ _ _ _ _ _ _) as [[s' i'] b]. destruct IH as [A B]. split; [|exact B].
    apply (flushed_log (ESend e true) (count_send s) s') in A; [|exact I]. destruct A as [A1 A2 A3]. constructor; assumption.
  - split; [|auto]. constructor; try reflexivity. eexists [_]. split; [reflexivity|]. constructor; [exact I|constructor].
Qed.

Lemma flush_flushed : forall s, sv_sending s = false -> no_virtual (sv_buf s) ->
  let s' := fst (flush_send_buffer clock send_ok s) in
  flushed s s' /\ no_virtual (sv_buf s') /\ sv_sending s' = false.
Proof.
  intros s Hs Hv. unfold flush_send_buffer. rewrite Hs, flush_loop_scan. set (s0 := put_flush None (put_sending true s)).
  cbn [skipn]. pose proof (scan_flushed 9 (flush_loop clock send_ok 8) (sv_buf s0) 0 s0 Hv) as H.
  destruct (scan _ _ _ _ _ _ _) as [[s' i'] b]. destruct H as ([A1 A2 A3] & B & C). cbn [fst]. split; [|split].
  - constructor; assumption.
  - cbn [put_sending put_buf sv_buf]. rewrite B. unfold no_virtual in *. rewrite <- (firstn_skipn i' (sv_buf s)) in Hv.
    apply Forall_app in Hv. apply Hv.
  - reflexivity.
Qed.

(** * Resetting *)

(** What was queued leaves no device key down. *)
Definition held_none (s : server) : Prop := released (queued (sv_trace s)).

Lemma delivered_done : forall tr, delivered tr = flat_map delivered_one (done tr).
Proof.
  intros tr. induction tr as [|x tr IH]; [reflexivity|]. rewrite delivered_cons, done_cons, flat_map_app, IH. f_equal.
  destruct x; try reflexivity. destruct ok; reflexivity.
Qed.
Lemma delivered_visible : forall Q k, is_device_key k = true ->
  is_down_after (flat_map delivered_one (visible Q)) k = true -> is_down_after Q k = true.
Proof.
  intros Q k Hk. induction Q as [|e Q IH] using rev_ind; [auto|].
  unfold visible. rewrite flat_map_app. cbn [flat_map]. rewrite app_nil_r, flat_map_app. fold (visible Q).
  rewrite down_after_app, down_after_snoc. unfold calls_for.
  assert (Hs : ek e = k -> (ek e =? k_timeout) = false /\ is_virtual_key (ek e) = false /\ is_action_key (ek e) = false).
  { intros ->. destruct (plain_key_server k Hk) as (A & B & C). apply N.eqb_neq in A. auto. }
  destruct (N.eqb_spec (ek e) k) as [E|E].
  - destruct (Hs E) as (A & B & C). rewrite A, B, C.
    destruct (is_mouse_wheel (ek e) && kstate_eqb (es e) Down) eqn:W.
    + apply andb_prop in W as [_ W]. intros _. exact W.
    + cbn. unfold has_key. apply N.eqb_eq in E. rewrite E. auto.
  - intros H. apply IH.
    destruct (ek e =? k_timeout); [exact H|]. destruct (is_virtual_key (ek e)); [exact H|].
    destruct (is_action_key (ek e)); [destruct (es e); exact H|]. destruct (is_mouse_wheel (ek e) && _); [exact H|].
    cbn in H. unfold has_key in H. apply N.eqb_neq in E. rewrite E in H. exact H.
Qed.
(** Once the queue is empty, everything queued was delivered. *)
Lemma emptied : forall s, qinv (None, s) -> held_none s -> sv_buf s = [] -> released (delivered (sv_trace s)).
Proof.
  intros s (_ & pre & Q1 & Q2) H Hb k Hk. cbn [cursor skipn] in Q1. rewrite Hb, app_nil_r in Q1.
  destruct (is_down_after (delivered (sv_trace s)) k) eqn:Ed; [|reflexivity].
  rewrite delivered_done, Q2 in Ed. apply delivered_visible in Ed; [|exact Hk]. rewrite <- Q1 in Ed.
  rewrite (H k Hk) in Ed. discriminate.
Qed.

Lemma release_fields : forall s, sv_sending (release_all_keys s) = sv_sending s /\
  sv_buf (release_all_keys s) = sv_buf s ++ map (fun k => ev0 k Up) (m_output_keys_down (sv_stage s)) /\
  sv_stage (release_all_keys s) = sv_stage s /\
  queued (sv_trace (release_all_keys s)) = queued (sv_trace s) ++ map (fun k => ev0 k Up) (m_output_keys_down (sv_stage s)).
Proof.
  intros s. unfold release_all_keys. set (r := map _ _). destruct (push_all r s) as (-> & -> & _ & -> & -> & _).
  rewrite queued_app. destruct (pushed r) as [-> _]. auto.
Qed.
Lemma release_virtual : forall s, no_virtual (sv_buf s) -> no_virtual (sv_buf (release_all_keys s)).
Proof.
  intros s H. destruct (release_fields s) as (_ & -> & _). apply Forall_app. split; [exact H|].
  rewrite Forall_map. apply Forall_forall. cbn. discriminate.
Qed.
Lemma release_timeout : forall s, no_timeout (sv_buf s) -> no_timeout (sv_buf (release_all_keys s)).
Proof.
  intros s H. destruct (release_fields s) as (_ & -> & _). apply Forall_app. split; [exact H|].
  rewrite Forall_map. apply Forall_forall. intros k Hk. cbn.
  unfold m_output_keys_down in Hk. destruct (back _); [|destruct Hk]. unfold get_output_keys_down in Hk. apply filter_In in Hk.
  intros ->. destruct Hk. discriminate.
Qed.
Lemma release_held : forall n s, tinv n s -> held_none (release_all_keys s).
Proof.
  intros n s (_ & T & HT & Hc) k Hk. destruct (release_fields s) as (_ & _ & _ & ->).
  destruct (is_down_after (queued (sv_trace s) ++ _) k) eqn:E; [|reflexivity]. exfalso.
  apply down_after_ups in E as [E1 E2]. apply E2. eapply tracks_held; [exact HT|exact Hk|]. apply Hc; assumption.
Qed.


(** Right after a reset. *)
Lemma reset_clears : forall n m s, sv_sending s = false -> no_virtual (sv_buf s) -> tinv n s ->
  let s' := clear_configuration m (fst (flush_send_buffer clock send_ok (release_all_keys s))) in
  held_none s' /\ no_virtual (sv_buf s') /\ sv_sending s' = false /\ sv_stage s' = m.
Proof.
  intros n m s Hs Hi Ht. cbn zeta. pose proof (release_held n s Ht) as Hh.
  destruct (flush_flushed (release_all_keys s)) as ([_ _ (new & E & Hn)] & Hv & Hsend).
  { destruct (release_fields s) as (-> & _). exact Hs. }
  { apply release_virtual. exact Hi. }
  split; [|auto]. unfold held_none.
  cbn [clear_configuration put_stage put_virtual put_flush put_start sv_trace].
  rewrite E, queued_app, (untracked_queued new Hn), app_nil_r. exact Hh.
Qed.

Lemma filters_tinv : forall n s, sv_sending s = false -> tinv n s ->
  In EExit (sv_trace (evaluate_filters clock send_ok s)) \/ tinv n (evaluate_filters clock send_ok s).
Proof.
  intros n s Hs Ht. destruct (filters_runs clock send_ok (kept n) (closed_kept n) I s Hs) as (ls & H1 & H2 & H3).
  destruct (Exists_dec is_exit ls) as [G|G].
  { intros [ | | | | | | | | | | | | ]; try (right; intros []; fail); left; exact I. }
  - left. apply H3. exact G.
  - right. apply (steps_tinv n _ _ _ H1 H2 G Ht).
Qed.

(** A configuration that was just set. *)
Lemma configured : forall cfg s, mapped cfg -> held_none s -> sv_stage s = new_multi_stage cfg ->
  tinv (length cfg) s.
Proof.
  intros cfg s [Hne Hb] Hh E. split.
  - rewrite E. unfold new_multi_stage. cbn. apply map_length.
  - exists []. rewrite E. split; [apply tracks_init; assumption|]. intros k Hk Hd. rewrite (Hh k Hk) in Hd. discriminate.
Qed.

(** * Histories *)

(** A first configuration, then steps and further configurations, each of which arrives
    while no virtual key is waiting in the queue to be toggled. *)
Inductive session : nat -> server -> Prop :=
| se_start cfg : mapped cfg ->
    session (length cfg) (server_step clock send_ok (SMessage (MConfig (Some (new_multi_stage cfg)))) init_server)
| se_step n s x : session n s -> calm_step n x -> session n (server_step clock send_ok x s)
| se_config n s cfg : session n s -> no_virtual (sv_buf s) -> mapped cfg ->
    session (length cfg) (server_step clock send_ok (SMessage (MConfig (Some (new_multi_stage cfg)))) s).

Lemma step_sending : forall x s, sv_sending s = false -> sv_sending (server_step clock send_ok x s) = false.
Proof.
  intros x s Hs. destruct (step_runs clock send_ok any_label closed_any I x s Hs (step_ok_any x)) as (ls & H1 & _).
  apply (steps_sending _ _ _ _ _ H1 Hs).
Qed.
Lemma step_trace : forall x s, sv_sending s = false ->
  exists new, sv_trace (server_step clock send_ok x s) = new ++ sv_trace s.
Proof.
  intros x s Hs. destruct (step_runs clock send_ok any_label closed_any I x s Hs (step_ok_any x)) as (ls & H1 & _).
  apply (steps_trace _ _ _ _ _ H1).
Qed.
Lemma step_qinv : forall x s, sv_sending s = false -> qinv (None, s) -> qinv (None, server_step clock send_ok x s).
Proof.
  intros x s Hs. destruct (step_runs clock send_ok any_label closed_any I x s Hs (step_ok_any x)) as (ls & H1 & _).
  apply (steps_qinv _ _ _ _ _ H1).
Qed.
Lemma init_qinv : qinv (None, init_server).
Proof. split; [apply Nat.le_0_l|]. exists []. split; reflexivity. Qed.

Lemma session_inv : forall n s, session n s ->
  sv_sending s = false /\ qinv (None, s) /\ (In EExit (sv_trace s) \/ tinv n s).
Proof.
  intros n s H. induction H as [cfg Hm|n s x H (Hs & Hq & Hi) Hx|n s cfg H (Hs & Hq & Hi) Hid Hm].
  - split; [apply step_sending; reflexivity|]. split; [apply step_qinv; [reflexivity|apply init_qinv]|].
    cbn [server_step on_message]. unfold reset_configuration.
    apply filters_tinv; [reflexivity|].
    apply configured; [exact Hm| |reflexivity]. intros k Hk. reflexivity.
  - split; [apply step_sending; exact Hs|]. split; [apply step_qinv; assumption|].
    destruct Hi as [Hi|Hi].
    + left. destruct (step_trace x s Hs) as (new & ->). apply in_or_app. right. exact Hi.
    + apply (run_tinv n [x] s Hs); [constructor; auto|exact Hi].
  - split; [apply step_sending; exact Hs|]. split; [apply step_qinv; assumption|].
    destruct Hi as [Hi|Hi].
    + left. destruct (step_trace (SMessage (MConfig (Some (new_multi_stage cfg)))) s Hs) as (new & ->).
      apply in_or_app. right. exact Hi.
    + cbn [server_step on_message]. unfold reset_configuration.
      destruct (reset_clears n (new_multi_stage cfg) s Hs Hid Hi) as (B & _ & C & G).
      apply filters_tinv; [exact C|]. apply configured; [exact Hm|exact B|exact G].
Qed.

Definition replacement (x : step) : mstage :=
  match x with SMessage (MConfig (Some m)) => m | _ => MS [] [] [] end.
Lemma replaced : forall x s, replaces x ->
  server_step clock send_ok x s =
  clear_configuration (replacement x) (fst (flush_send_buffer clock send_ok (release_all_keys s))).
Proof.
  intros [e dev| | |ds|[[m|]|l|k st|f| |l|l]| ] s H; try contradiction; cbn [server_step on_message replacement].
  - unfold reset_configuration, evaluate_filters.
    cbn [clear_configuration put_stage put_virtual put_flush put_start sv_stage]. cbn in H. rewrite H. reflexivity.
  - unfold reset_configuration. apply empty_filters. reflexivity.
Qed.

(** The releases are in the queue, whatever sends fail, and delivered once it is empty. *)
Lemma flushes_held : forall l s, Forall (eq SFlush) l -> sv_sending s = false -> qinv (None, s) -> held_none s ->
  no_virtual (sv_buf s) -> sv_buf (server_run clock send_ok l s) = [] ->
  released (delivered (sv_trace (server_run clock send_ok l s))).
Proof.
  induction l as [|x l IH]; intros s Hl Hs Hq Hh Hv; cbn [server_run]; [apply emptied; assumption|].
  inversion_clear Hl. subst x. destruct (flush_flushed s Hs Hv) as ([_ _ (new & E & Hn)] & Hv' & Hs').
  apply IH; [assumption|exact Hs'|apply step_qinv; assumption| |exact Hv'].
  unfold held_none. cbn [server_step]. rewrite E, queued_app, (untracked_queued new Hn), app_nil_r. exact Hh.
Qed.

Theorem replace_releases : forall n s x l, session n s -> no_virtual (sv_buf s) -> ~ In EExit (sv_trace s) ->
  replaces x -> Forall (eq SFlush) l ->
  let s' := server_run clock send_ok (x :: l) s in
  released (queued (sv_trace s')) /\ (sv_buf s' = [] -> released (delivered (sv_trace s'))).
Proof.
  intros n s x l H Hv He Hx Hl. destruct (session_inv n s H) as (Hs & Hq & [Hi|Hi]); [contradiction|].
  cbn zeta. cbn [server_run].
  pose proof (step_qinv x s Hs Hq) as Hq'. rewrite (replaced x s Hx) in *.
  destruct (reset_clears n (replacement x) s Hs Hv Hi) as (B & V & C & G). set (s1 := clear_configuration _ _) in *. clearbody s1.
  split; [|apply flushes_held; assumption].
  clear H Hv He Hs Hq Hi Hx G. revert s1 Hq' B V C. induction Hl as [|x' l Hx' Hl IH]; intros s1 Hq' B V C; [exact B|].
  subst x'. cbn [server_run]. destruct (flush_flushed s1 C V) as ([_ _ (new & E & Hn)] & Hv' & Hs').
  apply IH; [apply step_qinv; assumption| |exact Hv'|exact Hs'].
  unfold held_none. cbn [server_step]. rewrite E, queued_app, (untracked_queued new Hn), app_nil_r. exact B.
Qed.

Hypothesis all_ok : forall n, send_ok n = true.
Theorem replace_releases_at_once : forall n s x, session n s -> idle s -> ~ In EExit (sv_trace s) -> replaces x ->
  let s' := server_step clock send_ok x s in
  released (delivered (sv_trace s')) /\ sv_buf s' = [] /\ sv_virtual s' = [] /\ sv_flush s' = None /\ sv_start s' = None.
Proof.
  intros n s x H [Ht Hv] He Hx. destruct (replace_releases n s x [] H Hv He Hx (Forall_nil _)) as [_ A].
  destruct (session_inv n s H) as (Hs & _ & _). cbn [server_run] in A. cbn zeta in *. rewrite (replaced x s Hx) in *.
  assert (Hb : sv_buf (fst (flush_send_buffer clock send_ok (release_all_keys s))) = []).
  { destruct (flush_prefix clock send_ok all_ok (release_all_keys s) (sv_buf (release_all_keys s)) []) as (Hb & _).
    - destruct (release_fields s) as (-> & _). exact Hs.
    - symmetry. apply app_nil_r.
    - apply release_timeout. exact Ht.
    - apply release_virtual. exact Hv.
    - left. reflexivity.
    - exact Hb. }
  split; [apply A; exact Hb|]. split; [exact Hb|]. auto.
Qed.
End Reset.
