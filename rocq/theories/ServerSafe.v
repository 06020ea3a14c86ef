(** No undefined behaviour in the stages, whatever the server is asked to do (C10). *)
From Coq Require Import List Arith NArith ZArith Bool Lia SpecFloat.
From Verif Require Import Base Key Match Stage StageSpec StageSafe MultiStage MultiSpec MultiProofs
  Server ServerLoop ServerSpec ServerProofs ServerFlush ServerLift.
Import ListNotations.
Local Open Scope N_scope.

Section Safe.
Variable clock : nat -> Z.
Variable send_ok : nat -> bool.

Definition safe (m : wheel_mode) (s : server) : Prop := minv m (sv_stage s).
(** The last event is no new wheel step. *)
Definition last_kept (s s' : server) : Prop :=
  sv_last s' = sv_last s \/ is_mouse_wheel (ek (sv_last s')) = false.
Definition safer (s s' : server) : Prop := (forall m, safe m s -> safe m s') /\ last_kept s s'.
Lemma last_kept_trans : forall a b c, last_kept a b -> last_kept b c -> last_kept a c.
Proof. intros a b c [H1|H1] [H2|H2]; unfold last_kept; rewrite ?H2; auto. Qed.
Lemma last_pushes : forall l s, sv_last (send_key_sequence l s) = sv_last s.
Proof.
  induction l as [|e l IH]; intros s; [reflexivity|]. unfold send_key_sequence in *. cbn [fold_left]. rewrite IH. reflexivity.
Qed.
Lemma last_feed : forall e dev s, sv_last (feed clock e dev s) = sv_last s.
Proof.
  intros e dev s. unfold feed. destruct (m_update e dev (sv_stage s)) as [ms out].
  destruct (back out) as [r|]; [destruct (ek r =? k_timeout)|]; cbn [put_stage sv_last]; rewrite last_pushes; reflexivity.
Qed.

Lemma stage_pushes : forall l s, sv_stage (send_key_sequence l s) = sv_stage s.
Proof.
  induction l as [|e l IH]; intros s; [reflexivity|]. unfold send_key_sequence in *. cbn [fold_left]. rewrite IH. reflexivity.
Qed.

Lemma feed_safe_mode : forall m m' e dev s, wf_event e -> valid_device dev = true -> mode_step m e m' ->
  safe m s -> safe m' (feed clock e dev s).
Proof.
  intros m m' e dev s He Hd Hm H. unfold feed.
  destruct (m_update_safe m m' e dev _ He Hd Hm H) as [H1 _].
  destruct (m_update e dev (sv_stage s)) as [ms out]. cbn [fst] in H1.
  destruct (back out) as [r|]; [destruct (ek r =? k_timeout)|]; unfold safe; cbn [put_stage sv_stage];
    rewrite stage_pushes; apply minv_reuse; exact H1.
Qed.

Lemma core_safe : forall reset, (forall s, safer s (reset s)) -> forall m m' e dev s,
  wf_event e -> valid_device dev = true -> mode_step m e m' -> safe m s ->
  safe m' (fst (translate_core clock reset e dev s)).
Proof.
  intros reset Hr m m' e dev s He Hd Hm H. rewrite core_cases. set (s0 := if _ =? _ then s else _).
  assert (H0 : safe m s0) by (unfold s0; destruct (_ =? _); exact H).
  destruct (m_should_exit _); cbn [fst].
  - apply (proj1 (Hr (put_stage (fst (m_update e dev (sv_stage s0))) (log (EFeed e dev) s0))) m').
    apply (m_update_safe m m' e dev _ He Hd Hm H0).
  - eapply feed_safe_mode; eassumption.
Qed.
(** The last event becomes the translated one, or (when exiting) no wheel step. *)
Lemma core_last : forall reset, (forall s, safer s (reset s)) -> forall e dev s,
  let s' := fst (translate_core clock reset e dev s) in
  sv_last s' = (if ek e =? k_timeout then sv_last s else e) \/ is_mouse_wheel (ek (sv_last s')) = false.
Proof.
  intros reset Hr e dev s. cbn zeta. rewrite core_cases. set (s0 := if _ =? _ then s else _).
  assert (H0 : sv_last s0 = if ek e =? k_timeout then sv_last s else e) by (unfold s0; destruct (_ =? _); reflexivity).
  destruct (m_should_exit _); cbn [fst].
  - destruct (proj2 (Hr (put_stage (fst (m_update e dev (sv_stage s0))) (log (EFeed e dev) s0)))) as [E|E].
    + left. cbn [log sv_last]. rewrite E. exact H0.
    + right. exact E.
  - left. rewrite last_feed. exact H0.
Qed.

Definition plain_input (e : event) (dev : Z) : Prop :=
  wf_event e /\ valid_device dev = true /\ is_mouse_wheel (ek e) = false.
Lemma plain_mode : forall e m, is_mouse_wheel (ek e) = false -> mode_step m e m.
Proof. intros e [p|] H; cbn; rewrite H; [reflexivity|]. split; [discriminate|reflexivity]. Qed.
Lemma timeout_plain : forall v dev, valid_device dev = true -> plain_input (make_input_timeout_event v) dev.
Proof.
  intros v dev H. split; [|split; [exact H|reflexivity]]. split; [discriminate|]. right. cbn. auto.
Qed.

Lemma safer_refl : forall s, safer s s.
Proof. intros s. split; [auto|left; reflexivity]. Qed.
Lemma safer_trans : forall a b c, safer a b -> safer b c -> safer a c.
Proof. intros a b c [H1 L1] [H2 L2]. split; [auto|]. eapply last_kept_trans; eassumption. Qed.
Lemma safer_same : forall s s', sv_stage s' = sv_stage s -> sv_last s' = sv_last s -> safer s s'.
Proof. intros s s' E1 E2. split; [|left; exact E2]. intros m. unfold safe. rewrite E1. auto. Qed.

Lemma plain_safe : forall reset, (forall s, safer s (reset s)) -> forall fuel e dev s,
  plain_input e dev -> safer s (fst (translate_with clock reset fuel e dev s)).
Proof.
  intros reset Hr. induction fuel as [|fuel IH]; intros e dev s Hp; cbn [translate_with fst];
    [apply safer_same; reflexivity|].
  destruct (event_eqb e (sv_last s) && _); [apply safer_refl|].
  destruct (sv_next s && _ && _ && _); [apply safer_same; reflexivity|].
  destruct Hp as (He & Hd & Hw). rewrite Hw. cbn [andb].
  set (s1 := match sv_start s with Some _ => _ | None => _ end).
  apply (safer_trans s s1).
  - unfold s1. destruct (sv_start s) as [t|]; [|apply safer_refl]. destruct (_ || _); [|apply safer_refl].
    eapply safer_trans; [|apply IH; apply timeout_plain; exact Hd]. apply safer_same; reflexivity.
  - split.
    + intros m H. apply (core_safe reset Hr m m); [exact He|exact Hd|apply plain_mode; exact Hw|exact H].
    + destruct (core_last reset Hr e dev s1) as [E|E]; [|right; exact E].
      unfold last_kept. rewrite E. destruct (ek e =? k_timeout); auto.
Qed.

Definition good_config (m : mstage) : Prop := forall md, minv md m.

Lemma virtual_plain : forall k st, is_virtual_key k = true -> (st = Down \/ st = Up) -> plain_input (ev0 k st) any_device.
Proof.
  intros k st Hk Hst. split; [|split; [reflexivity|apply special_not_wheel; right; exact Hk]].
  assert (Hn : k <> k_none) by (intros ->; discriminate).
  assert (Ht : k <> k_timeout) by (intros ->; discriminate).
  split; [exact Hn|]. destruct Hst as [->| ->]; cbn; auto 6.
Qed.

Lemma safe_lifts : lifts clock safer plain_input good_config (fun _ => True) (fun _ => True) True.
Proof.
  constructor; try (intros; apply safer_same; reflexivity).
  - exact safer_trans.
  - intros reset Hr e dev s Hp. apply plain_safe; assumption.
  - intros reset Hr s _. eapply safer_trans; [|apply (plain_safe reset Hr); apply timeout_plain; reflexivity].
    apply safer_same; reflexivity.
  - apply virtual_plain.
  - intros md. split; [reflexivity|exact I].
  - intros s. unfold release_all_keys. apply safer_same; [apply stage_pushes|apply last_pushes].
  - intros m s Hm. split; [intros md _; apply Hm|left; reflexivity].
  - intros v s. unfold schedule_flush. destruct (sv_flush s); apply safer_same; reflexivity.
  - intros l m out s E. split; [|left; cbn [put_stage sv_last]; apply last_pushes].
    intros md H. unfold safe. cbn [put_stage sv_stage].
    destruct (m_contexts_safe md l _ H) as [H1 _]. rewrite E in H1. exact H1.
  - intros ds s. split; [|left; reflexivity]. intros m H. apply m_devices_safe. exact H.
  - intros f s _. split; [|left; reflexivity]. intros m H. apply m_validate_safe. exact H.
  - intros l s _. apply safer_same; [apply stage_pushes|apply last_pushes].
Qed.

(** * With wheel steps *)


Lemma reset_safer : forall s, safer s (reset_configuration clock send_ok None s).
Proof. intros s. apply (li_reset clock send_ok _ _ _ _ _ _ safe_lifts). exact (li_empty _ _ _ _ _ _ _ safe_lifts). Qed.


Lemma wheel_event : forall k st v, is_mouse_wheel k = true -> (st = Down \/ st = Up) -> wf_event (Ev k st v).
Proof.
  intros k st v Hk Hst.
  assert (Hn : k <> k_none) by (intros ->; discriminate).
  assert (Ht : k <> k_timeout) by (intros ->; discriminate).
  split; [exact Hn|]. destruct Hst as [->| ->]; cbn; auto 6.
Qed.

(** [p] tells for each wheel key the value of its press; the mapping engine may know of
    less presses, since the server drops some. *)
Definition below (p' p : key -> option N) : Prop := forall k, p' k = None \/ p' k = p k.
(** A wheel step which was just processed is over. *)
Definition stepped (p : key -> option N) (s : server) : Prop :=
  is_mouse_wheel (ek (sv_last s)) = true -> es (sv_last s) = Up -> p (ek (sv_last s)) = None.
Definition winv (p : key -> option N) (s : server) : Prop :=
  exists p', below p' p /\ safe (Some p') s /\ stepped p' s.

Lemma safer_stepped : forall p s s', safer s s' -> stepped p s -> stepped p s'.
Proof. intros p s s' [_ [E|E]] H; unfold stepped in *; [rewrite E; exact H|congruence]. Qed.
Lemma safer_winv : forall p s s', safer s s' -> winv p s -> winv p s'.
Proof.
  intros p s s' H (p' & Hb & Hs & Hl). exists p'. split; [exact Hb|]. split; [apply (proj1 H); exact Hs|].
  eapply safer_stepped; eassumption.
Qed.

Lemma below_free : forall p' p e, below p' p -> wheel_free p e -> wheel_free p' e.
Proof. intros p' p e Hb Hf. unfold wheel_free in *. destruct (Hb (ek e)) as [E|E]; rewrite E; auto. Qed.

Lemma core_winv : forall reset, (forall s, safer s (reset s)) -> forall p e dev s,
  is_mouse_wheel (ek e) = true -> (es e = Down \/ es e = Up) -> valid_device dev = true -> wheel_free p e ->
  winv p s -> winv (wheel_next p e) (fst (translate_core clock reset e dev s)).
Proof.
  intros reset Hr p e dev s Hw Hst Hd Hf (p' & Hb & Hs & _). exists (wheel_next p' e). split; [|split].
  - intros k. unfold wheel_next. destruct (k =? ek e); [right; reflexivity|apply Hb].
  - apply (core_safe reset Hr (Some p')); [|exact Hd| |exact Hs].
    + destruct e as [k st v]. apply wheel_event; [exact Hw|exact Hst].
    + cbn [mode_step]. rewrite Hw. split; [|reflexivity]. apply (below_free p' p e Hb Hf).
  - destruct (core_last reset Hr e dev s) as [E|E]; [|intros G; congruence].
    intros _ Hup. rewrite E in *. destruct (N.eqb_spec (ek e) k_timeout) as [Et|Et]; [rewrite Et in Hw; discriminate|].
    unfold wheel_next. rewrite N.eqb_refl, Hup. reflexivity.
Qed.

Lemma event_eqb_eq : forall a b, event_eqb a b = true -> a = b.
Proof.
  intros [k1 s1 v1] [k2 s2 v2] H. unfold event_eqb in H. cbn in H. apply andb_prop in H as [H H3].
  apply andb_prop in H as [H1 H2]. apply N.eqb_eq in H1. apply N.eqb_eq in H3. subst.
  destruct s1, s2; try discriminate; reflexivity.
Qed.

Lemma press_winv : forall reset, (forall s, safer s (reset s)) -> forall fuel p e dev s,
  is_mouse_wheel (ek e) = true -> es e = Down -> valid_device dev = true -> wheel_free p e -> winv p s ->
  winv (wheel_next p e) (fst (translate_with clock reset fuel e dev s)).
Proof.
  intros reset Hr fuel p e dev s Hw Hst Hd Hf H.
  assert (Hsame : winv (wheel_next p e) s).
  { destruct H as (p' & Hb & Hs & Hl). exists p'. split; [|auto]. intros k. unfold wheel_next. rewrite Hst. cbn [kstate_eqb].
    destruct (N.eqb_spec k (ek e)) as [->|]; [|apply Hb]. apply (below_free p' p e Hb Hf). }
  destruct fuel as [|fuel]; cbn [translate_with fst]; [exact Hsame|].
  destruct (event_eqb e (sv_last s) && _); [exact Hsame|].
  destruct (sv_next s && _ && _ && _); [exact Hsame|].
  rewrite Hst. cbn [kstate_eqb]. rewrite andb_false_r. cbn [orb].
  apply core_winv; auto. destruct (sv_start s) as [t|]; [|exact H].
  eapply safer_winv; [|exact H]. eapply safer_trans; [|apply (plain_safe reset Hr); apply timeout_plain; exact Hd].
  apply safer_same; reflexivity.
Qed.

Lemma step_winv : forall reset, (forall s, safer s (reset s)) -> forall fuel p e dev s,
  is_mouse_wheel (ek e) = true -> es e = Up -> valid_device dev = true -> wheel_free p e -> winv p s ->
  winv (wheel_next p e) (fst (translate_with clock reset (S fuel) e dev s)).
Proof.
  intros reset Hr fuel p e dev s Hw Hst Hd Hf H. cbn [translate_with fst].
  destruct (event_eqb e (sv_last s) && _) eqn:Er.
  { apply andb_prop in Er as [Er _]. apply event_eqb_eq in Er. destruct H as (p' & Hb & Hs & Hl).
    exists p'. split; [|auto]. intros k. unfold wheel_next. rewrite Hst. cbn [kstate_eqb].
    destruct (N.eqb_spec k (ek e)) as [->|]; [|apply Hb]. left. unfold stepped in Hl. rewrite <- Er in Hl. auto. }
  rewrite Hst. cbn [kstate_eqb]. rewrite andb_false_r, Hw. cbn [andb orb fst]. clear Er.
  set (s1 := match sv_start s with Some _ => _ | None => _ end).
  assert (H1 : winv p s1).
  { unfold s1. destruct (sv_start s) as [t|]; [|exact H]. destruct (sv_on_up s); [|exact H].
    eapply safer_winv; [|exact H]. eapply safer_trans; [|apply (plain_safe reset Hr); apply timeout_plain; exact Hd].
    apply safer_same; reflexivity. }
  clearbody s1. set (press := Ev (ek e) Down (ev e)).
  pose proof (press_winv reset Hr fuel p press dev s1 Hw eq_refl Hd Hf H1) as H2.
  assert (Hf2 : wheel_free (wheel_next p press) e).
  { right. unfold wheel_next, press. cbn [ek es ev kstate_eqb]. rewrite N.eqb_refl. reflexivity. }
  pose proof (core_winv reset Hr _ e dev _ Hw (or_intror Hst) Hd Hf2 H2) as (p' & Hb & Hs & Hl).
  exists p'. split; [|auto]. intros k. destruct (Hb k) as [E|E]; [auto|]. right. rewrite E. unfold wheel_next, press.
  rewrite Hst. cbn [ek es ev kstate_eqb]. destruct (k =? ek e); reflexivity.
Qed.

Lemma wheel_winv : forall reset, (forall s, safer s (reset s)) -> forall p e dev s,
  is_mouse_wheel (ek e) = true -> (es e = Down \/ es e = Up) -> valid_device dev = true -> wheel_free p e -> winv p s ->
  winv (wheel_next p e) (fst (translate_with clock reset translate_depth e dev s)).
Proof.
  intros reset Hr p e dev s Hw [Hst|Hst]; [apply press_winv; assumption|apply step_winv; assumption].
Qed.

Definition sinv0 (s : server) : Prop := exists p, calm_wheels p /\ winv p s.

Lemma wheel_safe : forall e dev s, server_input e dev -> sinv0 s ->
  sinv0 (fst (translate_input clock send_ok e dev s)).
Proof.
  intros e dev s (He & Hd & Hw) (p & Hp & H). unfold translate_input.
  destruct (is_mouse_wheel (ek e)) eqn:Ew.
  - exists (wheel_next p e). split.
    + intros k. unfold wheel_next. rewrite (Hw eq_refl). cbn [kstate_eqb]. destruct (k =? ek e); [reflexivity|apply Hp].
    + apply wheel_winv; auto; [apply reset_safer|]. left. apply Hp.
  - exists p. split; [exact Hp|]. eapply safer_winv; [|exact H]. apply plain_safe; [apply reset_safer|].
    exact (conj He (conj Hd Ew)).
Qed.


Definition wf_step (x : step) : Prop :=
  match x with
  | SInput e dev => server_input e dev
  | SMessage (MConfig (Some m)) => good_config m
  | SMessage (MVirtual k _) => is_virtual_key k = true
  | SMessage (MInjectInput l) => wheels_paired (fun _ => None) l
  | _ => True
  end.

Lemma device_no_timeout : forall k, is_device_key k = true -> k <> k_none /\ k <> k_timeout.
Proof. intros k H. split; intros ->; discriminate. Qed.

Lemma wheel_device : forall k, is_mouse_wheel k = true -> is_device_key k = true.
Proof. intros k H. unfold is_device_key. rewrite H. rewrite !orb_true_r. reflexivity. Qed.

Lemma inject_safe : forall l p s, wheels_paired p l -> winv p s -> sinv0 (inject_input clock send_ok l s).
Proof.
  induction l as [|e l IH]; intros p s Hl H; cbn [inject_input]; [exists p; auto|]. cbn [wheels_paired] in Hl.
  assert (Ht : forall p', (is_device_key (ek e) = true -> (es e = Up \/ es e = Down) ->
                           winv p' (fst (translate_input clock send_ok e no_device s))) ->
               (match es e with Up | Down => true | _ => false end && is_device_key (ek e) = false -> winv p' s) ->
               wheels_paired p' l ->
               sinv0 (inject_input clock send_ok l
                 (if match es e with Up | Down => true | _ => false end && is_device_key (ek e)
                  then let '(s, ok) := translate_input clock send_ok e no_device s in if ok then s else push e s
                  else s))).
  { intros p' H1 H2 H3. apply (IH p'); [exact H3|].
    destruct (match es e with Up | Down => true | _ => false end && is_device_key (ek e)) eqn:E; [|auto].
    apply andb_prop in E as [E1 E2].
    assert (Hs : es e = Up \/ es e = Down) by (destruct (es e); try discriminate; auto).
    specialize (H1 E2 Hs).
    pose proof (translate_true clock (reset_configuration clock send_ok None) translate_depth e no_device s) as Hb.
    fold (translate_input clock send_ok e no_device s) in Hb.
    destruct (translate_input clock send_ok e no_device s) as [s' b]. cbn [fst snd] in *. subst b. exact H1. }
  destruct (is_mouse_wheel (ek e)) eqn:Ew.
  - pose proof (wheel_device _ Ew) as Hdev.
    assert (Hgo : es e = Down \/ es e = Up -> wheel_free p e /\ wheels_paired (wheel_next p e) l ->
                  sinv0 (inject_input clock send_ok l
                    (if match es e with Up | Down => true | _ => false end && is_device_key (ek e)
                     then let '(s, ok) := translate_input clock send_ok e no_device s in if ok then s else push e s
                     else s))).
    { intros Hst [Hf Hr]. apply (Ht (wheel_next p e)).
      - intros _ _. apply wheel_winv; auto. apply reset_safer.
      - intros E. rewrite Hdev, andb_true_r in E. destruct Hst as [G|G]; rewrite G in E; discriminate.
      - exact Hr. }
    destruct (es e) eqn:Es; try (apply Hgo; [auto|exact Hl]);
      (apply (Ht p); [intros _ [?|?]; discriminate|intros _; exact H|exact Hl]).
  - destruct Hl as [Hz Hl]. apply (Ht p).
    + intros Hdev Hs. destruct (device_no_timeout _ Hdev) as [Hn Hto]. eapply safer_winv; [|exact H].
      apply plain_safe; [apply reset_safer|]. split; [|split; [reflexivity|exact Ew]]. split; [exact Hn|].
      destruct Hs as [E|E]; rewrite E; cbn; intuition.
    + intros _. exact H.
    + exact Hl.
Qed.

Lemma calm_below : forall p p', calm_wheels p -> calm_wheels p' -> forall s, winv p s -> winv p' s.
Proof.
  intros p p' Hp Hp' s (q & Hb & Hs). exists q. split; [|exact Hs]. intros k. destruct (Hb k) as [E|E]; [auto|].
  left. rewrite E. apply Hp.
Qed.

Theorem step_safe : forall x s, wf_step x -> sinv0 s -> sinv0 (server_step clock send_ok x s).
Proof.
  intros x s Hx H.
  assert (G : lift_ok plain_input good_config (fun _ => True) (fun _ => True) True x -> sinv0 (server_step clock send_ok x s)).
  { intros Hok. destruct H as (p & Hp & H). exists p. split; [exact Hp|]. eapply safer_winv; [|exact H].
    exact (li_step clock send_ok _ _ _ _ _ _ safe_lifts x s Hok). }
  destruct x as [e dev| | |ds|[[m|]|l|k st|f| |l|l]| ]; try (apply G; exact I); try (apply G; exact Hx).
  - cbn [server_step]. apply wheel_safe; [exact Hx|exact H].
  - apply G. split; apply virtual_plain; auto.
  - cbn [server_step on_message]. destruct H as (p & Hp & H).
    destruct (inject_safe l _ s Hx (calm_below p (fun _ => None) Hp (fun _ => eq_refl) s H)) as (q & Hq & H1).
    exists q. split; [exact Hq|]. eapply safer_winv; [|exact H1].
    unfold schedule_flush. destruct (sv_flush _); apply safer_same; reflexivity.
Qed.
Theorem run_safe : forall l s, Forall wf_step l -> sinv0 s -> sinv0 (server_run clock send_ok l s).
Proof.
  induction l as [|x l IH]; intros s Hl H; cbn [server_run]; [exact H|]. inversion_clear Hl.
  apply IH; [assumption|]. apply step_safe; assumption.
Qed.

Lemma safe_undamaged : forall m s, safe m s -> undamaged s.
Proof.
  intros m s [_ H]. unfold undamaged.
  assert (G : forall m st, sinv m st -> s_ub (snd st) = false /\ s_oof (snd st) = false).
  { intros m0 st (_ & Hi & _). split; apply Hi. }
  destruct (m_stages _) as [|st r]; [constructor|]. destruct H as [Hs Hr].
  constructor; [eapply G; exact Hs|]. eapply Forall_impl; [|exact Hr]. intros a. apply G.
Qed.

Definition safer0 (s s' : server) : Prop := safe None s -> safe None s'.
Lemma zero_safe : forall reset, (forall s, safer0 s (reset s)) -> forall fuel e dev s,
  zero_input e dev -> safer0 s (fst (translate_with clock reset fuel e dev s)).
Proof.
  intros reset Hr. 
  assert (Hcore : forall e dev s, zero_input e dev -> safe None s -> safe None (fst (translate_core clock reset e dev s))).
  { intros e dev s (He & Hd & Hw) H. rewrite core_cases. set (s0 := if _ =? _ then s else _).
    assert (H0 : safe None s0) by (unfold s0; destruct (_ =? _); exact H).
    assert (Hm : mode_step None e None) by (split; [intros; auto|reflexivity]).
    destruct (m_should_exit _); cbn [fst].
    - apply (Hr (put_stage (fst (m_update e dev (sv_stage s0))) (log (EFeed e dev) s0))).
      apply (m_update_safe None None e dev _ He Hd Hm H0).
    - eapply feed_safe_mode; eassumption. }
  induction fuel as [|fuel IH]; intros e dev s Hp H; cbn [translate_with fst]; [exact H|].
  destruct (event_eqb e (sv_last s) && _); [exact H|].
  destruct (sv_next s && _ && _ && _); [exact H|].
  apply Hcore; [exact Hp|].
  set (s1 := match sv_start s with Some _ => _ | None => _ end).
  assert (H1 : safe None s1).
  { unfold s1. destruct (sv_start s) as [t|]; [|exact H]. destruct (_ || _); [|exact H].
    apply IH; [|exact H]. destruct (timeout_plain (to_int32 (Z.quot (clock (sv_ticks s) - t) 1000000)) dev) as (A & B & C); [apply Hp|].
    split; [exact A|]. split; [exact B|]. intros E. unfold elapsed_event in E. congruence. }
  clearbody s1. destruct (is_mouse_wheel (ek e)) eqn:Ew; [|exact H1]. destruct (kstate_eqb (es e) Up); cbn [andb]; [|exact H1].
  apply IH; [|exact H1]. destruct Hp as (_ & Hd & Hz). split; [apply wheel_event; [exact Ew|auto]|]. split; [exact Hd|].
  intros _. apply Hz. exact Ew.
Qed.
Lemma zero_lifts : lifts clock safer0 zero_input good_config (fun _ => True) (fun _ => True) True.
Proof.
  constructor; try (intros; intros Hmd; exact Hmd).
  - intros a b c H1 H2 H. auto.
  - intros reset Hr e dev s Hp. apply zero_safe; assumption.
  - intros reset Hr s _ H. apply (zero_safe reset Hr); [|exact H].
    destruct (timeout_plain (to_int32 (duration_ticks 1000 (sv_timeout s))) any_device eq_refl) as (A & B & C).
    split; [exact A|]. split; [exact B|]. intros E. unfold expired_event in E. congruence.
  - intros k st Hk Hst. destruct (virtual_plain k st Hk Hst) as (A & B & C). split; [exact A|]. split; [exact B|]. congruence.
  - intros md. split; [reflexivity|exact I].
  - intros s H. unfold release_all_keys, safe. rewrite stage_pushes. exact H.
  - intros m s Hm _. apply Hm.
  - intros v s H. unfold schedule_flush. destruct (sv_flush s); exact H.
  - intros l m out s E H. unfold safe. cbn [put_stage sv_stage].
    destruct (m_contexts_safe None l _ H) as [H1 _]. rewrite E in H1. exact H1.
  - intros ds s H. apply m_devices_safe. exact H.
  - intros f s _ H. apply m_validate_safe. exact H.
  - intros l s _ H. unfold safe. rewrite stage_pushes. exact H.
Qed.
Definition zero_step (x : step) : Prop :=
  match x with
  | SInput e dev => zero_input e dev
  | SMessage (MConfig (Some m)) => good_config m
  | SMessage (MVirtual k _) => is_virtual_key k = true
  | SMessage (MInjectInput l) => Forall (fun e => ev e = 0) l
  | _ => True
  end.
Theorem run_safe_zero : forall l s, Forall zero_step l -> safe None s -> safe None (server_run clock send_ok l s).
Proof.
  intros l s Hl. apply (li_run clock send_ok _ _ _ _ _ _ zero_lifts). eapply Forall_impl; [|exact Hl].
  intros [e dev| | |ds|[[m|]|l'|k st|f| |l'|l']| ] Hx; cbn in *; auto.
  - split.
    + apply (li_toggle _ _ _ _ _ _ _ zero_lifts); auto.
    + apply (li_toggle _ _ _ _ _ _ _ zero_lifts); auto.
  - eapply Forall_impl; [|exact Hx]. intros e Hz Hs Hd. destruct (device_no_timeout _ Hd) as [Hn Ht].
    split; [|split; [reflexivity|auto]]. split; [exact Hn|]. destruct Hs as [E|E]; rewrite E; cbn; intuition.
Qed.
End Safe.
