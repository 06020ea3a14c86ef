(** What a flush of the queue does: delays (C25), the number of toggled keys (C27), and
    what translating an event leaves alone. *)
From Coq Require Import List Arith NArith ZArith Bool Lia SpecFloat.
From Verif Require Import Base Key Match Stage StageSpec StageOut MultiStage MultiSpec MultiProofs
  Server ServerSpec ServerProofs ServerQueue.
Import ListNotations.
Local Open Scope N_scope.

Section Flush.
Variable clock : nat -> Z.
Variable send_ok : nat -> bool.

(** * Translating an event *)

(** Effects which are not caused by translating an event. *)
Definition quiet (x : effect) : Prop :=
  match x with EFeed _ _ | EQueue _ | ENextKey _ _ | ETimeout _ _ | ECancel => True | _ => False end.

(** [s'] comes from [s] without delivering or reporting anything. *)
Record calm (s s' : server) : Prop := {
  q_flush : sv_flush s' = sv_flush s;
  q_virtual : sv_virtual s' = sv_virtual s;
  q_sending : sv_sending s' = sv_sending s;
  q_sends : sv_sends s' = sv_sends s;
  q_devices : sv_devices s' = sv_devices s;
  q_trace : exists new, sv_trace s' = new ++ sv_trace s /\ Forall quiet new;
  q_buf : exists more, sv_buf s' = sv_buf s ++ more
}.

Lemma calm_refl : forall s, calm s s.
Proof.
  intros s. constructor; try reflexivity; [exists []; split; [reflexivity|constructor]|].
  exists []. rewrite app_nil_r. reflexivity.
Qed.
Lemma calm_trans : forall a b c, calm a b -> calm b c -> calm a c.
Proof.
  intros a b c [? ? ? ? ? (n1 & E1 & F1) (m1 & B1)] [? ? ? ? ? (n2 & E2 & F2) (m2 & B2)].
  constructor; try congruence.
  - exists (n2 ++ n1). rewrite E2, E1, app_assoc. split; [reflexivity|]. apply Forall_app. split; assumption.
  - exists (m1 ++ m2). rewrite B2, B1, app_assoc. reflexivity.
Qed.

Definition grows (s s' : server) : Prop := exists new, sv_trace s' = new ++ sv_trace s.
Lemma grows_refl : forall s, grows s s. Proof. intros. exists []. reflexivity. Qed.
Lemma grows_trans : forall a b c, grows a b -> grows b c -> grows a c.
Proof. intros a b c [x Hx] [y Hy]. exists (y ++ x). rewrite Hy, Hx, app_assoc. reflexivity. Qed.
Lemma calm_grows : forall s s', calm s s' -> grows s s'.
Proof. intros s s' [_ _ _ _ _ (n & E & _) _]. exists n. exact E. Qed.
Lemma exits_grows : forall s s', exits s s' -> grows s s'.
Proof. intros s s' (n & E & _). exists n. exact E. Qed.
Lemma exits_after : forall a b c, grows a b -> exits b c -> exits a c.
Proof.
  intros a b c [x Hx] (y & Hy & H). exists (y ++ x). rewrite Hy, Hx, app_assoc.
  split; [reflexivity|]. apply in_app_iff. auto.
Qed.
Lemma exits_before : forall a b c, exits a b -> grows b c -> exits a c.
Proof.
  intros a b c (x & Hx & H) [y Hy]. exists (y ++ x). rewrite Hy, Hx, app_assoc.
  split; [reflexivity|]. apply in_app_iff. auto.
Qed.
Definition either (s s' : server) : Prop := calm s s' \/ exits s s'.
Lemma either_trans : forall a b c, either a b -> either b c -> either a c.
Proof.
  intros a b c [H|H] [H'|H'].
  - left. eapply calm_trans; eassumption.
  - right. eapply exits_after; [apply calm_grows; eassumption|assumption].
  - right. eapply exits_before; [eassumption|apply calm_grows; assumption].
  - right. eapply exits_before; [eassumption|apply exits_grows; assumption].
Qed.

Lemma send_fields : forall l s, sv_flush (send_key_sequence l s) = sv_flush s /\
  sv_devices (send_key_sequence l s) = sv_devices s /\
  sv_sends (send_key_sequence l s) = sv_sends s /\ sv_virtual (send_key_sequence l s) = sv_virtual s /\
  sv_sending (send_key_sequence l s) = sv_sending s.
Proof.
  induction l as [|e l IH]; intros s; [repeat split|]. unfold send_key_sequence in *. cbn [fold_left].
  destruct (IH (push e s)) as (A & B & C & D & F). rewrite A, B, C, D, F. repeat split.
Qed.
Lemma quiet_queue : forall l, Forall quiet (rev (map EQueue l)).
Proof. intros l. apply Forall_rev. apply Forall_forall. intros x H. apply in_map_iff in H as (e & <- & _). exact I. Qed.
Lemma calm_send : forall l s, calm s (send_key_sequence l s).
Proof.
  intros l s. destruct (send_fields l s) as (A & B & C & D & F).
  destruct (push_all l s) as (_ & Eb & _ & _ & Et & _). constructor; auto.
  - eexists. split; [exact Et|apply quiet_queue].
  - eexists. exact Eb.
Qed.
Ltac calm1 := constructor; try reflexivity;
  [first [exists []; split; [reflexivity|constructor] | eexists [_]; split; [reflexivity|repeat constructor]]
  |exists []; rewrite app_nil_r; reflexivity].

Lemma calm_feed : forall e dev s, calm s (feed clock e dev s).
Proof.
  intros e dev s. unfold feed. destruct (m_update e dev _) as [m out].
  assert (H1 : calm s (put_stage m (log (EFeed e dev) s))) by calm1.
  eapply calm_trans; [exact H1|]. set (s1 := put_stage _ _).
  assert (H2 : forall o s2 s3, calm s1 s2 -> s3 = send_key_sequence (copy_delta e o) s2 ->
    calm s1 (put_stage (m_reuse_buffer (sv_stage s3)) s3)).
  { intros o s2 s3 H ->. eapply calm_trans; [exact H|]. eapply calm_trans; [apply calm_send|]. calm1. }
  destruct (back out) as [r|]; [destruct (ek r =? k_timeout)|].
  - eapply H2; [|reflexivity]. calm1.
  - eapply H2; [|reflexivity]. apply calm_refl.
  - eapply H2; [|reflexivity]. apply calm_refl.
Qed.

Lemma core_either : forall reset e dev s, (forall s, grows s (reset s)) ->
  either s (fst (translate_core clock reset e dev s)).
Proof.
  intros reset e dev s Hr. rewrite core_cases.
  set (s0 := if ek e =? k_timeout then s else put_last e s).
  assert (H0 : calm s s0) by (unfold s0; destruct (ek e =? k_timeout); [apply calm_refl|calm1]).
  destruct (m_should_exit _); cbn [fst].
  - right. eapply exits_after; [apply calm_grows; exact H0|].
    eapply exits_after with (b := reset (put_stage (fst (m_update e dev (sv_stage s0))) (log (EFeed e dev) s0))).
    { eapply grows_trans; [|apply Hr]. exists [EFeed e dev]. reflexivity. }
    exists [EExit]. split; [reflexivity|left; reflexivity].
  - left. eapply calm_trans; [exact H0|apply calm_feed].
Qed.

Lemma translate_either : forall reset, (forall s, grows s (reset s)) -> forall fuel e dev s,
  (fuel <> 0%nat -> either s (fst (translate_with clock reset fuel e dev s))) /\
  grows s (fst (translate_with clock reset fuel e dev s)).
Proof.
  intros reset Hr.
  assert (Hb : forall fuel e dev s, either s (fst (translate_with clock reset fuel e dev s))).
  { induction fuel as [|fuel IH]; intros e dev s.
    - left. cbn [translate_with fst]. calm1.
    - cbn [translate_with]. destruct (event_eqb e (sv_last s) && _); [left; apply calm_refl|].
      destruct (sv_next s && _ && _ && _); [left; calm1|].
      eapply either_trans; [|apply core_either; exact Hr].
      eapply either_trans with (b := match sv_start s with
          | Some t =>
              if kstate_eqb (es e) Down || sv_on_up s then
                fst (translate_with clock reset fuel (elapsed_event (clock (sv_ticks s) - t)) dev (cancel_timeout (tick s)))
              else s
          | None => s
          end).
      + destruct (sv_start s) as [t|]; [|left; apply calm_refl].
        destruct (kstate_eqb (es e) Down || sv_on_up s); [|left; apply calm_refl].
        eapply either_trans; [|apply IH]. left. calm1.
      + set (s1 := match sv_start s with Some _ => _ | None => _ end).
        destruct (is_mouse_wheel (ek e) && kstate_eqb (es e) Up); [apply IH|left; apply calm_refl]. }
  intros fuel e dev s. split; [intros _; apply Hb|].
  destruct (Hb fuel e dev s) as [H|H]; [apply calm_grows|apply exits_grows]; exact H.
Qed.

(** No reports while flushing, not even when exiting. *)
Definition is_report (x : effect) : bool := match x with EVirtual _ _ => true | _ => false end.
Definition reports (tr : list effect) : nat := length (List.filter is_report tr).
Lemma reports_app : forall a b, reports (a ++ b) = (reports a + reports b)%nat.
Proof. intros. unfold reports. rewrite filter_app, app_length. reflexivity. Qed.
Definition noreport (x : effect) : Prop := is_report x = false.
Lemma noreport_reports : forall l, Forall noreport l -> reports l = 0%nat.
Proof.
  induction l as [|x l IH]; intros H; [reflexivity|]. inversion_clear H. unfold reports in *. cbn.
  rewrite H0. apply IH. exact H1.
Qed.
Lemma quiet_noreport : forall l, Forall quiet l -> Forall noreport l.
Proof. intros l H. eapply Forall_impl; [|exact H]. intros [] Hx; try contradiction; reflexivity. Qed.

Definition silent (s s' : server) : Prop := exists new, sv_trace s' = new ++ sv_trace s /\ Forall noreport new.
Lemma silent_refl : forall s, silent s s. Proof. intros. exists []. split; [reflexivity|constructor]. Qed.
Lemma silent_trans : forall a b c, silent a b -> silent b c -> silent a c.
Proof.
  intros a b c (x & Hx & Fx) (y & Hy & Fy). exists (y ++ x). rewrite Hy, Hx, app_assoc.
  split; [reflexivity|]. apply Forall_app. split; assumption.
Qed.
Lemma silent_calm : forall s s', calm s s' -> silent s s'.
Proof. intros s s' [_ _ _ _ _ (n & E & F) _]. exists n. split; [exact E|apply quiet_noreport; exact F]. Qed.
Lemma silent_log : forall x s, noreport x -> silent s (log x s).
Proof. intros x s H. exists [x]. split; [reflexivity|]. constructor; [exact H|constructor]. Qed.

Lemma silent_reset : forall s, silent s (reset_while_sending s).
Proof.
  intros s. unfold reset_while_sending. eapply silent_trans with (b := release_all_keys s).
  - apply silent_calm, calm_send.
  - exists []. split; [reflexivity|constructor].
Qed.
Lemma silent_translate : forall reset, (forall s, silent s (reset s)) -> forall fuel e dev s,
  silent s (fst (translate_with clock reset fuel e dev s)).
Proof.
  intros reset Hr. induction fuel as [|fuel IH]; intros e dev s; cbn [translate_with].
  - apply silent_calm. calm1.
  - destruct (event_eqb e (sv_last s) && _); [apply silent_refl|].
    destruct (sv_next s && _ && _ && _); [apply silent_calm; calm1|].
    match goal with |- silent _ (fst (translate_core _ _ _ _ ?x)) => set (s2 := x) end.
    assert (H2 : silent s s2).
    { unfold s2. clear s2. set (s1 := match sv_start s with Some _ => _ | None => _ end).
      assert (H1 : silent s s1).
      { unfold s1. destruct (sv_start s) as [t|]; [|apply silent_refl].
        destruct (_ || _); [|apply silent_refl]. eapply silent_trans; [|apply IH].
        apply silent_calm. calm1. }
      eapply silent_trans; [exact H1|]. destruct (_ && _); [apply IH|apply silent_refl]. }
    eapply silent_trans; [exact H2|]. rewrite core_cases.
    set (s0 := if ek e =? k_timeout then s2 else put_last e s2).
    assert (H0 : calm s2 s0) by (unfold s0; destruct (ek e =? k_timeout); [apply calm_refl|calm1]).
    eapply silent_trans; [apply silent_calm; exact H0|]. destruct (m_should_exit _); cbn [fst].
    + eapply silent_trans; [|apply silent_log; reflexivity]. eapply silent_trans; [|apply Hr].
      apply silent_calm. calm1.
    + apply silent_calm, calm_feed.
Qed.

Lemma toggle_reports : forall k s,
  (reports (sv_trace (toggle_virtual_key clock k s)) <= S (reports (sv_trace s)))%nat.
Proof.
  intros k s. unfold toggle_virtual_key, set_virtual_with.
  assert (H : forall e st l, (reports (sv_trace ((fun s : server => if is_virtual_key k then log (EVirtual k st) s else s)
     (fst (translate_with clock reset_while_sending translate_depth e any_device (put_virtual l s))))) <= S (reports (sv_trace s)))%nat).
  { intros e st l. destruct (silent_translate _ silent_reset translate_depth e any_device (put_virtual l s)) as (n & E & F).
    cbv beta. destruct (is_virtual_key k); cbn [log sv_trace].
    - change (_ :: ?x) with ([EVirtual k st] ++ x). rewrite reports_app, E, reports_app, (noreport_reports _ F).
      cbn [put_virtual sv_trace]. unfold reports at 1. cbn. lia.
    - rewrite E, reports_app, (noreport_reports _ F). cbn [put_virtual sv_trace]. lia. }
  destruct (find_index _ _); cbn [kstate_eqb negb]; apply H.
Qed.

(** ** At most nine keys are toggled by a flush *)
Lemma scan_reports : forall left again,
  (left <> 0%nat -> forall i s, let '(s', _, _) := again i s in
     (reports (sv_trace s') <= reports (sv_trace s) + pred left)%nat) ->
  forall rest i s, let '(s', _, _) := scan clock send_ok left again rest i s in
     (reports (sv_trace s') <= reports (sv_trace s) + left)%nat.
Proof.
  intros left again Hag. induction rest as [|e r IH]; intros i s; cbn [scan]; [lia|].
  destruct (is_mouse_wheel (ek e) && kstate_eqb (es e) Down); [apply IH|].
  destruct (is_action_key (ek e)).
  { destruct (kstate_eqb (es e) Down); [|apply IH].
    exact (IH (S i) (log (EAction (ek e - first_action)) s)). }
  destruct (is_virtual_key (ek e)).
  { destruct (kstate_eqb (es e) Down); [|apply IH]. destruct left as [|left]; [apply IH|].
    specialize (Hag ltac:(discriminate) (S i) (toggle_virtual_key clock (ek e) s)).
    destruct (again (S i) (toggle_virtual_key clock (ek e) s)) as [[s' i'] b].
    pose proof (toggle_reports (ek e) s). cbn [pred] in Hag. lia. }
  destruct (ek e =? k_timeout).
  { unfold schedule_flush. destruct (sv_flush s); cbn [log tick put_flush sv_trace]; [lia|].
    unfold reports. cbn. lia. }
  destruct (send_ok (sv_sends s)).
  - exact (IH (S i) (log (ESend e true) (count_send s))).
  - cbn [log count_send sv_trace]. unfold reports. cbn. lia.
Qed.
Lemma flush_loop_reports : forall left i s, let '(s', _, _) := flush_loop clock send_ok left i s in
  (reports (sv_trace s') <= reports (sv_trace s) + left)%nat.
Proof.
  induction left as [|left IH]; intros i s; rewrite flush_loop_scan; apply scan_reports.
  - intros H. contradiction.
  - intros _. exact IH.
Qed.
Theorem flush_reports : forall s,
  (reports (sv_trace (fst (flush_send_buffer clock send_ok s))) <= reports (sv_trace s) + 9)%nat.
Proof.
  intros s. unfold flush_send_buffer. destruct (sv_sending s); [cbn [fst]; lia|].
  pose proof (flush_loop_reports 9 0 (put_flush None (put_sending true s))) as H.
  destruct (flush_loop _ _ _ _ _) as [[s' i] b]. exact H.
Qed.

(** * How far a flush gets *)

Section Ok.
Hypothesis all_ok : forall n, send_ok n = true.

Lemma scan_progress : forall left again,
  (left <> 0%nat -> forall i s, (i <= length (sv_buf s))%nat -> let '(s', i', b) := again i s in
     b = true /\ ((length (sv_buf s') <= i')%nat \/ sv_flush s' <> None)) ->
  forall rest i s, rest = skipn i (sv_buf s) -> (i <= length (sv_buf s))%nat ->
     let '(s', i', b) := scan clock send_ok left again rest i s in
     b = true /\ ((length (sv_buf s') <= i')%nat \/ sv_flush s' <> None).
Proof.
  intros left again Hag. induction rest as [|e r IH]; intros i s Hr Hi; cbn [scan].
  { split; [reflexivity|]. left. pose proof (skipn_length i (sv_buf s)) as L. rewrite <- Hr in L. cbn in L. lia. }
  destruct (skipn_nth i (sv_buf s) e r (eq_sym Hr)) as (Hn & Hr' & Hi'). symmetry in Hr'.
  destruct (is_mouse_wheel (ek e) && kstate_eqb (es e) Down); [apply IH; assumption|].
  destruct (is_action_key (ek e)).
  { destruct (kstate_eqb (es e) Down); apply IH; assumption. }
  destruct (is_virtual_key (ek e)) eqn:V.
  { destruct (kstate_eqb (es e) Down); [|apply IH; assumption]. destruct left as [|left]; [apply IH; assumption|].
    apply Hag; [discriminate|]. destruct (toggle_grows clock send_ok (ek e) s V) as (m & E). rewrite E, app_length. lia. }
  destruct (ek e =? k_timeout).
  { split; [reflexivity|]. right. unfold schedule_flush. destruct (sv_flush s) eqn:F; [rewrite F|]; discriminate. }
  rewrite all_ok. apply IH; assumption.
Qed.
Lemma flush_loop_progress : forall left i s, (i <= length (sv_buf s))%nat ->
  let '(s', i', b) := flush_loop clock send_ok left i s in
  b = true /\ ((length (sv_buf s') <= i')%nat \/ sv_flush s' <> None).
Proof.
  induction left as [|left IH]; intros i s Hi; rewrite flush_loop_scan; apply scan_progress; auto; intros; contradiction.
Qed.
Theorem flush_progress : forall s, sv_sending s = false ->
  let '(s', b) := flush_send_buffer clock send_ok s in
  b = true /\ (sv_buf s' = [] \/ sv_flush s' <> None).
Proof.
  intros s Hs. unfold flush_send_buffer. rewrite Hs.
  pose proof (flush_loop_progress 9 0 (put_flush None (put_sending true s)) (Nat.le_0_l _)) as H.
  destruct (flush_loop _ _ _ _ _) as [[s' i] b]. destruct H as [Hb [H|H]]; (split; [exact Hb|]).
  - left. cbn [put_sending put_buf sv_buf]. apply skipn_all2. exact H.
  - right. exact H.
Qed.

(** Up to the first delay everything is done, in order, when no virtual key is pressed. *)
Lemma scan_prefix : forall left again l1 rest i s,
  no_timeout l1 -> no_virtual l1 -> sv_flush s = None -> (rest = [] \/ exists x t, rest = x :: t /\ ek x = k_timeout) ->
  exists s', scan clock send_ok left again (l1 ++ rest) i s =
    (match rest with [] => s' | e :: _ => schedule_flush clock (ev e) s' end,
     match rest with [] => i + length l1 | _ => S (i + length l1) end, true)%nat /\
    sv_trace s' = rev (visible l1) ++ sv_trace s /\ sv_buf s' = sv_buf s /\ sv_stage s' = sv_stage s /\
    sv_virtual s' = sv_virtual s /\ sv_flush s' = sv_flush s /\ sv_ticks s' = sv_ticks s.
Proof.
  intros left again l1 rest. induction l1 as [|e l1 IH]; intros i s Ht Hv Hf Hr.
  { exists s. cbn [app length visible flat_map rev]. rewrite Nat.add_0_r. split; [|repeat split].
    destruct Hr as [->|(x & t & -> & E)]; [reflexivity|]. cbn [scan app]. rewrite E. reflexivity. }
  inversion_clear Ht. inversion_clear Hv. cbn [app scan].
  pose proof (calls_for_cases e) as Cf.
  assert (Hgo : forall s1, sv_trace s1 = rev (calls_for e) ++ sv_trace s -> sv_buf s1 = sv_buf s ->
    sv_stage s1 = sv_stage s -> sv_virtual s1 = sv_virtual s -> sv_flush s1 = sv_flush s -> sv_ticks s1 = sv_ticks s ->
    exists s', scan clock send_ok left again (l1 ++ rest) (S i) s1 =
    (match rest with [] => s' | e :: _ => schedule_flush clock (ev e) s' end,
     match rest with [] => i + length (e :: l1) | _ => S (i + length (e :: l1)) end, true)%nat /\
    sv_trace s' = rev (visible (e :: l1)) ++ sv_trace s /\ sv_buf s' = sv_buf s /\ sv_stage s' = sv_stage s /\
    sv_virtual s' = sv_virtual s /\ sv_flush s' = sv_flush s /\ sv_ticks s' = sv_ticks s).
  { intros s1 E1 E2 E3 E4 E5 E6. destruct (IH (S i) s1) as (s' & A & B & C & D & F & G & K); auto; [congruence|].
    exists s'. rewrite A. split.
    - cbn [length]. replace (i + S (length l1))%nat with (S i + length l1)%nat by lia. reflexivity.
    - repeat split; try congruence. rewrite B, E1. change (visible (e :: l1)) with (calls_for e ++ visible l1).
      rewrite rev_app_distr, app_assoc. reflexivity. }
  destruct (is_mouse_wheel (ek e) && kstate_eqb (es e) Down); [apply Hgo; auto; rewrite Cf; reflexivity|].
  destruct (is_action_key (ek e)).
  { destruct (kstate_eqb (es e) Down); apply Hgo; auto; rewrite Cf; reflexivity. }
  destruct (is_virtual_key (ek e)) eqn:V.
  { destruct (kstate_eqb (es e) Down) eqn:KD; [|apply Hgo; auto; rewrite Cf; reflexivity].
    exfalso. apply H1; [reflexivity|]. destruct (es e); try discriminate. reflexivity. }
  destruct (ek e =? k_timeout) eqn:T; [apply N.eqb_eq in T; contradiction|].
  rewrite all_ok. apply Hgo; auto. rewrite Cf. reflexivity.
Qed.

Theorem flush_prefix : forall s l1 rest, sv_sending s = false -> sv_buf s = l1 ++ rest ->
  no_timeout l1 -> no_virtual l1 -> (rest = [] \/ exists x t, rest = x :: t /\ ek x = k_timeout) ->
  let s' := fst (flush_send_buffer clock send_ok s) in
  sv_buf s' = tl rest /\ sv_stage s' = sv_stage s /\ sv_virtual s' = sv_virtual s /\ sv_sending s' = false /\
  (exists new, Forall minor new /\ sv_trace s' = new ++ rev (visible l1) ++ sv_trace s) /\
  sv_flush s' = match rest with
                | [] => None
                | x :: _ => Some (clock (sv_ticks s) + duration_ticks 1000000000 (duration_of_ms (ev x)))%Z
                end.
Proof.
  intros s l1 rest Hs Hb Ht Hv Hr. unfold flush_send_buffer. rewrite Hs, flush_loop_scan.
  set (s0 := put_flush None (put_sending true s)). cbn [skipn].
  change (sv_buf s0) with (sv_buf s). rewrite Hb.
  edestruct (scan_prefix 9 (flush_loop clock send_ok 8) l1 rest 0 s0 Ht Hv eq_refl Hr)
    as (s' & E & A & B & C & D & F & G).
  rewrite E. cbn [fst]. destruct Hr as [->|(x & t & -> & Ex)].
  - cbn [put_sending put_buf sv_buf sv_stage sv_virtual sv_sending sv_trace sv_flush]. rewrite A, B, C, D, F.
    repeat split.
    + change (sv_buf s0) with (sv_buf s). rewrite Hb. rewrite app_nil_r. apply skipn_all2. lia.
    + exists []. split; [constructor|reflexivity].
  - unfold schedule_flush. rewrite F. cbn [s0 put_flush sv_flush].
    cbn [put_sending put_buf log tick put_flush sv_buf sv_stage sv_virtual sv_sending sv_trace sv_flush].
    rewrite A, B, C, D, G. repeat split.
    + change (sv_buf s0) with (sv_buf s). rewrite Hb. cbn [tl Nat.add].
      rewrite skipn_app, skipn_all2 by lia. replace (S (length l1) - length l1)%nat with 1%nat by lia. reflexivity.
    + exists [EFlushAt (ev x)]. split; [repeat constructor|reflexivity].
Qed.
End Ok.
End Flush.
