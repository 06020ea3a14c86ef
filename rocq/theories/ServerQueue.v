(** The queue of the server: order (C25), termination of a flush (C27) and releasing
    everything on a reset (C28). *)
From Coq Require Import List Arith NArith ZArith Bool Lia SpecFloat.
From Verif Require Import Base Key Match Stage StageSpec StageOut MultiStage MultiSpec MultiProofs
  Server ServerSpec ServerProofs.
Import ListNotations.
Local Open Scope N_scope.

Lemma queued_cons : forall x tr, queued (x :: tr) = queued tr ++ queued_one x.
Proof. intros. unfold queued. cbn [rev]. rewrite flat_map_app. cbn. rewrite app_nil_r. reflexivity. Qed.
Lemma done_cons : forall x tr, done (x :: tr) = done tr ++ done_one x.
Proof. intros. unfold done. cbn [rev]. rewrite flat_map_app. cbn. rewrite app_nil_r. reflexivity. Qed.
Lemma delivered_cons : forall x tr, delivered (x :: tr) = delivered tr ++ delivered_one x.
Proof. intros. unfold delivered. cbn [rev]. rewrite flat_map_app. cbn. rewrite app_nil_r. reflexivity. Qed.
Lemma queued_app : forall a b, queued (a ++ b) = queued b ++ queued a.
Proof. intros. unfold queued. rewrite rev_app_distr. apply flat_map_app. Qed.
Lemma done_app : forall a b, done (a ++ b) = done b ++ done a.
Proof. intros. unfold done. rewrite rev_app_distr. apply flat_map_app. Qed.
Lemma minor_silent : forall new, Forall minor new -> queued new = [] /\ done new = [].
Proof.
  induction new as [|x new IH]; intros H; [split; reflexivity|]. inversion_clear H.
  destruct (IH H1) as [Q D]. rewrite queued_cons, done_cons, Q, D. destruct x; cbn in *; auto; contradiction.
Qed.
Lemma pushed : forall l, queued (rev (map EQueue l)) = l /\ done (rev (map EQueue l)) = [].
Proof.
  intros l. unfold queued, done. rewrite rev_involutive.
  induction l as [|e l [IH1 IH2]]; [split; reflexivity|]. cbn. rewrite IH1, IH2. split; reflexivity.
Qed.
Lemma request_minor : forall out, Forall minor (request out).
Proof.
  intros out. unfold request. destruct (back out) as [r|]; [destruct (ek r =? k_timeout)|]; repeat constructor.
Qed.

Section Queue.
Variable clock : nat -> Z.
Variable send_ok : nat -> bool.

(** * What each micro step queues and delivers *)

Lemma micro_queued : forall x l y, micro clock send_ok x l y -> l <> LFlush ->
  fst y = fst x /\ exists more,
    sv_buf (snd y) = sv_buf (snd x) ++ more /\
    queued (sv_trace (snd y)) = queued (sv_trace (snd x)) ++ more /\
    done (sv_trace (snd y)) = done (sv_trace (snd x)).
Proof.
  intros x l y H Hl. destruct H; try (exfalso; apply Hl; reflexivity); cbn [fst snd]; (split; [reflexivity|]).
  - destruct H as [_ E _ _ (new & Et & Hm)]. exists []. rewrite !app_nil_r, E, Et, queued_app, done_app.
    destruct (minor_silent new Hm) as [-> ->]. rewrite !app_nil_r. auto.
  - destruct (m_update e dev (sv_stage s)) as [m out] eqn:E.
    destruct (feed_spec clock _ _ _ _ _ E) as (_ & Eb & _ & _ & Et & _). exists (keys_of e out).
    rewrite Eb, Et, !queued_app, !done_app, queued_cons, done_cons.
    destruct (minor_silent _ (request_minor out)) as [-> ->]. destruct (pushed (keys_of e out)) as [-> ->].
    cbn. rewrite !app_nil_r. auto.
  - exists []. cbn [put_stage log sv_buf sv_trace]. rewrite queued_cons, done_cons. cbn. rewrite !app_nil_r. auto.
  - destruct (push_all l s) as (_ & Eb & _ & _ & Et & _). exists l. rewrite Eb, Et, queued_app, done_app.
    destruct (pushed l) as [-> ->]. rewrite app_nil_r. auto.
  - unfold release_all_keys. set (r := map _ _). destruct (push_all r s) as (_ & Eb & _ & _ & Et & _).
    exists r. rewrite Eb, Et, queued_app, done_app. destruct (pushed r) as [-> ->]. rewrite app_nil_r. auto.
  - exists []. cbn. rewrite !app_nil_r. auto.
  - exists []. cbn. rewrite !app_nil_r. auto.
  - destruct (push_all out s) as (_ & Eb & _ & _ & Et & _). exists out. cbn [put_stage sv_buf sv_trace].
    rewrite Eb, Et, queued_app, done_app. destruct (pushed out) as [-> ->]. rewrite app_nil_r. auto.
  - exists []. cbn. rewrite !app_nil_r. auto.
  - exists []. cbn. rewrite !app_nil_r. auto.
  - exists []. cbn. rewrite !app_nil_r. auto.
  - exists []. cbn [log sv_buf sv_trace]. rewrite queued_cons, done_cons. cbn. rewrite !app_nil_r. auto.
Qed.

(** The position in the queue up to which everything was done. *)
Definition cursor (c : option nat) : nat := match c with Some i => i | None => 0%nat end.
Definition qinv (x : option nat * server) : Prop :=
  let '(c, s) := x in
  (cursor c <= length (sv_buf s))%nat /\
  exists pre, queued (sv_trace s) = pre ++ skipn (cursor c) (sv_buf s) /\ done (sv_trace s) = visible pre.

Lemma skipn_app_le : forall {A} n (a b : list A), (n <= length a)%nat -> skipn n (a ++ b) = skipn n a ++ b.
Proof. intros. rewrite skipn_app. replace (n - length a)%nat with 0%nat by lia. reflexivity. Qed.

Lemma skipn_cons_nth : forall {A} i (l : list A) e, nth_error l i = Some e ->
  skipn i l = e :: skipn (S i) l /\ (S i <= length l)%nat.
Proof.
  induction i as [|i IH]; intros [|x l] e H; try discriminate.
  - injection H as <-. cbn. split; [reflexivity|lia].
  - cbn [nth_error] in H. destruct (IH l e H) as [H1 H2]. cbn [skipn length]. split; [exact H1|lia].
Qed.

Lemma visible_app : forall a b, visible (a ++ b) = visible a ++ visible b.
Proof. intros. apply flat_map_app. Qed.
Lemma visible_one : forall e, visible [e] = calls_for e.
Proof. intros. cbn. apply app_nil_r. Qed.

Lemma micro_qinv : forall x l y, micro clock send_ok x l y -> qinv x -> qinv y.
Proof.
  intros x l y H Hq.
  assert (HL : l = LFlush \/ l <> LFlush) by (destruct l; auto; right; discriminate).
  destruct HL as [->|HL].
  2:{ destruct (micro_queued x l y H HL) as (E0 & more & E1 & E2 & E3).
      destruct x as [c s], y as [c' s']. cbn [fst snd] in *. subst c'. destruct Hq as (Hle & pre & Q & D).
      split; [rewrite E1, app_length; lia|]. exists pre. rewrite E1, E2, E3, Q, D, skipn_app_le by exact Hle.
      rewrite app_assoc. auto. }
  inversion H; subst; clear H; destruct Hq as (Hle & pre & Q & D); cbn [cursor] in *;
    unfold qinv; cbn [cursor];
    try match goal with Hn : nth_error _ _ = Some _ |- _ =>
          destruct (skipn_cons_nth _ _ _ Hn) as [E1 E2] end;
    try match goal with Hc : calls_for _ = _ |- _ => rename Hc into EC end.
  - split; [apply Nat.le_0_l|]. exists pre. exact (conj Q D).
  - split; [exact E2|]. exists (pre ++ [e]).
    rewrite <- app_assoc, visible_app, visible_one, EC, app_nil_r. cbn [app]. rewrite <- E1. auto.
  - split; [exact E2|]. exists (pre ++ [e]).
    cbn [log sv_trace sv_buf]. rewrite queued_cons, done_cons. cbn [queued_one done_one]. rewrite app_nil_r.
    rewrite <- app_assoc, visible_app, visible_one, EC, D. cbn [app]. rewrite <- E1. auto.
  - split; [exact E2|]. exists (pre ++ [e]).
    cbn [log count_send sv_trace sv_buf]. rewrite queued_cons, done_cons. cbn [queued_one done_one]. rewrite app_nil_r.
    rewrite <- app_assoc, visible_app, visible_one, EC, D. cbn [app]. rewrite <- E1. auto.
  - split; [exact Hle|]. exists pre. cbn [log count_send sv_trace sv_buf]. rewrite queued_cons, done_cons.
    cbn [queued_one done_one]. rewrite !app_nil_r. auto.
  - split; [apply Nat.le_0_l|]. exists pre. cbn [put_sending put_buf sv_trace sv_buf skipn]. auto.
Qed.

Lemma steps_qinv : forall x ls y, steps clock send_ok x ls y -> qinv x -> qinv y.
Proof. intros x ls y H. induction H; intros Hx; [exact Hx|]. apply IHsteps. eapply micro_qinv; eauto. Qed.

Definition any_label (l : label) : Prop := True.
Lemma closed_any : closed any_label.
Proof. constructor; intros; exact I. Qed.
Lemma step_ok_any : forall x, step_ok any_label x.
Proof.
  intros [e dev| | |ds|m|]; try exact I; [intros v; exact I|].
  destruct m as [[m|]|l|k st|f| |l|l]; try exact I; [split; exact I|].
  apply Forall_forall. intros; exact I.
Qed.

Theorem queue_order : forall l s, sv_sending s = false -> qinv (None, s) ->
  exists pre, queued (sv_trace (server_run clock send_ok l s)) = pre ++ sv_buf (server_run clock send_ok l s) /\
              done (sv_trace (server_run clock send_ok l s)) = visible pre.
Proof.
  intros l s Hs Hq.
  destruct (run_runs clock send_ok any_label closed_any I l s Hs) as (ls & H & _).
  { apply Forall_forall. intros. apply step_ok_any. }
  pose proof (steps_qinv _ _ _ H Hq) as (_ & pre & Q & D). exists pre. auto.
Qed.

(** * Delays *)


(** * Termination of a flush *)

(** Iterating the loop body. *)
Inductive iterates : server -> nat -> nat -> server -> nat -> bool -> Prop :=
| it_stop s i n s' i' b : flush_body clock send_ok s i n = FStop s' i' b -> iterates s i n s' i' b
| it_next s i n s1 i1 n1 s' i' b : flush_body clock send_ok s i n = FNext s1 i1 n1 ->
    iterates s1 i1 n1 s' i' b -> iterates s i n s' i' b.

Lemma scan_iterates : forall n left again, left = (9 - n)%nat ->
  (left <> 0%nat -> forall i s, let '(s', i', b) := again i s in iterates s i (S n) s' i' b) ->
  forall rest i n0 s, rest = skipn i (sv_buf s) -> (n0 = n \/ (left = 0 /\ n <= n0))%nat ->
  let '(s', i', b) := scan clock send_ok left again rest i s in iterates s i n0 s' i' b.
Proof.
  intros n left again Hleft Hag. induction rest as [|e r IH]; intros i n0 s Hr Hn0.
  { cbn [scan]. apply it_stop. unfold flush_body.
    assert (E : nth_error (sv_buf s) i = None).
    { apply nth_error_None. pose proof (skipn_length i (sv_buf s)) as L. rewrite <- Hr in L. cbn in L. lia. }
    rewrite E. reflexivity. }
  destruct (skipn_nth i (sv_buf s) e r (eq_sym Hr)) as (Hn & Hr' & _).
  cbn [scan].
  assert (Hgo : forall s' n1, flush_body clock send_ok s i n0 = FNext s' (S i) n1 -> sv_buf s' = sv_buf s ->
    (n1 = n \/ (left = 0 /\ n <= n1))%nat ->
    let '(s'', i', b) := scan clock send_ok left again r (S i) s' in iterates s i n0 s'' i' b).
  { intros s' n1 Hb Es Hn1. specialize (IH (S i) n1 s' ltac:(rewrite Es; auto) Hn1).
    destruct (scan clock send_ok left again r (S i) s') as [[s'' i'] b]. eapply it_next; eassumption. }
  unfold flush_body in Hgo. rewrite Hn in Hgo.
  destruct (is_mouse_wheel (ek e) && kstate_eqb (es e) Down) eqn:C1; [eapply Hgo; eauto|].
  destruct (is_action_key (ek e)) eqn:C2.
  { destruct (kstate_eqb (es e) Down); eapply Hgo; eauto. }
  destruct (is_virtual_key (ek e)) eqn:C3.
  { destruct (kstate_eqb (es e) Down) eqn:C4; [|eapply Hgo; eauto].
    destruct left as [|left].
    - assert (El : (S n0 <? 10)%nat = false) by (apply Nat.ltb_ge; lia).
      eapply Hgo; [rewrite El; reflexivity|reflexivity|]. right. lia.
    - assert (n0 = n) by lia. subst n0.
      specialize (Hag ltac:(discriminate) (S i) (toggle_virtual_key clock (ek e) s)).
      destruct (again (S i) (toggle_virtual_key clock (ek e) s)) as [[s' i'] b].
      eapply it_next; [|exact Hag]. unfold flush_body. rewrite Hn, C4, C1, C2, C3.
      assert (El : (S n <? 10)%nat = true) by (apply Nat.ltb_lt; lia). rewrite El. reflexivity. }
  destruct (ek e =? k_timeout) eqn:C5.
  { apply it_stop. unfold flush_body. rewrite Hn, C1, C2, C3, C5. reflexivity. }
  destruct (send_ok (sv_sends s)) eqn:C6.
  - eapply Hgo; eauto.
  - apply it_stop. unfold flush_body. rewrite Hn, C1, C2, C3, C5, C6. reflexivity.
Qed.

Lemma flush_loop_body : forall left n i s, left = (9 - n)%nat ->
  let '(s', i', b) := flush_loop clock send_ok left i s in iterates s i n s' i' b.
Proof.
  induction left as [|left IH]; intros n i s Hl; rewrite flush_loop_scan.
  - eapply (scan_iterates n); eauto. intros H. contradiction.
  - eapply (scan_iterates n); eauto. intros _ i' s'. apply IH. lia.
Qed.

Lemma iterates_fun : forall s i n s1 i1 b1 s2 i2 b2,
  iterates s i n s1 i1 b1 -> iterates s i n s2 i2 b2 -> (s1, i1, b1) = (s2, i2, b2).
Proof.
  intros s i n s1 i1 b1 s2 i2 b2 H. revert s2 i2 b2. induction H as [s i n s' i' b E|s i n sa ia na s' i' b E H IH]; intros s2 i2 b2 H2.
  - inversion H2; subst; congruence.
  - inversion H2 as [? ? ? ? ? ? E'|? ? ? ? ? ? ? ? ? E' H']; subst; [congruence|].
    rewrite E in E'. injection E' as <- <- <-. apply IH. exact H'.
Qed.

(** ** The number of toggled keys *)
Definition is_report (x : effect) : bool := match x with EVirtual _ _ => true | _ => false end.
Definition reports (tr : list effect) : nat := length (List.filter is_report tr).

End Queue.
