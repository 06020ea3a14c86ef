(** No undefined behaviour (C10) and the shape of the history (C20). *)
From Coq Require Import List Arith NArith ZArith Bool Lia.
From Verif Require Import Base Key Match Stage MatchProofs StageFrame StageTerm StageSpec.
Import ListNotations.
Local Open Scope N_scope.

(** * The history *)

Lemma strokes_app : forall a b d,
  strokes d (a ++ b) <-> strokes d a /\ strokes (match last a Up with Down => true | _ => false end || (match a with [] => d | _ => false end)) b.
Proof.
  induction a as [|x a IH]; intros b d.
  - cbn [app last strokes orb]. tauto.
  - destruct a as [|y a].
    + destruct x; cbn; try tauto.
    + change ((x :: y :: a) ++ b) with (x :: ((y :: a) ++ b)).
      cbn [strokes last]. destruct x; try tauto.
      * rewrite IH. cbn [last]. rewrite orb_false_r. tauto.
      * rewrite IH. cbn [last]. rewrite orb_false_r. tauto.
Qed.

Lemma track_app : forall k a b, track k (a ++ b) = track k a ++ track k b.
Proof. intros. unfold track. rewrite filter_app, map_app. reflexivity. Qed.

Lemma track_cons : forall k e l,
  track k (e :: l) = if ek e =? k then es e :: track k l else track k l.
Proof. intros. unfold track, has_key. cbn [filter]. destruct (ek e =? k); reflexivity. Qed.

Lemma rfind_key_track : forall k l,
  match rfind_key l k with
  | Some i => exists x, nth_error l i = Some x /\ ek x = k /\
                        es x = last (track k l) Up /\ track k l <> []
  | None => track k l = []
  end.
Proof.
  intros k. induction l as [|e l IH]; [reflexivity|].
  unfold rfind_key in *. cbn [rfind_index]. rewrite track_cons.
  destruct (rfind_index (has_key k) l) as [i|].
  - destruct IH as [x [H1 [H2 [H3 H4]]]]. exists x. split; [exact H1|]. split; [exact H2|].
    destruct (ek e =? k); [|auto]. split; [|discriminate].
    rewrite H3. destruct (track k l); [contradiction|reflexivity].
  - rewrite IH. unfold has_key. destruct (N.eqb_spec (ek e) k) as [E|E].
    + exists e. cbn. repeat split; auto; discriminate.
    + reflexivity.
Qed.

(** The events of one key, and the value of its press when it is down. *)
Definition of_key (k : key) (l : sequence) : sequence := filter (has_key k) l.
Fixpoint final (p : option N) (l : sequence) : option N :=
  match l with
  | [] => p
  | e :: r => final (if kstate_eqb (es e) Down then Some (ev e) else None) r
  end.
(** Presses and releases alternate, the values of a stroke being related by [R]. *)
Fixpoint paired (R : N -> N -> Prop) (p : option N) (l : sequence) : Prop :=
  match l with
  | [] => True
  | e :: r => match es e with
              | Down => p = None /\ paired R (Some (ev e)) r
              | Up => (exists v, p = Some v /\ R v (ev e)) /\ paired R None r
              | _ => False
              end
  end.

Lemma final_app : forall a b p, final p (a ++ b) = final (final p a) b.
Proof. induction a as [|x a IH]; intros b p; [reflexivity|]. cbn. apply IH. Qed.
Lemma paired_app : forall R a b p, paired R p (a ++ b) <-> paired R p a /\ paired R (final p a) b.
Proof.
  intros R. induction a as [|x a IH]; intros b p; [cbn; tauto|]. cbn [app paired final].
  destruct (es x) eqn:E; cbn [kstate_eqb]; rewrite ?IH; tauto.
Qed.
Lemma of_key_app : forall k a b, of_key k (a ++ b) = of_key k a ++ of_key k b.
Proof. intros. apply filter_app. Qed.
Lemma of_key_cons : forall k e l, of_key k (e :: l) = if ek e =? k then e :: of_key k l else of_key k l.
Proof. reflexivity. Qed.

Lemma paired_strokes : forall R l p, paired R p l ->
  strokes (match p with Some _ => true | None => false end) (map es l).
Proof.
  intros R. induction l as [|e l IH]; intros p H; [exact I|]. cbn [paired] in H. cbn [map strokes].
  destruct (es e); try contradiction.
  - destruct H as [(v & -> & _) H]. split; [reflexivity|]. apply (IH None H).
  - destruct H as [-> H]. split; [reflexivity|]. apply (IH (Some (ev e)) H).
Qed.

Lemma final_last : forall l p, match final p l with Some _ => true | None => false end =
  match l with [] => match p with Some _ => true | None => false end | _ => kstate_eqb (last (map es l) Up) Down end.
Proof.
  induction l as [|e l IH]; intros p; [reflexivity|]. cbn [final]. rewrite IH.
  destruct l as [|x l]; [cbn [map last]; destruct (kstate_eqb (es e) Down); reflexivity|reflexivity].
Qed.

Lemma rfind_final : forall k l,
  match rfind_key l k with
  | Some i => match nth_error l i with Some x => kstate_eqb (es x) Down | None => false end
  | None => false
  end = match final None (of_key k l) with Some _ => true | None => false end.
Proof.
  intros k l. pose proof (rfind_key_track k l) as H. rewrite final_last.
  change (map es (of_key k l)) with (track k l).
  destruct (rfind_key l k) as [i|].
  - destruct H as (x & -> & _ & -> & Hne). unfold track in Hne. unfold of_key.
    destruct (filter (has_key k) l); [contradiction|reflexivity].
  - unfold track in H. unfold of_key. destruct (filter (has_key k) l); [reflexivity|discriminate].
Qed.

(** How wheel steps arrive: [None], releases without value; [Some p], presses and
    releases with the same value, [p] being the wheel keys which are down. *)
Definition wheel_mode := option (key -> option N).
Definition mode_rel (m : wheel_mode) : N -> N -> Prop :=
  match m with None => fun _ w => w = 0 | Some _ => eq end.
Definition mode_step (m : wheel_mode) (e : event) (m' : wheel_mode) : Prop :=
  match m with
  | None => (is_mouse_wheel (ek e) = true -> es e = Up -> ev e = 0) /\ m' = None
  | Some p => if is_mouse_wheel (ek e)
              then (p (ek e) = None \/ p (ek e) = Some (ev e)) /\ m' = Some (wheel_next p e)
              else m' = Some p
  end.

Record hist_inv (cs : list context) (m : wheel_mode) (l : sequence) : Prop := {
  h_pair : forall k, paired (mode_rel m) None (of_key k l);
  h_zero : Forall (fun e => is_mouse_wheel (ek e) = false -> ev e = 0) l;
  h_open : forall p, m = Some p -> forall k v,
    is_mouse_wheel k = true -> final None (of_key k l) = Some v -> p k = Some v;
  h_nil : has_nmm_mapping cs = false -> l = []
}.

Lemma hist_inv_alternates : forall cs m l, hist_inv cs m l -> alternates l.
Proof. intros cs m l H k. apply (paired_strokes _ _ None (h_pair _ _ _ H k)). Qed.

Lemma mode_step_rel : forall m e m', mode_step m e m' -> mode_rel m' = mode_rel m.
Proof.
  intros [p|] e m' H; cbn in H; [|destruct H as [_ ->]; reflexivity].
  destruct (is_mouse_wheel (ek e)); [destruct H as [_ ->]|subst m']; reflexivity.
Qed.

(** The event is ignored. *)
Lemma skip_wf : forall cs m m' e l, mode_step m e m' -> es e = Down \/ is_mouse_wheel (ek e) = false ->
  hist_inv cs m l -> hist_inv cs m' l.
Proof.
  intros cs m m' e l Hs Hd [H1 H2 H3 H4]. rewrite <- (mode_step_rel _ _ _ Hs) in H1. constructor; auto.
  intros p -> k v Hw Hf. destruct m as [p0|]; cbn in Hs; [|destruct Hs; discriminate].
  specialize (H3 p0 eq_refl k v Hw Hf).
  destruct (is_mouse_wheel (ek e)) eqn:E.
  - destruct Hd as [Hd|Hd]; [|discriminate]. destruct Hs as [Hs Hm]. injection Hm as ->.
    unfold wheel_next. destruct (N.eqb_spec k (ek e)) as [->|]; [|exact H3].
    rewrite Hd. cbn. destruct Hs; congruence.
  - injection Hs as ->. exact H3.
Qed.

Lemma add_to_history_wf : forall cs m m' e s,
  wf_event e -> mode_step m e m' -> hist_inv cs m (s_hist s) ->
  hist_inv cs m' (s_hist (add_to_history cs e s)).
Proof.
  intros cs m m' e s He Hs Hi. unfold add_to_history.
  assert (Hst : es e = Down \/ es e = Up) by (destruct He as [_ [[E _]|[E _]]]; auto).
  destruct (has_nmm_mapping cs) eqn:En; cbn [andb].
  2:{ rewrite (h_nil _ _ _ Hi En). constructor; [intros k; exact I|constructor| |auto].
      intros p _ k v _ H. discriminate. }
  destruct (negb (is_virtual_key (ek e)) && negb (ek e =? k_timeout)) eqn:Ec.
  2:{ apply (skip_wf cs m m' e); auto. right. destruct (is_mouse_wheel (ek e)) eqn:Ew; [|reflexivity].
      exfalso. apply andb_false_iff in Ec. unfold is_mouse_wheel in Ew. apply andb_prop in Ew.
      destruct Ew as [E1 E2]. apply N.leb_le in E1, E2.
      destruct Ec as [Ec|Ec]; apply negb_false_iff in Ec.
      - unfold is_virtual_key in Ec. apply andb_prop in Ec. destruct Ec as [E3 E4]. apply N.leb_le in E3, E4.
        unfold WheelUp, WheelRight, first_virtual, last_virtual in *. lia.
      - apply N.eqb_eq in Ec. unfold WheelUp, WheelRight, k_timeout in *. lia. }
  rewrite (rfind_final (ek e) (s_hist s)).
  destruct Hi as [H1 H2 H3 H4].
  assert (Hrel := mode_step_rel _ _ _ Hs).
  (* appending the event *)
  assert (Hadd : paired (mode_rel m) (final None (of_key (ek e) (s_hist s))) [e] ->
                 (is_mouse_wheel (ek e) = false -> ev e = 0) ->
                 hist_inv cs m' (s_hist s ++ [e])).
  { intros Hp Hz. constructor.
    - intros k. rewrite Hrel, of_key_app, of_key_cons. apply paired_app. split; [apply H1|].
      destruct (N.eqb_spec (ek e) k) as [Ek|Ek]; [subst k; exact Hp|exact I].
    - apply Forall_app. auto.
    - intros p -> k v Hw. rewrite of_key_app, final_app, of_key_cons.
      destruct m as [p0|]; cbn in Hs; [|destruct Hs; discriminate].
      destruct (N.eqb_spec (ek e) k) as [Ek|Ek].
      + cbn [of_key final filter]. rewrite Ek, Hw in Hs. destruct Hs as [_ Hs]. injection Hs as ->.
        unfold wheel_next. rewrite Ek, N.eqb_refl.
        destruct (kstate_eqb (es e) Down); [|discriminate]. auto.
      + cbn [of_key final filter]. intros Hf. specialize (H3 p0 eq_refl k v Hw Hf).
        destruct (is_mouse_wheel (ek e)) eqn:Ew.
        * destruct Hs as [_ Hs]. injection Hs as ->. unfold wheel_next.
          destruct (N.eqb_spec k (ek e)); [congruence|exact H3].
        * injection Hs as ->. exact H3.
    - congruence. }
  assert (Hzero : is_mouse_wheel (ek e) = false -> ev e = 0).
  { intros Hw. apply andb_prop in Ec. destruct Ec as [_ Ec]. apply negb_true_iff, N.eqb_neq in Ec.
    destruct He as [_ [(_ & _ & Hv)|(_ & Hv)]]; intuition congruence. }
  destruct Hst as [Ed|Eu].
  - rewrite Ed. destruct (final None (of_key (ek e) (s_hist s))) as [v|] eqn:Ef.
    + apply (skip_wf cs m m' e); auto. constructor; auto.
    + cbn. apply Hadd; [|exact Hzero]. cbn. rewrite Ed. split; [reflexivity|exact I].
  - rewrite Eu. destruct (final None (of_key (ek e) (s_hist s))) as [v|] eqn:Ef.
    + cbn. apply Hadd; [|exact Hzero]. cbn. rewrite Eu. split; [|exact I]. exists v. split; [reflexivity|].
      destruct m as [p0|]; cbn in Hs |- *.
      * destruct (is_mouse_wheel (ek e)) eqn:Ew.
        -- destruct Hs as [Hs _]. specialize (H3 p0 eq_refl _ _ Ew Ef). destruct Hs; congruence.
        -- rewrite (Hzero eq_refl).
           assert (Hall : forall l p, Forall (fun e => ev e = 0) l -> (p = Some 0 \/ p = None) -> final p l = Some 0 \/ final p l = None).
           { clear. induction l as [|x l IH]; intros p Hl Hp; [exact Hp|]. inversion_clear Hl. cbn [final].
             apply IH; [auto|]. destruct (kstate_eqb (es x) Down); [left; congruence|auto]. }
           destruct (Hall (of_key (ek e) (s_hist s)) None) as [Hv|Hv]; [|auto|congruence|congruence].
           apply Forall_forall. intros x Hx. apply filter_In in Hx. destruct Hx as [Hx Hk].
           apply N.eqb_eq in Hk. rewrite Forall_forall in H2. apply (H2 x Hx). congruence.
      * destruct (is_mouse_wheel (ek e)) eqn:Ew; [apply Hs; auto|apply Hzero; reflexivity].
    + (* nothing to release *)
      rewrite <- Hrel in H1. constructor; auto. intros p -> k v Hw Hf.
      destruct m as [p0|]; cbn in Hs; [|destruct Hs; discriminate].
      specialize (H3 p0 eq_refl k v Hw Hf).
      destruct (is_mouse_wheel (ek e)) eqn:Ew.
      * destruct Hs as [_ Hs]. injection Hs as ->. unfold wheel_next.
        destruct (N.eqb_spec k (ek e)); [congruence|exact H3].
      * injection Hs as ->. exact H3.
Qed.

(** Removing a stroke at the front. *)
Lemma remove_first_ev_spec : forall e l,
  match remove_first_ev e l with
  | Some l' => exists a b, l = a ++ e :: b /\ l' = a ++ b /\ ~ In e a
  | None => ~ In e l
  end.
Proof.
  intros e. induction l as [|x l IH]; [cbn; auto|]. cbn [remove_first_ev].
  destruct (event_eqb x e) eqn:E.
  - apply event_eqb_eq in E. subst x. exists [], l. cbn. auto.
  - assert (x <> e) by (intros ->; rewrite event_eqb_refl in E; discriminate).
    destruct (remove_first_ev e l) as [l'|].
    + destruct IH as [a [b [-> [-> Ha]]]]. exists (x :: a), b. cbn. intuition.
    + cbn. intuition.
Qed.

Lemma contains_ev_In : forall l e, contains_ev l e = true <-> In e l.
Proof.
  intros. unfold contains_ev. rewrite existsb_exists. split.
  - intros [x [H1 H2]]. apply event_eqb_eq in H2. subst; auto.
  - intros H. exists e. split; auto. apply event_eqb_refl.
Qed.

(** A stroke at the front is removed. *)
Lemma remove_stroke_wf : forall cs m x l l',
  hist_inv cs m (x :: l) -> es x = Down -> remove_first_ev (Ev (ek x) Up (ev x)) l = Some l' ->
  hist_inv cs m l'.
Proof.
  intros cs m x l l' [H1 H2 H3 H4] Hx Hr.
  pose proof (remove_first_ev_spec (Ev (ek x) Up (ev x)) l) as Hs. rewrite Hr in Hs.
  destruct Hs as (a & b & -> & -> & Ha).
  (* the removed release is the one following the press *)
  assert (Hk : of_key (ek x) a = []).
  { destruct (of_key (ek x) a) as [|y r] eqn:Ea; [reflexivity|]. exfalso.
    pose proof (H1 (ek x)) as Hp. rewrite of_key_cons, N.eqb_refl, of_key_app, Ea in Hp.
    cbn [app paired] in Hp. rewrite Hx in Hp. destruct Hp as [_ Hp].
    assert (Hy : In y a /\ ek y = ek x).
    { assert (Hi : In y (of_key (ek x) a)) by (rewrite Ea; left; reflexivity).
      apply filter_In in Hi. destruct Hi as [Hi Hk]. apply N.eqb_eq in Hk. auto. }
    destruct Hy as [Hy1 Hy2].
    destruct (es y) eqn:Ey; try contradiction; [|destruct Hp as [Hp _]; discriminate].
    destruct Hp as [(v & Hv & HR) _]. injection Hv as <-.
    apply Ha. replace (Ev (ek x) Up (ev x)) with y; [exact Hy1|].
    destruct y as [ky sy vy]. cbn [ek es ev] in Hy2, Ey, HR |- *. subst ky sy. f_equal.
    destruct m as [p|]; cbn in HR; [auto|]. subst vy.
    (* all releases are without value *)
    specialize (H1 (ek x)). rewrite of_key_cons, N.eqb_refl, of_key_app in H1.
    assert (Hin : In (Ev (ek x) Up (ev x)) (x :: of_key (ek x) a ++ of_key (ek x) (Ev (ek x) Up (ev x) :: b))).
    { right. apply in_or_app. right. rewrite of_key_cons. cbn [ek]. rewrite N.eqb_refl. left. reflexivity. }
    assert (Hz : forall l p, paired (mode_rel None) p l -> forall e, In e l -> es e = Up -> ev e = 0).
    { clear. induction l as [|y l IH]; intros p Hp e Hi He; [destruct Hi|]. cbn [paired] in Hp.
      destruct Hi as [<-|Hi].
      - rewrite He in Hp. destruct Hp as [(v & _ & HR) _]. exact HR.
      - destruct (es y); try contradiction; destruct Hp as [_ Hp]; apply (IH _ Hp e Hi He). }
    pose proof (Hz _ _ H1 _ Hin eq_refl) as E. cbn in E. congruence. }
  assert (Hof : forall k, of_key k (x :: a ++ Ev (ek x) Up (ev x) :: b) =
                 if ek x =? k then x :: Ev (ek x) Up (ev x) :: of_key k b else of_key k (a ++ b)).
  { intros k. rewrite of_key_cons, !of_key_app, of_key_cons. cbn [ek].
    destruct (N.eqb_spec (ek x) k) as [E|E]; [subst k; rewrite Hk; reflexivity|reflexivity]. }
  constructor.
  - intros k. specialize (H1 k). rewrite Hof in H1. destruct (N.eqb_spec (ek x) k) as [E|E]; [|exact H1].
    subst k. rewrite of_key_app, Hk. cbn [app]. cbn [paired es] in H1. rewrite Hx in H1. apply H1.
  - inversion_clear H2 as [|? ? _ H]. apply Forall_app in H. destruct H as [Ha' Hb]. inversion_clear Hb. apply Forall_app; auto.
  - intros p Hp k v Hw Hf. apply (H3 p Hp k v Hw). rewrite Hof.
    destruct (N.eqb_spec (ek x) k) as [E|E]; [|exact Hf]. subst k.
    rewrite of_key_app, Hk in Hf. cbn [final]. cbn [es]. exact Hf.
  - intros Hn. specialize (H4 Hn). discriminate.
Qed.

Section WithContexts.
Variable cs : list context.

(** What clean_up_history leaves (C20). *)
Definition history_clean (s : state) : Prop :=
  match s_hist s with
  | [] => True
  | e :: _ => es e = Down /\
      (~ In (Ev (ek e) Up (ev e)) (s_hist s) \/ history_might_match cs s = true)
  end.

Lemma clean_up_history_ok : forall m fuel s,
  (length (s_hist s) <= fuel)%nat -> hist_inv cs m (s_hist s) ->
  let s' := clean_up_history cs fuel s in
  hist_inv cs m (s_hist s') /\ history_clean s' /\ s_ub s' = s_ub s /\ s_oof s' = s_oof s /\
  s_client s' = s_client s /\ s_active s' = s_active s /\ s_seq s' = s_seq s /\
  s_down s' = s_down s /\ s_buf s' = s_buf s /\ s_onrel s' = s_onrel s /\
  s_might s' = s_might s /\ s_pdev s' = s_pdev s /\ s_rdev s' = s_rdev s /\
  s_timeout s' = s_timeout s /\ s_reapplied s' = s_reapplied s /\ s_exit s' = s_exit s.
Proof.
  intros m. induction fuel as [|fuel IH]; intros s Hl Hi.
  - destruct (s_hist s) as [|x r] eqn:Eh; [|cbn in Hl; lia].
    cbn [clean_up_history]. rewrite Eh. unfold history_clean. rewrite Eh. cbn zeta.
    intuition.
  - cbn [clean_up_history]. destruct (s_hist s) as [|x r] eqn:Eh.
    { unfold history_clean. cbn zeta. rewrite Eh. intuition. }
    assert (Hx : es x = Down).
    { pose proof (h_pair _ _ _ Hi (ek x)) as Hs. rewrite of_key_cons, N.eqb_refl in Hs. cbn [paired] in Hs.
      destruct (es x); try contradiction; [|reflexivity]. destruct Hs as [(v & Hv & _) _]. discriminate. }
    destruct (contains_ev (x :: r) (Ev (ek x) Up (ev x))) eqn:Ec; cbn [negb].
    2:{ unfold history_clean. cbn zeta. rewrite Eh. split; [exact Hi|].
        split; [|intuition]. split; [exact Hx|]. left.
        rewrite <- contains_ev_In. rewrite Ec. discriminate. }
    destruct (history_might_match cs s) eqn:Em.
    { unfold history_clean. cbn zeta. rewrite Eh. split; [exact Hi|].
      split; [|intuition]. split; [exact Hx|]. right. exact Em. }
    pose proof (remove_first_ev_spec (Ev (ek x) Up (ev x)) r) as Hr.
    destruct (remove_first_ev (Ev (ek x) Up (ev x)) r) as [h|] eqn:Er.
    + destruct (IH (set_hist h s)) as (G1 & G2 & G3).
      * cbn. destruct Hr as [a [b [-> [-> _]]]]. cbn in Hl. rewrite app_length in *. cbn in Hl. lia.
      * cbn. eapply remove_stroke_wf; [exact Hi|exact Hx|exact Er].
      * cbn zeta. split; [exact G1|]. split; [exact G2|]. exact G3.
    + exfalso. apply contains_ev_In in Ec. destruct Ec as [Ec|Ec]; [|contradiction].
      rewrite Ec in Hx. discriminate.
Qed.

(** * Contexts *)

Hypothesis Hwf : wf_config cs.

Definition in_bounds (l : list nat) : Prop := Forall (fun i => (i < length cs)%nat) l.

Lemma fallthrough_from_ok : forall l i,
  (forall j c, nth_error l j = Some c -> cx_fall c = true -> (S j < length l)%nat) ->
  l <> [] -> exists f, fallthrough_from l i = Some f /\ (i <= f < i + length l)%nat.
Proof.
  induction l as [|c l IH]; intros i H Hne; [contradiction|].
  cbn [fallthrough_from length]. destruct (cx_fall c) eqn:Ef.
  - assert (Hl : (1 < length (c :: l))%nat) by (apply (H 0%nat c); auto).
    destruct (IH (S i)) as [f [Hf Hb]].
    + intros j c' Hj Hc. specialize (H (S j) c' Hj Hc). cbn in H. lia.
    + destruct l; [cbn in Hl; lia|discriminate].
    + exists f. split; [auto|lia].
  - exists i. split; [reflexivity|lia].
Qed.

Lemma fallthrough_ok : forall i, (i < length cs)%nat ->
  exists f, fallthrough_context cs i = Some f /\ (i <= f < length cs)%nat.
Proof.
  intros i Hi. unfold fallthrough_context.
  destruct (fallthrough_from_ok (skipn i cs) i) as [f [Hf Hb]].
  - intros j c Hj Hc. rewrite skipn_length.
    assert (Hn : nth_error cs (i + j) = Some c).
    { rewrite <- (firstn_skipn i cs). rewrite nth_error_app2; rewrite firstn_length_le by lia; [|lia].
      replace (i + j - i)%nat with j by lia. exact Hj. }
    destruct Hwf as [_ Hch]. specialize (Hch (i + j)%nat c Hn Hc). lia.
  - intros H. apply (f_equal (@length _)) in H. rewrite skipn_length in H. cbn in H. lia.
  - exists f. rewrite skipn_length in Hb. split; [auto|lia].
Qed.

Lemma nth_ok : forall i, (i < length cs)%nat -> exists c, nth_error cs i = Some c /\ wf_context c.
Proof.
  intros i Hi. destruct (nth_error cs i) as [c|] eqn:E.
  - exists c. split; [auto|]. destruct Hwf as [H _]. rewrite Forall_forall in H. apply H.
    eapply nth_error_In; eauto.
  - apply nth_error_None in E. lia.
Qed.

Lemma find_index_nth : forall A (f : A -> bool) l i,
  find_index f l = Some i -> exists x, nth_error l i = Some x /\ f x = true.
Proof.
  induction l as [|y l IH]; intros i H; [discriminate|]. cbn in H.
  destruct (f y) eqn:E; [injection H as <-; exists y; auto|].
  destruct (find_index f l); [|discriminate]. injection H as <-. apply (IH n). reflexivity.
Qed.
Lemma rfind_index_nth : forall A (f : A -> bool) l i,
  rfind_index f l = Some i -> exists x, nth_error l i = Some x /\ f x = true.
Proof.
  induction l as [|y l IH]; intros i H; [discriminate|]. cbn in H.
  destruct (rfind_index f l); [injection H as <-; apply (IH n); reflexivity|].
  destruct (f y) eqn:E; [|discriminate]. injection H as <-. exists y; auto.
Qed.

Lemma find_command_output_ok : forall l idx, in_bounds l -> find_command_output cs l idx <> LUB.
Proof.
  induction l as [|a l IH]; intros idx H; [discriminate|]. inversion_clear H.
  cbn [find_command_output].
  destruct (fallthrough_ok a H0) as [f [-> Hf]].
  destruct (nth_ok f) as [c [-> _]]; [lia|].
  unfold find_command at 1. destruct (rfind_index _ (cx_commands c)) as [i|] eqn:E; [|auto].
  destruct (rfind_index_nth _ _ _ _ E) as [x [Hx _]]. rewrite Hx.
  destruct (cm_idx x =? idx)%Z; [rewrite Hx; discriminate|auto].
Qed.

Lemma find_output_ok : forall act ci c i,
  in_bounds act -> wf_input c i -> find_output cs act ci c (in_out i) <> LUB.
Proof.
  intros act ci c i Ha [_ Hi]. unfold find_output.
  destruct (0 <=? in_out i)%Z eqn:E.
  - apply Z.leb_le in E. specialize (Hi E).
    destruct (nth_error (cx_outputs c) (Z.to_nat (in_out i))) eqn:En; [discriminate|].
    apply nth_error_None in En. lia.
  - apply find_command_output_ok. unfold in_bounds in *. apply Forall_rev. auto.
Qed.

Lemma on_context_ok : forall e ci s,
  (ci < length cs)%nat -> in_bounds (s_active s) ->
  s_ub (on_context_active_event cs e ci s) = s_ub s.
Proof.
  intros e ci s Hci Ha. unfold on_context_active_event.
  destruct (nth_ok ci Hci) as [c [-> Hc]].
  assert (Hne : forallb (fun i => match in_seq i with [] => false | _ => true end) (cx_inputs c) = true).
  { apply forallb_forall. intros i Hi. unfold wf_context in Hc. rewrite Forall_forall in Hc.
    destruct (Hc i Hi) as [Hi' _]. destruct (in_seq i); [contradiction|reflexivity]. }
  rewrite Hne. cbn [ub_unless].
  destruct (find _ (cx_inputs c)) as [i|] eqn:Ef; [|reflexivity].
  apply find_some in Ef. destruct Ef as [Hi _].
  assert (HA : s_ub (let '(s0, _) := continue_output_on_release e (Some ci) s in
                     release_triggered (ek e) (Some ci) s0) = s_ub s).
  { pose proof (continue_frame e (Some ci) s) as Hf.
    destruct (continue_output_on_release e (Some ci) s) as [s1 b]. cbn [fst] in Hf.
    pose proof (release_frame (ek e) (Some ci) s1) as Hr.
    unfold same_app in Hf. unfold same_rel in Hr. intuition congruence. }
  destruct (es e); try exact HA.
  pose proof (find_output_ok (s_active s) ci c i Ha) as Ho.
  unfold wf_context in Hc. rewrite Forall_forall in Hc. specialize (Ho (Hc i Hi)).
  destruct (find_output cs (s_active s) ci c (in_out i)) as [r o| |]; [|reflexivity|contradiction].
  pose proof (apply_output_frame o (TEvent e) (Some ci) s) as Hap. unfold same_app in Hap. intuition.
Qed.

Lemma fold_context_ok : forall e l s,
  in_bounds l -> in_bounds (s_active s) ->
  s_ub (fold_left (fun s p => on_context_active_event cs e p s) l s) = s_ub s.
Proof.
  induction l as [|p l IH]; intros s Hl Ha; [reflexivity|]. inversion_clear Hl.
  cbn [fold_left]. rewrite IH; auto.
  - apply on_context_ok; auto.
  - rewrite (proj2 (on_context_frame cs e p s)). auto.
Qed.

Lemma eval_active_ok : forall sq client acc,
  in_bounds client -> in_bounds acc ->
  exists r, eval_active cs sq client acc = Some r /\ in_bounds r.
Proof.
  induction client as [|i client IH]; intros acc Hc Ha; [exists acc; auto|].
  inversion_clear Hc. cbn [eval_active].
  destruct (nth_ok i H) as [c [-> _]].
  destruct (_ && _); [|apply IH; auto].
  destruct (fallthrough_ok i H) as [f [-> Hf]].
  apply IH; auto.
  assert (in_bounds (acc ++ [f])) by (apply Forall_app; split; [auto|constructor; [lia|constructor]]).
  destruct (back acc) as [b|]; [destruct (Nat.eqb b f)|]; auto.
Qed.

Lemma toggled_In : forall act p c x, In x (toggled act p c) -> In x p \/ In x c.
Proof.
  induction p as [|p0 p IHp]; intros c x.
  - induction c as [|c0 c IHc]; [cbn; auto|].
    cbn [toggled]. cbn [toggled] in IHc. destruct act.
    + intros [->|H]; [right; left; auto|]. destruct (IHc H) as [H'|H']; [auto|right; right; auto].
    + intros H. destruct (IHc H) as [H'|H']; [auto|right; right; auto].
  - induction c as [|c0 c IHc].
    + cbn [toggled]. destruct act; [intros H|intros [->|H]]; try (left; left; reflexivity);
        (destruct (IHp _ _ H) as [H'|H']; [left; right; auto|auto]).
    + cbn [toggled]. cbn [toggled] in IHc.
      destruct (Nat.ltb p0 c0).
      * destruct act; [intros H|intros [->|H]]; try (left; left; reflexivity);
          (destruct (IHp _ _ H) as [H'|H']; [left; right; auto|auto]).
      * destruct (Nat.ltb c0 p0).
        -- destruct act.
           ++ intros [->|H]; [right; left; auto|]. destruct (IHc H) as [H'|H']; [auto|right; right; auto].
           ++ intros H. destruct (IHc H) as [H'|H']; [auto|right; right; auto].
        -- intros H. destruct (IHp _ _ H) as [H'|H']; [left; right; auto|right; right; auto].
Qed.

Lemma toggled_bounds : forall act p c, in_bounds p -> in_bounds c -> in_bounds (toggled act p c).
Proof.
  intros act p c Hp Hc. unfold in_bounds in *. rewrite Forall_forall in *. intros x Hx.
  destruct (toggled_In _ _ _ _ Hx); auto.
Qed.

Lemma update_active_ok : forall s,
  in_bounds (s_client s) -> in_bounds (s_active s) ->
  s_ub (update_active_contexts cs s) = s_ub s /\ in_bounds (s_active (update_active_contexts cs s)).
Proof.
  intros s Hc Ha.
  destruct (eval_active_ok (s_seq s) (s_client s) [] Hc) as [r [Hr Hb]]; [constructor|].
  split; [|rewrite (update_active_active cs s r Hr); exact Hb].
  unfold update_active_contexts. rewrite Hr.
  rewrite fold_context_ok; [|apply toggled_bounds; auto|rewrite (proj2 (fold_context_frame cs _ _ _)); exact Hb].
  rewrite fold_context_ok; [reflexivity|apply toggled_bounds; auto|exact Hb].
Qed.

(** * Matching *)

Lemma match_inputs_ok : forall first sq dev u ci c l s,
  wf_context c -> incl l (cx_inputs c) -> in_bounds (s_active s) ->
  no_none sq -> no_none (s_hist s) ->
  s_ub (fst (match_inputs cs first sq dev u ci c l s)) = s_ub s.
Proof.
  intros first sq dev u ci c l. induction l as [|i l IH]; intros s Hc Hl Ha Hq Hh; [reflexivity|].
  assert (Hi : wf_input c i).
  { unfold wf_context in Hc. rewrite Forall_forall in Hc. apply Hc, Hl. left; auto. }
  assert (Hl' : incl l (cx_inputs c)) by (intros x Hx; apply Hl; right; auto).
  cbn [match_inputs]. set (nmm := is_nmm_mapping (in_seq i)).
  destruct (nmm && _); [auto|]. destruct (nmm && (dev =? any_device)%Z); [auto|].
  destruct (match_keys (in_seq i) (if nmm then s_hist s else sq)) as [[[res anys] t]|]; [|reflexivity].
  set (s1 := ub_unless _ (set_any anys s)).
  assert (H1 : s1 = set_any anys s).
  { unfold s1. destruct Hi as [Hi _]. destruct (in_seq i); [contradiction|reflexivity]. }
  rewrite H1.
  assert (HI : s_ub (fst (match_inputs cs first sq dev u ci c l (set_any anys s))) = s_ub s)
    by (rewrite IH; auto).
  destruct res; [exact HI| |].
  - destruct (first && negb nmm); [|exact HI]. cbn [fst].
    rewrite (proj1 (proj2 (on_might_match_frame t sq u _))). reflexivity.
  - pose proof (find_output_ok (s_active s) ci c i Ha Hi) as Ho.
    change (s_active (set_any anys s)) with (s_active s).
    destruct (find_output cs (s_active s) ci c (in_out i)); [reflexivity|exact HI|contradiction].
Qed.

Lemma match_contexts_ok : forall first sq dev u act s,
  in_bounds act -> in_bounds (s_active s) -> no_none sq -> no_none (s_hist s) ->
  s_ub (fst (match_contexts cs first sq dev u act s)) = s_ub s.
Proof.
  intros first sq dev u act. induction act as [|ci act IH]; intros s Hb Ha Hq Hh; [reflexivity|].
  inversion_clear Hb. cbn [match_contexts]. destruct (nth_ok ci H) as [c [-> Hc]].
  destruct (device_matches_filter c dev); [|auto].
  pose proof (match_inputs_ok first sq dev u ci c (cx_inputs c) s Hc (incl_refl _) Ha Hq Hh) as Hm.
  destruct (match_inputs_frame cs first sq dev u ci c (cx_inputs c) s) as [Hf _].
  destruct (match_inputs cs first sq dev u ci c (cx_inputs c) s) as [s1 [r|]]; cbn [fst] in *; [auto|].
  unfold same_match in Hf. rewrite IH; auto; intuition congruence.
Qed.

Lemma match_input_ok : forall first sq dev u s,
  valid_device dev = true -> in_bounds (s_active s) -> no_none sq -> no_none (s_hist s) ->
  s_ub (fst (match_input cs first sq dev u s)) = s_ub s.
Proof.
  intros. unfold match_input. rewrite H. cbn [ub_unless]. apply match_contexts_ok; auto.
Qed.

Lemma match_prefixes_ok : forall n dev u s,
  valid_device dev = true -> in_bounds (s_active s) -> no_none (s_seq s) -> no_none (s_hist s) ->
  s_ub (fst (match_prefixes cs n dev u s)) = s_ub s.
Proof.
  induction n as [|n IH]; intros dev u s Hd Ha Hq Hh; [reflexivity|].
  cbn [match_prefixes]. destruct (Nat.ltb 1 (S n)); [|reflexivity].
  destruct (negb _); [reflexivity|].
  pose proof (match_input_ok false (firstn n (s_seq s)) dev u s Hd Ha (no_none_firstn _ _ Hq) Hh) as Hm.
  destruct (match_input_frame cs false (firstn n (s_seq s)) dev u s) as [Hf _].
  destruct (match_input cs false (firstn n (s_seq s)) dev u s) as [s1 r]. cbn [fst] in *.
  unfold same_match in Hf.
  assert (HI : s_ub (fst (match_prefixes cs n dev u s1)) = s_ub s)
    by (rewrite IH; auto; intuition congruence).
  destruct r; auto.
Qed.

Lemma forward_ub : forall s, s_ub (forward_from_sequence s) = s_ub s.
Proof. intros s. destruct (forward_frame s) as [H _]. unfold same_fwd in H. intuition. Qed.

Lemma round_ok : forall e dev s,
  valid_device dev = true -> in_bounds (s_active s) -> no_none (s_seq s) -> no_none (s_hist s) ->
  s_ub (fst (apply_round cs e dev s)) = s_ub s.
Proof.
  intros e dev s Hd Ha Hq Hh. unfold apply_round.
  set (u := kstate_eqb (es e) Up && negb (ek e =? k_timeout)).
  pose proof (match_input_ok true (s_seq s) dev u s Hd Ha Hq Hh) as Hm.
  destruct (match_input_frame cs true (s_seq s) dev u s) as [Hf _].
  destruct (match_input cs true (s_seq s) dev u s) as [s1 res]. cbn [fst] in *.
  destruct (is_virtual_key (ek e) && _); [exact Hm|].
  destruct res as [|inp ci|r o inp ci]; [|exact Hm|].
  all: match goal with |- s_ub (fst (let '(_, _) := ?X in _)) = _ => destruct X as [[[s2 len] res2] so] eqn:E2 end.
  all: assert (H2 : s_ub s2 = s_ub s).
  1:{ cbn [negb andb] in E2. destruct (s_might s1); [|injection E2 as <- _ _ _; auto].
      pose proof (match_prefixes_ok (length (s_seq s)) dev u s1 Hd) as Hp.
      unfold same_match in Hf.
      destruct (match_prefixes cs (length (s_seq s)) dev u s1) as [s3 [[len' r']|]]; cbn [fst] in Hp;
        injection E2 as <- _ _ _; rewrite Hp; auto; intuition congruence. }
  2:{ cbn [negb andb] in E2. injection E2 as <- _ _ _. exact Hm. }
  all: destruct (timeout_after_match_frame e so res2 s2) as (_ & _ & Ht3 & _);
    destruct (timeout_after_match e so res2 s2) as [s3 res3]; cbn [fst] in Ht3.
  all: destruct (not_timeout_after_match_frame res3 s3) as (_ & _ & Hn3 & _).
  all: destruct res3 as [|inp3 ci3|r3 o3 inp3 ci3]; cbn [fst].
  all: try (match goal with |- s_ub (if ?B then _ else _) = _ => destruct B end; cbn;
            rewrite forward_ub; congruence).
  all: pose proof (apply_output_frame o3 (select_trigger e inp3 o3 (not_timeout_after_match (RMatch r3 o3 inp3 ci3) s3))
                    (Some ci3) (not_timeout_after_match (RMatch r3 o3 inp3 ci3) s3)) as Hao.
  all: unfold same_app in Hao; destruct so; cbn; intuition congruence.
Qed.

Lemma loop_ok : forall fuel e dev s,
  valid_device dev = true -> in_bounds (s_active s) -> no_none (s_seq s) -> no_none (s_hist s) ->
  s_ub (apply_loop cs fuel e dev s) = s_ub s.
Proof.
  induction fuel as [|fuel IH]; intros e dev s Hd Ha Hq Hh; cbn [apply_loop];
    destruct (has_non_optional (s_seq s)) eqn:E; try reflexivity.
  pose proof (round_ok e dev s Hd Ha Hq Hh) as Hr.
  destruct (apply_round cs e dev s) as [s1 brk] eqn:Er. cbn [fst] in Hr.
  destruct (round_progress cs e dev s s1 brk Er Hq Hh E) as (H1 & H2 & H3 & H4 & _).
  destruct brk; [exact Hr|]. rewrite IH; auto; congruence.
Qed.

(** * The invariant *)

Record inv (m : wheel_mode) (s : state) : Prop := {
  inv_ub : s_ub s = false;
  inv_oof : s_oof s = false;
  inv_client : in_bounds (s_client s);
  inv_active : in_bounds (s_active s);
  inv_seq : no_none (s_seq s);
  inv_hnone : no_none (s_hist s);
  inv_hist : hist_inv cs m (s_hist s)
}.

Lemma prepare_up_ub : forall e s,
  In (ek e) (map ek (s_seq s)) -> s_ub (prepare_up e s) = s_ub s /\
  s_client (prepare_up e s) = s_client s /\ s_active (prepare_up e s) = s_active s.
Proof.
  intros e s H. unfold prepare_up. destruct (kstate_eqb (es e) Up); [|auto].
  set (s1 := match s_timeout s with Some _ => _ | None => s end).
  assert (H1 : s_ub s1 = s_ub s /\ s_client s1 = s_client s /\ s_active s1 = s_active s /\
               In (ek e) (map ek (s_seq s1))).
  { unfold s1. destruct (s_timeout s) as [c|]; [destruct (ct_output c)|]; auto.
    cbn. repeat split. rewrite map_map.
    replace (map (fun x => ek (if kstate_eqb (es x) Down then set_es DownMatched x else x)) (s_seq s))
      with (map ek (s_seq s)); [exact H|].
    apply map_ext. intros a. destruct (kstate_eqb (es a) Down); reflexivity. }
  destruct H1 as [<- [<- [<- H1]]].
  destruct (s_might s1); [auto|].
  destruct (find_key (s_seq s1) (ek e)) as [i|] eqn:Ef.
  - destruct (nth_error (s_seq s1) i) as [x|]; [|auto].
    destruct (kstate_eqb (es x) DownMatched); auto.
  - exfalso. apply in_map_iff in H1. destruct H1 as [x [Hx Hi]]. unfold find_key in Ef.
    clear -Ef Hx Hi. induction (s_seq s1) as [|y l IH]; [contradiction|].
    cbn in Ef. unfold has_key in Ef at 1. destruct (N.eqb_spec (ek y) (ek e)); [discriminate|].
    destruct (find_index (has_key (ek e)) l); [discriminate|].
    destruct Hi as [->|Hi]; [contradiction|auto].
Qed.

Lemma wf_event_nn : forall e, wf_event e -> ek e <> k_none.
Proof. intros e [H _]; exact H. Qed.

Theorem update_inv : forall m m' e dev s,
  wf_event e -> valid_device dev = true -> mode_step m e m' -> inv m s ->
  inv m' (fst (update cs e dev s)) /\
  (* releases are never ignored: *)
  (es e = Up -> ek e <> k_timeout -> history_clean (fst (update cs e dev s))).
Proof.
  intros m m' e dev s He Hd Hms [I1 I2 I3 I4 I5 I6 I7].
  assert (Hen := wf_event_nn e He).
  destruct (update_terminates cs e dev s I5 I6 Hen) as [T1 [T2 T3]].
  assert (G : s_ub (fst (update cs e dev s)) = false /\
              in_bounds (s_client (fst (update cs e dev s))) /\
              in_bounds (s_active (fst (update cs e dev s))) /\
              hist_inv cs m' (s_hist (fst (update cs e dev s))) /\
              (es e = Up -> ek e <> k_timeout -> history_clean (fst (update cs e dev s)))).
  2:{ destruct G as (G1 & G2 & G3 & G4 & G5). split; [|exact G5]. constructor; auto. congruence. }
  clear T1 T2 T3. unfold update. cbn [fst].
  set (s0 := set_exit _ s).
  change (s_ub s0 = false) in I1. change (in_bounds (s_client s0)) in I3.
  change (in_bounds (s_active s0)) in I4. change (no_none (s_seq s0)) in I5.
  change (no_none (s_hist s0)) in I6. change (hist_inv cs m (s_hist s0)) in I7.
  change (s_ub (apply_input cs e dev s0) = false /\ in_bounds (s_client (apply_input cs e dev s0)) /\
          in_bounds (s_active (apply_input cs e dev s0)) /\ hist_inv cs m' (s_hist (apply_input cs e dev s0)) /\
          (es e = Up -> ek e <> k_timeout -> history_clean (apply_input cs e dev s0))).
  clearbody s0. clear s I2. rename s0 into s. unfold apply_input.
  assert (Iskip : (es e = Up -> ek e = k_timeout) -> hist_inv cs m' (s_hist s)).
  { intros Hu. apply (skip_wf cs m m' e); auto.
    destruct He as [_ [[E _]|[E _]]]; [auto|]. right. rewrite (Hu E). reflexivity. }
  pose proof (continue_frame e None s) as Hc.
  assert (Gc : es e = Up -> snd (continue_output_on_release e None s) = true).
  { intros Eu. unfold continue_output_on_release.
    destruct (find_index _ (s_onrel s)) as [i|]; [|reflexivity]. rewrite Eu.
    destruct (nth_error (s_onrel s) i); reflexivity. }
  destruct (continue_output_on_release e None s) as [s1 go1]. cbn [fst snd] in Hc, Gc.
  unfold same_app in Hc. destruct Hc as (C1 & C2 & _ & C3 & _ & _ & _ & C4 & _ & _ & C5 & _).
  destruct go1; cbn [negb]; 
    [|rewrite C1, C2, C4, C5; repeat (split; [first [exact I1|exact I3|exact I4|
        apply Iskip; intros Eu; specialize (Gc Eu); discriminate Gc]|]);
      intros Eu; specialize (Gc Eu); discriminate Gc].
  destruct (suppress_frame e s1) as (Hs & _ & S5 & _).
  assert (Gs : es e = Up -> ek e <> k_timeout -> snd (suppress_not_timeout e s1) = true).
  { intros _ Et. unfold suppress_not_timeout. apply N.eqb_neq in Et. rewrite Et.
    destruct (s_timeout s1) as [c|]; [|reflexivity].
    destruct (is_not_timeout _); [|reflexivity]. destruct (_ && _); reflexivity. }
  destruct (suppress_not_timeout e s1) as [s2 go2]. cbn [fst snd] in *.
  unfold same_match in Hs. destruct Hs as (S1 & S2 & _ & S3 & _ & _ & _ & S4 & _).
  rewrite C1 in S1. rewrite C2 in S2. rewrite C3 in S3. rewrite C4 in S4. rewrite C5 in S5.
  destruct go2; cbn [negb]; 
    [|rewrite S1, S2, S4, S5; repeat (split; [first [exact I1|exact I3|exact I4|
        apply Iskip; intros Eu; destruct (N.eq_dec (ek e) k_timeout) as [Et|Et]; [exact Et|
          specialize (Gs Eu Et); discriminate Gs]]|]);
      intros Eu Et; specialize (Gs Eu Et); discriminate Gs].
  pose proof (merge_repeat_frame e dev s2) as Hm.
  assert (Gm : es e = Up -> snd (merge_repeat e dev s2) = true).
  { intros Eu. unfold merge_repeat. rewrite Eu. reflexivity. }
  destruct (merge_repeat e dev s2) as [s3 go3]. cbn [fst snd] in Hm, Gm. cbn zeta in Hm.
  destruct Hm as (M1 & M2 & _ & _ & M4 & _ & _ & _ & _ & _ & _ & M5 & _ & M3).
  rewrite S1 in M1. rewrite S2 in M2. rewrite S4 in M4. rewrite S5 in M5.
  assert (M3' : no_none (s_seq s3)).
  { destruct M3 as [M3|[i M3]]; rewrite M3, S3; [auto|]. apply Forall_remove_at; auto. }
  destruct go3; cbn [negb]; 
    [|rewrite M1, M2, M4, M5; repeat (split; [first [exact I1|exact I3|exact I4|
        apply Iskip; intros Eu; specialize (Gm Eu); discriminate Gm]|]);
      intros Eu; specialize (Gm Eu); discriminate Gm].
  unfold process_input.
  set (s4 := set_seq (s_seq s3 ++ [e]) s3).
  assert (A0 : hist_inv cs m' (s_hist (add_to_history cs e s4))).
  { apply (add_to_history_wf cs m); auto. unfold s4. cbn. rewrite M4. exact I7. }
  destruct (add_to_history_frame cs (fun x => ek x <> k_none) e s4) as [A1 [A2 _]];
    [unfold s4; cbn; rewrite M4; exact I6|exact Hen|].
  set (s5 := add_to_history cs e s4) in *.
  assert (A5 : s_ub s5 = false /\ s_client s5 = s_client s /\ s_active s5 = s_active s).
  { unfold s5, add_to_history. destruct (_ && _ && _); [|cbn; intuition congruence].
    destruct (es e);
      match goal with |- context [if ?B then _ else _] => destruct B end; cbn; intuition congruence. }
  destruct A5 as (A5 & A6 & A7).
  destruct (update_active_ok s5) as [U1 U2]; [congruence|congruence|].
  pose proof (update_active_frame cs s5) as Uf. set (s6 := update_active_contexts cs s5) in *.
  unfold same_ctx in Uf. destruct Uf as (U3 & _ & U4 & _ & _ & _ & U5 & _).
  assert (Hq6 : no_none (s_seq s6)).
  { rewrite U4, A2. unfold s4. cbn. apply no_none_app. split; [auto|constructor; auto]. }
  destruct (prepare_up_frame (fun k => k <> k_none) e s6 Hq6) as [P1 [P2 _]].
  destruct (prepare_up_ub e s6) as (P3 & P4 & P5).
  { rewrite U4, A2. unfold s4. cbn. rewrite map_app. apply in_or_app. right. left. auto. }
  set (s7 := prepare_up e s6) in *. set (s8 := unsuppress s7).
  assert (Hh8 : no_none (s_hist s8)) by (unfold s8; cbn; rewrite P2, U5; exact A1).
  assert (Ha8 : in_bounds (s_active s8)) by (unfold s8; cbn; rewrite P5; exact U2).
  assert (L1 : s_ub (apply_loop cs (weight (s_seq s8)) e dev s8) = s_ub s8)
    by (apply loop_ok; auto).
  destruct (apply_loop_run cs e dev (weight (s_seq s8)) s8) as [n [_ [_ Hl]]]; [lia|exact P1|exact Hh8|].
  set (s9 := apply_loop cs (weight (s_seq s8)) e dev s8) in *. cbn zeta in Hl.
  destruct Hl as (_ & L2 & _ & L3 & L4 & _).
  unfold finish_input.
  set (s10 := if kstate_eqb (es e) Up then release_triggered (ek e) None s9 else s9).
  assert (H10 : s_ub s10 = s_ub s9 /\ s_hist s10 = s_hist s9 /\ s_active s10 = s_active s9 /\
                s_client s10 = s_client s9).
  { unfold s10. destruct (kstate_eqb (es e) Up); [|auto].
    pose proof (release_frame (ek e) None s9) as Hr. unfold same_rel in Hr. intuition. }
  destruct H10 as (R1 & R2 & R3 & R4).
  assert (Hc10 : in_bounds (s_client s10)).
  { rewrite R4, L4. unfold s8; cbn. rewrite P4, U3. congruence. }
  assert (Ha10 : in_bounds (s_active s10)) by (rewrite R3, L3; exact Ha8).
  destruct (update_active_ok s10 Hc10 Ha10) as [V1 V2].
  pose proof (update_active_frame cs s10) as Vf. set (s11 := update_active_contexts cs s10) in *.
  unfold same_ctx in Vf. destruct Vf as (V3 & _ & _ & _ & _ & _ & V5 & _).
  set (s12 := set_seq (drop_up_matched (s_seq s11)) s11).
  set (s13 := match s_seq s12 with [] => set_timeout None s12 | _ => s12 end).
  assert (H13 : s_ub s13 = s_ub s11 /\ s_client s13 = s_client s11 /\ s_active s13 = s_active s11 /\
                s_hist s13 = s_hist s11).
  { unfold s13. destruct (s_seq s12); cbn; auto. }
  destruct H13 as (K1 & K2 & K3 & K4).
  set (s14 := set_reapplied false s13).
  assert (Hi14 : hist_inv cs m' (s_hist s14)).
  { unfold s14. cbn. rewrite K4, V5, R2, L2. unfold s8. cbn. rewrite P2, U5. exact A0. }
  destruct (clean_up_history_ok m' (length (s_hist s14)) s14) as (Z1 & Z2 & Z3 & _ & Z4 & Z5 & _);
    [lia|exact Hi14|].
  split; [|split; [|split; [|split; [exact Z1|intros _ _; exact Z2]]]].
  - rewrite Z3. unfold s14. cbn. rewrite K1, V1, R1, L1. unfold s8. cbn. rewrite P3, U1. exact A5.
  - rewrite Z4. unfold s14. cbn. rewrite K2, V3. exact Hc10.
  - rewrite Z5. unfold s14. cbn. rewrite K3. exact V2.
Qed.

Lemma set_contexts_inv : forall m l s,
  in_bounds l -> inv m s -> inv m (fst (set_active_client_contexts cs l s)).
Proof.
  intros m l s Hl [I1 I2 I3 I4 I5 I6 I7]. unfold set_active_client_contexts. cbn [fst].
  destruct (update_active_ok (set_client l s)) as [U1 U2]; [exact Hl|exact I4|].
  pose proof (update_active_frame cs (set_client l s)) as Uf.
  set (s1 := update_active_contexts cs (set_client l s)) in *.
  unfold same_ctx in Uf. cbn in Uf. destruct Uf as (U3 & _ & U4 & _ & _ & _ & U5 & _ & U6).
  constructor; cbn.
  - rewrite U1. exact I1.
  - congruence.
  - rewrite U3. exact Hl.
  - exact U2.
  - rewrite U4; auto.
  - rewrite U5; auto.
  - rewrite U5; auto.
Qed.

Lemma Forall_filter : forall A (P : A -> Prop) f l, Forall P l -> Forall P (filter f l).
Proof.
  induction l as [|x l IH]; intros H; [constructor|]. inversion_clear H. cbn.
  destruct (f x); auto.
Qed.

Lemma validate_inv : forall m f s, inv m s -> inv m (validate_state f s).
Proof.
  intros m f s [I1 I2 I3 I4 I5 I6 I7]. constructor; cbn; auto. apply Forall_filter. auto.
Qed.

Lemma init_inv : forall m, inv m init_state.
Proof.
  intros m. constructor; cbn; auto; try constructor; cbn; auto. intros p _ k v _ H. discriminate.
Qed.

(** The mode after a list of calls. *)
Fixpoint mode_steps (m : wheel_mode) (l : list call) (m' : wheel_mode) : Prop :=
  match l with
  | [] => m' = m
  | CInput e _ :: r => exists m1, mode_step m e m1 /\ mode_steps m1 r m'
  | _ :: r => mode_steps m r m'
  end.

Lemma run_inv : forall l m m' s, Forall (wf_call cs) l -> mode_steps m l m' -> inv m s ->
  inv m' (fst (run cs l s)).
Proof.
  induction l as [|c l IH]; intros m m' s Hl Hm Hi; [cbn in Hm; subst; exact Hi|].
  inversion_clear Hl as [|? ? Hc Hl']. cbn [run].
  assert (H1 : exists m1, inv m1 (fst (do_call cs c s)) /\ mode_steps m1 l m').
  { destruct c as [e dev|il|f]; cbn [do_call mode_steps] in *.
    - destruct Hm as (m1 & Hm1 & Hm2). exists m1. split; [|exact Hm2]. destruct Hc. apply (update_inv m m1); auto.
    - exists m. split; [apply set_contexts_inv; auto|exact Hm].
    - exists m. split; [apply validate_inv; auto|exact Hm]. }
  destruct H1 as (m1 & H1 & H2). destruct (do_call cs c s) as [s1 o1]. cbn [fst] in H1.
  specialize (IH m1 m' s1 Hl' H2 H1). destruct (run cs l s1) as [s2 o2]. exact IH.
Qed.

Lemma wheels_steps : forall l, wheels_ok l -> exists m m', mode_steps m l m'.
Proof.
  intros l [H|H].
  - assert (G : forall l p, wheel_pairs p l -> exists m', mode_steps (Some p) l m').
    { clear. induction l as [|[e dev|il|f] l IH]; intros p H.
      - exists (Some p). reflexivity.
      - cbn [wheel_pairs mode_steps mode_step] in *.
        destruct (is_mouse_wheel (ek e)).
        + destruct H as [H1 H]. destruct (IH _ H) as [m' Hm']. exists m'. eexists. split; [split; [exact H1|reflexivity]|exact Hm'].
        + destruct (IH _ H) as [m' Hm']. exists m'. eexists. split; [reflexivity|exact Hm'].
      - destruct (IH _ H) as [m' Hm']. exists m'. exact Hm'.
      - destruct (IH _ H) as [m' Hm']. exists m'. exact Hm'. }
    destruct (G l _ H) as [m' Hm']. eauto.
  - exists None, None. induction H as [|c l Hc Hl IH]; [reflexivity|].
    destruct c as [e dev|il|f]; [|exact IH|exact IH]. exists None. split; [split; [exact Hc|reflexivity]|exact IH].
Qed.

(** For all reachable states. *)
Lemma reach_inv : forall l, Forall (wf_call cs) l -> wheels_ok l ->
  exists m, inv m (fst (run cs l init_state)).
Proof.
  intros l Hl Hw. destruct (wheels_steps l Hw) as (m & m' & Hm). exists m'.
  exact (run_inv l m m' init_state Hl Hm (init_inv m)).
Qed.

Lemma mode_steps_app : forall a b m m', mode_steps m (a ++ b) m' <->
  exists m1, mode_steps m a m1 /\ mode_steps m1 b m'.
Proof.
  induction a as [|[e dev|il|f] a IH]; intros b m m'; cbn [app mode_steps].
  - split; [intros H; exists m; auto|intros (m1 & -> & H); exact H].
  - split.
    + intros (m1 & H1 & H2). apply IH in H2. destruct H2 as (m2 & H2 & H3). exists m2. split; [exists m1; auto|exact H3].
    + intros (m2 & (m1 & H1 & H2) & H3). exists m1. split; [exact H1|]. apply IH. exists m2. auto.
  - apply IH.
  - apply IH.
Qed.

End WithContexts.
