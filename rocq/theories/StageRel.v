(** Releasing a key releases what it triggered; outputs on release (C14, C17). *)
From Coq Require Import List Arith NArith ZArith Bool Lia.
From Verif Require Import Base Key Match Stage MatchProofs StageFrame StageTerm StageSpec StageOut StageRound.
Import ListNotations.
Local Open Scope N_scope.

(** * Triggers *)

Definition trig_free (k : key) (s : state) : Prop :=
  Forall (fun o => get_trigger_key (od_trigger o) <> k) (s_down s).

Lemma Forall_update_at : forall A (P : A -> Prop) g i l,
  (forall x, P x -> P (g x)) -> Forall P l -> Forall P (update_at i g l).
Proof.
  induction i as [|i IH]; intros [|x l] Hg H; cbn; auto; inversion_clear H; auto.
Qed.

Lemma reapp_trig : forall k l l', Forall2 reapp l l' ->
  Forall (fun o => get_trigger_key (od_trigger o) <> k) l ->
  Forall (fun o => get_trigger_key (od_trigger o) <> k) l'.
Proof.
  induction 1 as [|o o' l l' Ho HF IH]; intros H; [constructor|]. inversion_clear H.
  constructor; [|auto]. destruct Ho as (_ & -> & _). auto.
Qed.

Lemma update_output_trig : forall k e t ci s,
  get_trigger_key t <> k -> trig_free k s -> trig_free k (update_output e t ci s).
Proof.
  intros k e t ci s Ht H. unfold trig_free in *. unfold update_output.
  destruct (es e); try exact H.
  - destruct (find_index _ (s_down s)) as [i|]; [|exact H].
    destruct (nth_error (s_down s) i) as [o|]; [|exact H].
    destruct (_ && _); [|destruct (_ && _)].
    + apply Forall_update_at; auto.
    + destruct (rfind_key (s_buf s) (ek e)); apply Forall_update_at; auto.
    + cbn. destruct (_ =? _); [apply Forall_remove_at'; auto|apply Forall_update_at; auto].
  - destruct (reapply_loop (ek e) (s_down s) (s_buf s) (s_reapplied s)) as [[[d bf] rea] ret] eqn:Er.
    destruct (reapply_spec [] _ _ _ _ _ _ _ _ Er) as [H1 _].
    assert (Hd := reapp_trig k _ _ H1 H).
    destruct ret; [exact Hd|]. cbn [s_reapplied set_reapplied].
    destruct (find_index _ (s_down s)) as [i|]; [|destruct (ek e =? k_timeout); [exact Hd|]].
    + destruct rea; cbn; apply Forall_update_at; auto.
    + cbn. apply Forall_app. split; [exact Hd|constructor; [exact Ht|constructor]].
  - destruct (find_index _ (s_down s)) as [i|]; [|exact H].
    destruct (_ || _); [exact H|].
    destruct (nth_error (s_down s) i) as [o|]; [|exact H].
    destruct (od_temp o); cbn; apply Forall_update_at; auto.
Qed.

Lemma fold_output_trig : forall k st t ci ks s,
  get_trigger_key t <> k -> trig_free k s ->
  trig_free k (fold_left (fun s j => update_output (ev0 j st) t ci s) ks s).
Proof.
  induction ks as [|j ks IH]; intros s Ht H; [exact H|]. cbn [fold_left]. apply IH; [exact Ht|].
  apply update_output_trig; auto.
Qed.

Lemma apply_output_trig : forall k t ci sq s,
  get_trigger_key t <> k -> trig_free k s -> trig_free k (apply_output sq t ci s).
Proof.
  intros k t ci sq s Ht. revert s. induction sq as [|e r IH]; intros s H; [exact H|].
  cbn [apply_output]. destruct (ek e =? k_any).
  - apply IH. destruct (es e); apply fold_output_trig; auto.
  - destruct (es e); try (apply IH; apply update_output_trig; auto).
    + destruct (is_virtual_key (ek e)).
      * apply IH. destruct (existsb _ (s_seq s)); [apply update_output_trig|]; auto.
      * apply IH. apply update_output_trig; auto.
    + destruct (es (get_trigger_event t)); try (apply IH; auto). exact H.
Qed.

Lemma release_trig_other : forall k j ci s, trig_free k s -> trig_free k (release_triggered j ci s).
Proof.
  intros k j ci s H. unfold trig_free in *. destruct (release_down j ci s) as [-> _].
  clear -H. induction H as [|o l Ho HF IH]; [constructor|]. cbn [filter].
  destruct (keep_triggered j ci o); auto.
Qed.

Lemma release_trig : forall k s, k <> k_ContextActive -> trig_free k (release_triggered k None s).
Proof.
  intros k s Hk. unfold trig_free. destruct (release_down k None s) as [-> _].
  apply Forall_forall. intros o Ho. apply filter_In in Ho. destruct Ho as [_ Ho].
  unfold keep_triggered in Ho. intros E. rewrite E, N.eqb_refl in Ho.
  apply N.eqb_neq in Hk. rewrite Hk in Ho. discriminate.
Qed.

Lemma continue_trig : forall k e ci s,
  ek e <> k -> trig_free k s -> trig_free k (fst (continue_output_on_release e ci s)).
Proof.
  intros k e ci s He H. unfold continue_output_on_release.
  destruct (find_index _ (s_onrel s)) as [i|]; [|exact H].
  destruct (es e); try exact H;
    (destruct (nth_error (s_onrel s) i) as [o|]; [|exact H]; cbn zeta; cbn [fst];
     apply (apply_output_trig k (TEvent e) (or_ctx o) (or_seq o) s He H)).
Qed.

Section WithContexts.
Variable cs : list context.

Lemma on_context_trig : forall k e ci s,
  ek e <> k -> trig_free k s -> trig_free k (on_context_active_event cs e ci s).
Proof.
  intros k e ci s He H. unfold on_context_active_event.
  destruct (nth_error cs ci) as [c|]; [|exact H].
  set (s1 := ub_unless _ s).
  assert (H1 : trig_free k s1) by (unfold s1, ub_unless; destruct (forallb _ _); exact H).
  clearbody s1. destruct (find _ (cx_inputs c)) as [i|]; [|exact H1].
  assert (Hr : trig_free k (let '(s0, _) := continue_output_on_release e (Some ci) s1 in
                     release_triggered (ek e) (Some ci) s0)).
  { pose proof (continue_trig k e (Some ci) s1 He H1) as Hc.
    destruct (continue_output_on_release e (Some ci) s1) as [s2 b]. apply release_trig_other. exact Hc. }
  destruct (es e); try exact Hr.
  destruct (find_output cs (s_active s1) ci c (in_out i)) as [r o| |]; [|exact H1|exact H1].
  apply apply_output_trig; auto.
Qed.

Lemma update_active_trig : forall k s,
  k <> k_ContextActive -> trig_free k s -> trig_free k (update_active_contexts cs s).
Proof.
  intros k s Hk H. unfold update_active_contexts.
  destruct (eval_active cs (s_seq s) (s_client s) []) as [curr|]; [|exact H].
  assert (G : forall e l s, ek e <> k -> trig_free k s ->
    trig_free k (fold_left (fun s p => on_context_active_event cs e p s) l s)).
  { intros e. induction l as [|x l IH]; intros s' He Hs; [exact Hs|]. cbn [fold_left].
    apply IH; [exact He|]. apply on_context_trig; auto. }
  apply G; [cbn; congruence|]. apply G; [cbn; congruence|]. exact H.
Qed.

Lemma clean_up_down : forall fuel s, s_down (clean_up_history cs fuel s) = s_down s.
Proof.
  induction fuel as [|f IH]; intros s; cbn [clean_up_history];
    (destruct (s_hist s); [reflexivity|]); [reflexivity|].
  destruct (negb _); [reflexivity|]. destruct (history_might_match cs s); [reflexivity|].
  destruct (remove_first_ev _ _) as [h|]; [rewrite IH|]; reflexivity.
Qed.

(** A release is always processed to the end. *)
Lemma release_processed : forall e dev s,
  es e = Up -> ek e <> k_timeout ->
  exists s1, apply_input cs e dev s = process_input cs e dev s1.
Proof.
  intros e dev s Hu Ht. unfold apply_input.
  assert (H1 : snd (continue_output_on_release e None s) = true).
  { unfold continue_output_on_release. destruct (find_index _ (s_onrel s)) as [i|]; [|reflexivity].
    rewrite Hu. destruct (nth_error (s_onrel s) i); reflexivity. }
  destruct (continue_output_on_release e None s) as [s1 go1]. cbn in H1. subst go1. cbn [negb].
  assert (H2 : snd (suppress_not_timeout e s1) = true).
  { unfold suppress_not_timeout. destruct (s_timeout s1) as [c|]; [|reflexivity].
    apply N.eqb_neq in Ht. rewrite Ht. destruct (is_not_timeout _); [|reflexivity].
    destruct (_ && _); reflexivity. }
  destruct (suppress_not_timeout e s1) as [s2 go2]. cbn in H2. subst go2. cbn [negb].
  assert (H3 : snd (merge_repeat e dev s2) = true) by (unfold merge_repeat; rewrite Hu; reflexivity).
  destruct (merge_repeat e dev s2) as [s3 go3]. cbn in H3. subst go3. cbn [negb].
  exists s3. reflexivity.
Qed.

Lemma update_release_trig : forall k v dev s,
  k <> k_timeout -> k <> k_ContextActive -> trig_free k (fst (update cs (Ev k Up v) dev s)).
Proof.
  intros k v dev s Ht Hc. unfold update. cbn [fst].
  set (s0 := set_exit _ s). change (trig_free k (apply_input cs (Ev k Up v) dev s0)). clearbody s0.
  destruct (release_processed (Ev k Up v) dev s0 eq_refl Ht) as [s1 ->].
  unfold process_input. cbn zeta. set (s5 := apply_loop cs _ _ dev _). clearbody s5.
  unfold finish_input. cbn [es kstate_eqb]. cbn zeta. unfold trig_free. rewrite clean_up_down.
  set (s6 := release_triggered (ek (Ev k Up v)) None s5).
  assert (H6 : trig_free k s6) by (apply release_trig; exact Hc). clearbody s6.
  assert (H7 := update_active_trig k s6 Hc H6). set (s7 := update_active_contexts cs s6) in *. clearbody s7.
  destruct (s_seq _); exact H7.
Qed.

Lemma run_snoc : forall l c s,
  run cs (l ++ [c]) s =
  (fst (do_call cs c (fst (run cs l s))), snd (run cs l s) ++ snd (do_call cs c (fst (run cs l s)))).
Proof.
  induction l as [|x l IH]; intros c s; cbn [app run fst snd].
  - destruct (do_call cs c s) as [s1 o1]. cbn. rewrite app_nil_r. reflexivity.
  - destruct (do_call cs x s) as [s1 o1]. rewrite IH. destruct (run cs l s1) as [s2 o2]. cbn.
    rewrite app_assoc. reflexivity.
Qed.

Theorem release_releases : balanced_config cs -> forall l k v dev j,
  Forall (fun c => is_validate c = false) l -> k <> k_timeout -> k <> k_ContextActive ->
  j <> k_timeout ->
  is_down_after (snd (run cs (l ++ [CInput (Ev k Up v) dev]) init_state)) j = true ->
  exists o, In o (s_down (fst (run cs (l ++ [CInput (Ev k Up v) dev]) init_state))) /\
            od_key o = j /\ od_temp o = false /\ get_trigger_key (od_trigger o) <> k.
Proof.
  intros Hb l k v dev j Hl Ht Hc Hj H.
  assert (Hl' : Forall (fun c => is_validate c = false) (l ++ [CInput (Ev k Up v) dev])).
  { apply Forall_app. split; [exact Hl|]. constructor; [reflexivity|constructor]. }
  destruct (held_covers_consumer cs Hb _ _ Hl' Hj H) as [o [Hi [Hk Ho]]].
  exists o. repeat split; auto.
  assert (Hf : trig_free k (fst (run cs (l ++ [CInput (Ev k Up v) dev]) init_state))).
  { rewrite run_snoc. cbn [fst do_call]. apply update_release_trig; auto. }
  unfold trig_free in Hf. rewrite Forall_forall in Hf. apply Hf. exact Hi.
Qed.

(** * Outputs on release *)

Lemma output_split : forall x y t ci s,
  Forall (fun e => es e <> OutputOnRelease) x ->
  es (get_trigger_event t) = Down ->
  apply_output (x ++ ev0 k_none OutputOnRelease :: y) t ci s =
  let s1 := apply_output x t ci s in
  set_onrel (s_onrel s1 ++ [OnRel (ek (get_trigger_event t)) y ci]) s1.
Proof.
  induction x as [|e x IH]; intros y t ci s Hx Ht.
  - cbn [app apply_output]. change (ek (ev0 k_none OutputOnRelease) =? k_any) with false.
    cbn [es ev0]. rewrite Ht. reflexivity.
  - inversion_clear Hx. cbn [app apply_output]. destruct (ek e =? k_any); [apply IH; auto|].
    destruct (es e); try (apply IH; auto); [destruct (is_virtual_key (ek e)); apply IH; auto|contradiction].
Qed.

Lemma repeat_ignored : forall k v dev s o,
  k <> k_ContextActive -> In o (s_onrel s) -> or_trigger o = k ->
  snd (update cs (Ev k Down v) dev s) = s_buf s /\
  fst (update cs (Ev k Down v) dev s) =
    set_buf [] (set_exit (advance_exit (Ev k Down v) (s_exit s)) s).
Proof.
  intros k v dev s o Hk Hi Ho. unfold update. cbn [fst snd].
  set (s0 := set_exit _ s).
  assert (E : apply_input cs (Ev k Down v) dev s0 = s0).
  { unfold apply_input, continue_output_on_release. cbn [ek es].
    destruct (find_index _ (s_onrel s0)) as [i|] eqn:Ef; [reflexivity|].
    apply find_index_none in Ef. rewrite Forall_forall in Ef. specialize (Ef o Hi).
    cbn in Ef. rewrite Ho, N.eqb_refl in Ef. apply N.eqb_neq in Hk. rewrite Hk in Ef. discriminate. }
  rewrite E. auto.
Qed.

(** Nothing but the release of the key takes a pending output. *)
Definition pending (k : key) (s : state) : list on_release :=
  filter (fun o => or_trigger o =? k) (s_onrel s).

Lemma pending_same : forall k s s', s_onrel s' = s_onrel s -> pending k s' = pending k s.
Proof. unfold pending. intros k s s' ->. reflexivity. Qed.

Lemma filter_remove_at : forall A (f : A -> bool) l i x,
  nth_error l i = Some x -> f x = false -> filter f (remove_at i l) = filter f l.
Proof.
  induction l as [|y l IH]; intros [|i] x H E; cbn in *; try discriminate.
  - injection H as ->. rewrite E. reflexivity.
  - rewrite (IH i x H E). reflexivity.
Qed.

Lemma apply_output_pending : forall k sq t ci s,
  exists more, pending k (apply_output sq t ci s) = pending k s ++ more.
Proof.
  intros k. induction sq as [|e r IH]; intros t ci s; [exists []; rewrite app_nil_r; reflexivity|].
  assert (Hs : forall s', s_onrel s' = s_onrel s ->
    exists more, pending k (apply_output r t ci s') = pending k s ++ more).
  { intros s' E. destruct (IH t ci s') as [m Hm]. exists m. rewrite Hm. f_equal. apply pending_same. exact E. }
  assert (Hu : forall e', s_onrel (update_output e' t ci s) = s_onrel s).
  { intros e'. pose proof (update_output_frame e' t ci s) as H. unfold same_out in H. intuition. }
  assert (Hf : forall st ks, s_onrel (fold_left (fun s k => update_output (ev0 k st) t ci s) ks s) = s_onrel s).
  { intros st ks. pose proof (fold_update_frame st t ci ks s) as H. unfold same_out in H. intuition. }
  cbn [apply_output]. destruct (ek e =? k_any).
  - destruct (es e); apply Hs; apply Hf.
  - destruct (es e); try (apply Hs; apply Hu).
    + destruct (is_virtual_key (ek e)); [destruct (existsb _ (s_seq s))|]; apply Hs; auto.
    + destruct (es (get_trigger_event t)); try (apply Hs; reflexivity).
      unfold pending. cbn. rewrite filter_app. eexists. reflexivity.
Qed.

Lemma continue_pending : forall k e ci s, ek e <> k ->
  exists more, pending k (fst (continue_output_on_release e ci s)) = pending k s ++ more.
Proof.
  intros k e ci s He. unfold continue_output_on_release.
  assert (Hn : exists more, pending k s = pending k s ++ more) by (exists []; rewrite app_nil_r; reflexivity).
  destruct (find_index _ (s_onrel s)) as [i|] eqn:Ef; [|exact Hn].
  destruct (find_index_split _ _ _ _ Ef) as (a & o & b & Hs & Ho & _ & Hnth & _).
  assert (Hk : (or_trigger o =? k) = false).
  { apply andb_prop in Ho. destruct Ho as [Ho _]. apply N.eqb_eq in Ho. apply N.eqb_neq. congruence. }
  assert (G : es e <> Down -> exists more, pending k (fst match nth_error (s_onrel s) i with
             | Some o => let s0 := apply_output (or_seq o) (TEvent e) (or_ctx o) s in
                         (set_onrel (remove_at i (s_onrel s0)) s0, true)
             | None => (s, true) end) = pending k s ++ more).
  { intros Hd. rewrite Hnth. cbn zeta. cbn [fst].
    pose proof (apply_output_released (or_seq o) (TEvent e) (or_ctx o) s Hd) as Hf.
    assert (Eo : s_onrel (apply_output (or_seq o) (TEvent e) (or_ctx o) s) = s_onrel s)
      by (unfold same_out in Hf; intuition).
    exists []. rewrite app_nil_r. unfold pending. cbn [s_onrel set_onrel]. rewrite Eo.
    eapply filter_remove_at; [exact Hnth|exact Hk]. }
  destruct (es e) eqn:Ee; try (apply G; congruence). exact Hn.
Qed.

Lemma release_pending : forall k j ci s, pending k (release_triggered j ci s) = pending k s.
Proof. intros. apply pending_same. apply (proj1 (proj2 (release_down j ci s))). Qed.

Lemma forward_onrel : forall l pre s, s_onrel (forward_loop pre l s) = s_onrel s.
Proof.
  induction l as [|e r IH]; intros pre s; [reflexivity|]. cbn [forward_loop].
  assert (Hu : s_onrel (update_output e (TKey (ek e)) None s) = s_onrel s).
  { pose proof (update_output_frame e (TKey (ek e)) None s) as H. unfold same_out in H. intuition. }
  assert (Hr : s_onrel (release_triggered (ek e) None s) = s_onrel s) by apply (proj1 (proj2 (release_down _ _ _))).
  destruct (es e); try exact Hr.
  - destruct (contains_ev _ _); [exact Hu|].
    destruct (s_timeout s) as [c|]; [destruct (ct_output c)|]; auto.
  - destruct (contains_ev _ _); [exact Hu|]. apply IH.
Qed.

Lemma on_context_pending : forall k e ci s, ek e <> k ->
  exists more, pending k (on_context_active_event cs e ci s) = pending k s ++ more.
Proof.
  intros k e ci s He. unfold on_context_active_event.
  assert (Hn : forall s', s_onrel s' = s_onrel s -> exists more, pending k s' = pending k s ++ more).
  { intros s' E. exists []. rewrite app_nil_r. apply pending_same. exact E. }
  destruct (nth_error cs ci) as [c|]; [|apply Hn; reflexivity].
  set (s1 := ub_unless _ s).
  assert (E1 : s_onrel s1 = s_onrel s) by (unfold s1, ub_unless; destruct (forallb _ _); reflexivity).
  clearbody s1. destruct (find _ (cx_inputs c)) as [i|]; [|apply Hn; exact E1].
  assert (Hr : exists more, pending k (let '(s0, _) := continue_output_on_release e (Some ci) s1 in
                     release_triggered (ek e) (Some ci) s0) = pending k s ++ more).
  { destruct (continue_pending k e (Some ci) s1 He) as [m Hm].
    destruct (continue_output_on_release e (Some ci) s1) as [s2 b]. cbn [fst] in Hm.
    exists m. rewrite release_pending, Hm. f_equal. apply pending_same. exact E1. }
  destruct (es e); try exact Hr.
  destruct (find_output cs (s_active s1) ci c (in_out i)) as [r o| |]; [|apply Hn; exact E1|apply Hn; exact E1].
  destruct (apply_output_pending k o (TEvent e) (Some ci) s1) as [m Hm]. exists m. rewrite Hm.
  f_equal. apply pending_same. exact E1.
Qed.

Lemma update_active_pending : forall k s, k <> k_ContextActive ->
  exists more, pending k (update_active_contexts cs s) = pending k s ++ more.
Proof.
  intros k s Hk. unfold update_active_contexts.
  destruct (eval_active cs (s_seq s) (s_client s) []) as [curr|].
  2:{ exists []. rewrite app_nil_r. reflexivity. }
  assert (G : forall e l s, ek e <> k -> exists more,
    pending k (fold_left (fun s p => on_context_active_event cs e p s) l s) = pending k s ++ more).
  { intros e. induction l as [|x l IH]; intros s' He.
    - exists []. rewrite app_nil_r. reflexivity.
    - cbn [fold_left]. destruct (IH (on_context_active_event cs e x s') He) as [m Hm].
      destruct (on_context_pending k e x s' He) as [m' Hm']. rewrite Hm' in Hm.
      exists (m' ++ m). rewrite app_assoc. exact Hm. }
  cbn zeta.
  match goal with |- context [fold_left ?f ?l2 (fold_left ?g ?l1 ?s0)] =>
    destruct (G (ev0 k_ContextActive Down) l2 (fold_left g l1 s0)) as [m2 H2]; [cbn; congruence|];
    destruct (G (ev0 k_ContextActive Up) l1 s0) as [m1 H1]; [cbn; congruence|] end.
  exists (m1 ++ m2). rewrite H2, H1, app_assoc. reflexivity.
Qed.

(** [s'] has the pending outputs of [k] of [s], and possibly more. *)
Definition keeps (k : key) (s s' : state) : Prop := exists more, pending k s' = pending k s ++ more.

Lemma keeps_same : forall k s s', s_onrel s' = s_onrel s -> keeps k s s'.
Proof. intros. exists []. rewrite app_nil_r. apply pending_same. auto. Qed.
Lemma keeps_trans : forall k a b c, keeps k a b -> keeps k b c -> keeps k a c.
Proof. intros k a b c [m H] [m' H']. exists (m ++ m'). rewrite H', H, app_assoc. reflexivity. Qed.

Lemma same_match_onrel : forall s s', same_match s s' -> s_onrel s' = s_onrel s.
Proof. unfold same_match. intuition. Qed.

Lemma round_pending : forall k e dev s s' brk, apply_round cs e dev s = (s', brk) -> keeps k s s'.
Proof.
  intros k e dev s s' brk H. apply round_cases in H. destruct H.
  - apply keeps_same. cbn. pose proof (proj1 (match_input_frame cs true (s_seq s) dev (key_up e) s)) as Hf.
    rewrite H0 in Hf. exact (same_match_onrel _ _ Hf).
  - apply keeps_same. cbn. pose proof (proj1 (match_input_frame cs true (s_seq s) dev (key_up e) s)) as Hf.
    rewrite H0 in Hf. exact (same_match_onrel _ _ Hf).
  - assert (E : s_onrel s2 = s_onrel s).
    { destruct H as (first & s0 & s1 & H1 & _ & _ & H4 & H5 & _).
      pose proof (proj1 (match_input_frame cs first (firstn len (s_seq s)) dev (key_up e) s0)) as Hf.
      rewrite H4 in Hf. apply same_match_onrel in H1, H5, Hf. cbn in Hf. congruence. }
    eapply keeps_trans; [apply keeps_same; exact E|]. 
    destruct (apply_output_pending k o (select_trigger e inp o s2) (Some ci) s2) as [more Hm].
    exists more. exact Hm.
  - apply keeps_same. cbn. unfold forward_from_sequence. rewrite forward_onrel. apply same_match_onrel. exact H.
Qed.

Lemma loop_pending : forall k fuel e dev s, keeps k s (apply_loop cs fuel e dev s).
Proof.
  intros k. induction fuel as [|f IH]; intros e dev s; cbn [apply_loop];
    (destruct (has_non_optional (s_seq s)); [|apply keeps_same; reflexivity]);
    [apply keeps_same; reflexivity|].
  destruct (apply_round cs e dev s) as [s1 b] eqn:Er.
  assert (H1 := round_pending k _ _ _ _ _ Er).
  destruct b; [exact H1|]. eapply keeps_trans; [exact H1|apply IH].
Qed.

Lemma clean_up_onrel : forall fuel s, s_onrel (clean_up_history cs fuel s) = s_onrel s.
Proof.
  induction fuel as [|f IH]; intros s; cbn [clean_up_history];
    (destruct (s_hist s); [reflexivity|]); [reflexivity|].
  destruct (negb _); [reflexivity|]. destruct (history_might_match cs s); [reflexivity|].
  destruct (remove_first_ev _ _) as [h|]; [rewrite IH|]; reflexivity.
Qed.

Lemma process_pending : forall k e dev s, k <> k_ContextActive -> keeps k s (process_input cs e dev s).
Proof.
  intros k e dev s Hk. unfold process_input. cbn zeta.
  set (s1 := add_to_history cs e _).
  assert (E1 : s_onrel s1 = s_onrel s).
  { unfold s1, add_to_history. destruct (_ && _ && _); [|reflexivity].
    destruct (es e); match goal with |- context [if ?c then _ else _] => destruct c end; reflexivity. }
  eapply keeps_trans; [apply keeps_same; exact E1|]. clearbody s1.
  eapply keeps_trans; [exact (update_active_pending k s1 Hk)|].
  set (s2 := update_active_contexts cs s1). clearbody s2.
  assert (E3 : s_onrel (prepare_up e s2) = s_onrel s2).
  { unfold prepare_up. destruct (kstate_eqb (es e) Up); [|reflexivity].
    cbn zeta. set (s3 := match s_timeout s2 with Some _ => _ | None => _ end).
    assert (H3 : s_onrel s3 = s_onrel s2).
    { unfold s3. destruct (s_timeout s2) as [c|]; [destruct (ct_output c)|]; reflexivity. }
    clearbody s3. destruct (s_might s3); [exact H3|].
    destruct (find_key (s_seq s3) (ek e)) as [i|]; [|exact H3].
    destruct (nth_error (s_seq s3) i) as [x|]; [|exact H3].
    destruct (kstate_eqb (es x) DownMatched); exact H3. }
  eapply keeps_trans; [apply keeps_same; exact E3|].
  set (s3 := prepare_up e s2). clearbody s3.
  eapply keeps_trans; [apply (keeps_same k s3 (unsuppress s3)); reflexivity|].
  set (s4 := unsuppress s3). clearbody s4.
  eapply keeps_trans; [apply (loop_pending k (weight (s_seq s4)) e dev s4)|].
  set (s5 := apply_loop cs _ e dev s4). clearbody s5.
  unfold finish_input. cbn zeta.
  set (s6 := if kstate_eqb (es e) Up then _ else _).
  eapply keeps_trans; [apply (keeps_same k s5 s6)|].
  { unfold s6. destruct (kstate_eqb (es e) Up); [apply release_down|reflexivity]. }
  clearbody s6. eapply keeps_trans; [exact (update_active_pending k s6 Hk)|].
  set (s7 := update_active_contexts cs s6). clearbody s7.
  apply keeps_same. rewrite clean_up_onrel. destruct (s_seq _); reflexivity.
Qed.

(** Only the release of the key takes its pending output. *)
Theorem pending_stays : forall k e dev s,
  k <> k_ContextActive -> ek e <> k \/ es e = Down ->
  keeps k s (fst (update cs e dev s)).
Proof.
  intros k e dev s Hk Hor. unfold update. cbn [fst].
  set (s0 := set_exit _ s).
  assert (Hc : keeps k s0 (fst (continue_output_on_release e None s0)) ).
  { destruct (N.eq_dec (ek e) k) as [He|He]; [|exact (continue_pending k e None s0 He)].
    destruct Hor as [?|Hd]; [contradiction|]. unfold continue_output_on_release. rewrite Hd.
    apply keeps_same. destruct (find_index _ _); reflexivity. }
  assert (G : keeps k s0 (apply_input cs e dev s0)).
  { unfold apply_input. destruct (continue_output_on_release e None s0) as [s1 go1]. cbn [fst] in Hc.
    destruct (negb go1); [exact Hc|].
    assert (E2 : s_onrel (fst (suppress_not_timeout e s1)) = s_onrel s1).
    { unfold suppress_not_timeout. destruct (s_timeout s1) as [c|]; [|reflexivity].
      repeat match goal with |- context [if ?c then _ else _] => destruct c end; reflexivity. }
    destruct (suppress_not_timeout e s1) as [s2 go2]. cbn [fst] in E2.
    assert (H2 : keeps k s0 s2) by (eapply keeps_trans; [exact Hc|apply keeps_same; exact E2]).
    destruct (negb go2); [exact H2|].
    assert (E3 : s_onrel (fst (merge_repeat e dev s2)) = s_onrel s2).
    { unfold merge_repeat. destruct (es e); try (destruct (_ =? _)%Z; reflexivity).
      destruct (rfind_key _ _);
        repeat match goal with |- context [if ?c then _ else _] => destruct c end; reflexivity. }
    destruct (merge_repeat e dev s2) as [s3 go3]. cbn [fst] in E3.
    assert (H3 : keeps k s0 s3) by (eapply keeps_trans; [exact H2|apply keeps_same; exact E3]).
    destruct (negb go3); [exact H3|]. eapply keeps_trans; [exact H3|apply process_pending; exact Hk]. }
  exact G.
Qed.

(** Leaving the context cancels the pending output. *)
Lemma leaving_cancels : forall l s o,
  In o (s_onrel (fst (set_active_client_contexts cs l s))) ->
  is_context_active cs (fst (set_active_client_contexts cs l s)) (or_ctx o) = true.
Proof.
  intros l s o H. unfold set_active_client_contexts in *. cbn [fst] in *.
  apply filter_In in H. exact (proj2 H).
Qed.

End WithContexts.

(** A list of key strokes. *)
Definition strokes_of (ks : list key) : sequence := flat_map (fun k => [ev0 k Down; ev0 k Up]) ks.

Lemma stroke_output : forall k t ci s,
  k <> k_timeout -> Forall (fun o => od_key o <> k /\ od_temp o = false) (s_down s) ->
  update_output (ev0 k Up) t ci (update_output (ev0 k Down) t ci s) =
  set_buf (s_buf s ++ [ev0 k Down; ev0 k Up]) s.
Proof.
  intros k t ci s Ht H. assert (Htk := Ht). apply N.eqb_neq in Htk.
  assert (Hr : forall l b r, Forall (fun o => od_key o <> k /\ od_temp o = false) l ->
    reapply_loop k l b r = (l, b, r, false)).
  { clear. induction l as [|o l IH]; intros b r H; [reflexivity|]. inversion_clear H.
    destruct H0 as [Hk Ht]. cbn [reapply_loop]. rewrite Ht. cbn [andb]. rewrite IH by auto. reflexivity. }
  assert (Hfi : find_index (fun o => od_key o =? k) (s_down s) = None).
  { clear -H. induction H as [|o l [Hk _] _ IH]; [reflexivity|]. cbn. apply N.eqb_neq in Hk.
    rewrite Hk, IH. reflexivity. }
  assert (Hlast : forall f : out_down -> bool, forall l x, find_index f l = None -> f x = true ->
            find_index f (l ++ [x]) = Some (length l) /\ nth_error (l ++ [x]) (length l) = Some x /\
            remove_at (length l) (l ++ [x]) = l).
  { clear. intros f. induction l as [|y l IH]; intros x H Hx; cbn in *; [rewrite Hx; auto|].
    destruct (f y); [discriminate|]. destruct (find_index f l); [discriminate|].
    destruct (IH x eq_refl Hx) as (-> & -> & ->). auto. }
  unfold update_output at 2. cbn [es ev0 ek]. rewrite Hr, Hfi, Htk by exact H.
  cbn [s_down set_reapplied set_buf set_down emit s_buf].
  unfold update_output. cbn [es ev0 ek].
  set (d := OD k t false false false ci).
  cbn [s_down set_reapplied set_buf set_down emit s_buf].
  destruct (Hlast (fun o => od_key o =? k) (s_down s) d Hfi) as (E1 & E2 & E3); [apply N.eqb_refl|].
  rewrite E1, E2. cbn [d od_twice andb od_trigger]. rewrite N.eqb_refl. rewrite E3.
  destruct s. unfold emit. cbn. rewrite <- app_assoc. reflexivity.
Qed.

Lemma strokes_output : forall ks t ci s,
  Forall (fun k => k <> k_timeout /\ k <> k_any /\
                   Forall (fun o => od_key o <> k /\ od_temp o = false) (s_down s)) ks ->
  apply_output (strokes_of ks) t ci s = set_buf (s_buf s ++ strokes_of ks) s.
Proof.
  induction ks as [|k ks IH]; intros t ci s H.
  - cbn. rewrite app_nil_r. destruct s; reflexivity.
  - inversion_clear H as [|? ? H0 H4]. destruct H0 as (H1 & H2 & H3).
    change (strokes_of (k :: ks)) with (ev0 k Down :: ev0 k Up :: strokes_of ks).
    apply N.eqb_neq in H2. cbn [apply_output]. cbn [ek ev0]. rewrite H2. cbn [es].
    rewrite stroke_output by auto. rewrite IH by exact H4. cbn [s_buf set_buf].
    rewrite <- app_assoc. destruct s; reflexivity.
Qed.

(** The release outputs the pending output and takes it from the list. *)
Theorem release_outputs : forall k v ks ci a b s,
  k <> k_ContextActive -> Forall (fun o => or_trigger o <> k) (a ++ b) ->
  s_onrel s = a ++ OnRel k (strokes_of ks) ci :: b ->
  Forall (fun k => k <> k_timeout /\ k <> k_any /\
                   Forall (fun o => od_key o <> k /\ od_temp o = false) (s_down s)) ks ->
  continue_output_on_release (Ev k Up v) None s =
  (set_onrel (a ++ b) (set_buf (s_buf s ++ strokes_of ks) s), true).
Proof.
  intros k v ks ci a b s Hk Hab Hs Hks. unfold continue_output_on_release. cbn [ek es].
  apply Forall_app in Hab. destruct Hab as [Ha _]. apply N.eqb_neq in Hk.
  assert (G : forall l, Forall (fun o => or_trigger o <> k) l ->
    find_index (fun o => (or_trigger o =? k) && (negb (or_trigger o =? k_ContextActive) || opt_nat_eqb (or_ctx o) None))
      (l ++ OnRel k (strokes_of ks) ci :: b) = Some (length l) /\
    nth_error (l ++ OnRel k (strokes_of ks) ci :: b) (length l) = Some (OnRel k (strokes_of ks) ci) /\
    remove_at (length l) (l ++ OnRel k (strokes_of ks) ci :: b) = l ++ b).
  { induction 1 as [|o l Ho _ IH]; cbn.
    - rewrite N.eqb_refl, Hk. auto.
    - apply N.eqb_neq in Ho. rewrite Ho. cbn [andb]. destruct IH as (-> & -> & ->). auto. }
  rewrite Hs. destruct (G a Ha) as (-> & -> & E). cbn [or_seq or_ctx]. cbn zeta.
  rewrite strokes_output by exact Hks. cbn [s_onrel set_buf]. rewrite Hs, E. reflexivity.
Qed.
