(** Processing of an input event terminates (C09). *)
From Coq Require Import List Arith NArith ZArith Bool Lia.
From Verif Require Import Base Key Match Stage MatchProofs StageFrame.
Import ListNotations.
Local Open Scope N_scope.

(** * The sequence rewritings make progress *)

Lemma weight_app : forall a b, weight (a ++ b) = (weight a + weight b)%nat.
Proof.
  unfold weight. induction a as [|x a IH]; intros b; cbn [fold_right app]; [reflexivity|].
  rewrite IH. destruct (is_non_optional x); lia.
Qed.

Lemma weight_bound : forall l, (length l <= weight l <= 2 * length l)%nat.
Proof.
  unfold weight. induction l as [|e l IH]; cbn [fold_right length]; [lia|].
  destruct (is_non_optional e); lia.
Qed.

Lemma forward_seq_weight : forall l pre,
  (weight (forward_seq pre l) <= weight pre + weight l)%nat /\
  (has_non_optional l = true -> weight (forward_seq pre l) < weight pre + weight l)%nat.
Proof.
  induction l as [|e r IH]; intros pre.
  - unfold weight. cbn [forward_seq fold_right]. split; [lia|discriminate].
  - cbn [forward_seq has_non_optional existsb].
    assert (Hw : (weight (e :: r) = (if is_non_optional e then 2 else 1) + weight r)%nat) by reflexivity.
    destruct (es e) eqn:Ee;
      try (rewrite weight_app, Hw; destruct (is_non_optional e); lia).
    + (* Down *)
      destruct (contains_ev _ _); rewrite weight_app, ?Hw; [destruct (is_non_optional e); lia|].
      cbn [weight fold_right set_es is_non_optional es]. fold (weight r).
      unfold is_non_optional. rewrite Ee. lia.
    + destruct (contains_ev _ _); [rewrite weight_app, Hw; destruct (is_non_optional e); lia|].
      destruct (IH (pre ++ [e])) as [H1 H2].
      rewrite weight_app in H1, H2. cbn [weight fold_right] in H1, H2.
      fold (weight r) in H1, H2. rewrite Hw.
      assert (Hn : is_non_optional e = false) by (unfold is_non_optional; rewrite Ee; reflexivity).
      rewrite Hn in *. cbn [orb]. split; [lia|]. intros H. specialize (H2 H). lia.
Qed.

Lemma finish_loop_weight : forall n l,
  (weight (finish_loop n l) <= weight l)%nat /\
  (has_non_optional (firstn n l) = true -> weight (finish_loop n l) < weight l)%nat.
Proof.
  induction n as [|n IH]; intros l; [destruct l; cbn; split; try lia; discriminate|].
  destruct l as [|e r]; [cbn; split; [lia|discriminate]|].
  cbn [finish_loop firstn has_non_optional existsb].
  assert (Hw : (weight (e :: r) = (if is_non_optional e then 2 else 1) + weight r)%nat) by reflexivity.
  assert (Hm : forall st, is_non_optional (set_es st e) = false ->
                          (weight (set_es st e :: finish_loop n r) = 1 + weight (finish_loop n r))%nat).
  { intros st H. cbn [weight fold_right]. rewrite H. reflexivity. }
  destruct (IH r) as [H1 H2].
  destruct (es e) eqn:Ee;
    (assert (Hn : is_non_optional e = match es e with Up | Down => true | _ => false end) by reflexivity;
     rewrite Ee in Hn; rewrite Hw, Hn; cbn [orb]);
    try (destruct (ek e =? k_timeout); [rewrite Hm by reflexivity|]; split; try intros H; try specialize (H2 H); lia);
    (destruct (contains_ev _ _); [|rewrite Hm by reflexivity]; split; try intros H; try specialize (H2 H); lia).
Qed.

Lemma has_unmatched_non_optional : forall l, has_unmatched_down l = true -> has_non_optional l = true.
Proof.
  intros l H. unfold has_unmatched_down, has_non_optional in *.
  rewrite existsb_exists in *. destruct H as [x [H1 H2]]. exists x. split; auto.
  unfold is_non_optional. destruct (es x); auto; discriminate.
Qed.

(** * Keys of sequences *)

Lemma no_none_app : forall a b, no_none (a ++ b) <-> no_none a /\ no_none b.
Proof. intros. unfold no_none. apply Forall_app. Qed.

Lemma no_none_firstn : forall n l, no_none l -> no_none (firstn n l).
Proof.
  intros n l H. rewrite <- (firstn_skipn n l) in H. apply no_none_app in H. apply H.
Qed.

Lemma forward_seq_keys : forall (P : key -> Prop) l pre,
  Forall (fun e => P (ek e)) pre -> Forall (fun e => P (ek e)) l ->
  Forall (fun e => P (ek e)) (forward_seq pre l).
Proof.
  intros P.
  induction l as [|e r IH]; intros pre Hp Hl; [exact Hp|].
  inversion_clear Hl. cbn [forward_seq].
  assert (Hpr : Forall (fun e => P (ek e)) (pre ++ r)) by (apply Forall_app; auto).
  destruct (es e); auto; destruct (contains_ev _ _); auto.
  - apply Forall_app. split; [exact Hp|]. constructor; auto.
  - apply IH; auto. apply Forall_app. auto.
Qed.

Lemma finish_loop_keys : forall (P : key -> Prop) n l,
  Forall (fun e => P (ek e)) l -> Forall (fun e => P (ek e)) (finish_loop n l).
Proof.
  intros P. induction n as [|n IH]; intros l H; [destruct l; exact H|].
  destruct l as [|e r]; [constructor|]. inversion_clear H. cbn [finish_loop].
  destruct (es e); try (destruct (ek e =? k_timeout)); try destruct (contains_ev _ _); auto.
Qed.

(** * The matching of inputs *)

Section WithContexts.
Variable cs : list context.

(** Matching changes only the scratch members, the timeout and the buffer. *)
Definition same_match (s s' : state) : Prop :=
  s_client s' = s_client s /\ s_active s' = s_active s /\ s_exit s' = s_exit s /\
  s_seq s' = s_seq s /\ s_might s' = s_might s /\ s_pdev s' = s_pdev s /\
  s_rdev s' = s_rdev s /\ s_hist s' = s_hist s /\ s_onrel s' = s_onrel s /\
  s_down s' = s_down s /\ s_reapplied s' = s_reapplied s.
Lemma same_match_refl : forall s, same_match s s.
Proof. intros; unfold same_match; intuition. Qed.
Lemma same_match_trans : forall a b c, same_match a b -> same_match b c -> same_match a c.
Proof. unfold same_match; intuition congruence. Qed.

Lemma on_might_match_frame : forall t sq u s,
  same_match s (on_might_match t sq u s) /\ s_ub (on_might_match t sq u s) = s_ub s /\
  s_oof (on_might_match t sq u s) = s_oof s.
Proof.
  intros t sq u s. unfold on_might_match.
  destruct t as [te|]; [|split; [apply same_match_refl|auto]].
  destruct (find_last_down_event sq) as [tr|]; [|unfold same_match; cbn; intuition].
  set (ch := match s_timeout (emit te s) with None => true | Some c => _ end).
  destruct ch; [unfold same_match; cbn; intuition|].
  destruct u; unfold same_match; cbn; intuition.
Qed.

Lemma match_inputs_frame : forall first sq dev u ci c l s,
  same_match s (fst (match_inputs cs first sq dev u ci c l s)) /\
  (no_none sq -> no_none (s_hist s) ->
   s_oof (fst (match_inputs cs first sq dev u ci c l s)) = s_oof s).
Proof.
  induction l as [|i l IH]; intros s; [split; [apply same_match_refl|auto]|].
  cbn [match_inputs].
  set (nmm := is_nmm_mapping (in_seq i)).
  destruct (nmm && _); [apply IH|].
  destruct (nmm && (dev =? any_device)%Z); [apply IH|].
  destruct (match_keys (in_seq i) (if nmm then s_hist s else sq)) as [[[res anys] t]|] eqn:Em.
  - set (s1 := ub_unless _ (set_any anys s)).
    assert (H1 : same_match s s1 /\ s_oof s1 = s_oof s).
    { unfold s1, ub_unless. destruct (in_seq i); unfold same_match; cbn; intuition. }
    destruct H1 as [H1 H1'].
    assert (HI : same_match s (fst (match_inputs cs first sq dev u ci c l s1)) /\
                 (no_none sq -> no_none (s_hist s) ->
                  s_oof (fst (match_inputs cs first sq dev u ci c l s1)) = s_oof s)).
    { destruct (IH s1) as [Ha Hb]. split; [eapply same_match_trans; eauto|].
      intros Hq Hh. rewrite Hb; auto. unfold same_match in H1. intuition congruence. }
    destruct res; [exact HI| |].
    + destruct (first && negb nmm); [|exact HI]. cbn [fst].
      destruct (on_might_match_frame t sq u s1) as [Ha [Hb Hc]].
      split; [eapply same_match_trans; eauto|intros; congruence].
    + destruct (find_output cs (s_active s1) ci c (in_out i)); [|exact HI|]; cbn [fst].
      * split; auto.
      * split; [eapply same_match_trans; [exact H1|]; unfold same_match; cbn; intuition|].
        intros; cbn; auto.
  - cbn [fst]. split; [unfold same_match; cbn; intuition|].
    intros Hq Hh. exfalso.
    assert (Hn : no_none (if nmm then s_hist s else sq)) by (destruct nmm; auto).
    destruct (match_keys_total (in_seq i) _ Hn) as [n [r [a [t [_ [_ H]]]]]]. congruence.
Qed.

Lemma match_contexts_frame : forall first sq dev u act s,
  same_match s (fst (match_contexts cs first sq dev u act s)) /\
  (no_none sq -> no_none (s_hist s) ->
   s_oof (fst (match_contexts cs first sq dev u act s)) = s_oof s).
Proof.
  induction act as [|ci act IH]; intros s; [split; [apply same_match_refl|auto]|].
  cbn [match_contexts].
  destruct (nth_error cs ci) as [c|]; [|split; [unfold same_match; cbn; intuition|auto]].
  destruct (device_matches_filter c dev); [|apply IH].
  destruct (match_inputs_frame first sq dev u ci c (cx_inputs c) s) as [Ha Hb].
  destruct (match_inputs cs first sq dev u ci c (cx_inputs c) s) as [s1 [r|]]; cbn [fst] in *; [auto|].
  destruct (IH s1) as [Hc Hd]. split; [eapply same_match_trans; eauto|].
  intros Hq Hh. rewrite Hd; auto. unfold same_match in Ha. intuition congruence.
Qed.

Lemma match_input_frame : forall first sq dev u s,
  same_match s (fst (match_input cs first sq dev u s)) /\
  (no_none sq -> no_none (s_hist s) ->
   s_oof (fst (match_input cs first sq dev u s)) = s_oof s).
Proof.
  intros. unfold match_input.
  destruct (match_contexts_frame first sq dev u (s_active s) (ub_unless (valid_device dev) s)) as [Ha Hb].
  unfold ub_unless in *. destruct (valid_device dev); [auto|].
  split; [eapply same_match_trans; [|exact Ha]; unfold same_match; cbn; intuition|].
  intros; rewrite Hb; auto.
Qed.

Lemma match_prefixes_frame : forall n dev u s,
  same_match s (fst (match_prefixes cs n dev u s)) /\
  (no_none (s_seq s) -> no_none (s_hist s) ->
   s_oof (fst (match_prefixes cs n dev u s)) = s_oof s) /\
  (forall len r, snd (match_prefixes cs n dev u s) = Some (len, r) ->
     has_unmatched_down (firstn len (s_seq s)) = true /\ (len < n)%nat /\
     exists a b c d, r = RMatch a b c d).
Proof.
  induction n as [|n IH]; intros dev u s; [cbn; split; [apply same_match_refl|split; [auto|discriminate]]|].
  cbn [match_prefixes].
  destruct (Nat.ltb 1 (S n)); [|cbn; split; [apply same_match_refl|split; [auto|discriminate]]].
  destruct (has_unmatched_down (firstn n (s_seq s))) eqn:Eu; cbn [negb];
    [|cbn; split; [apply same_match_refl|split; [auto|discriminate]]].
  destruct (match_input_frame false (firstn n (s_seq s)) dev u s) as [Ha Hb].
  destruct (match_input cs false (firstn n (s_seq s)) dev u s) as [s1 r]. cbn [fst] in *.
  assert (HI : same_match s (fst (match_prefixes cs n dev u s1)) /\
    (no_none (s_seq s) -> no_none (s_hist s) ->
     s_oof (fst (match_prefixes cs n dev u s1)) = s_oof s) /\
    (forall len r, snd (match_prefixes cs n dev u s1) = Some (len, r) ->
     has_unmatched_down (firstn len (s_seq s)) = true /\ (len < S n)%nat /\
     exists a b c d, r = RMatch a b c d)).
  { destruct (IH dev u s1) as [Hc [Hd He]].
    assert (Hs : s_seq s1 = s_seq s /\ s_hist s1 = s_hist s) by (unfold same_match in Ha; intuition).
    destruct Hs as [Hs Hh].
    split; [eapply same_match_trans; eauto|]. split.
    - intros Hq Hn. rewrite Hd; [apply Hb; auto; apply no_none_firstn; auto| |]; congruence.
    - intros len r' H. destruct (He len r' H) as [H1 [H2 H3]]. rewrite Hs in H1. split; [auto|split; [lia|auto]]. }
  destruct r; [exact HI|exact HI|].
  cbn [fst snd]. split; [exact Ha|]. split; [intros; apply Hb; auto; apply no_none_firstn; auto|].
  intros len r' H. injection H as <- <-. split; [exact Eu|split; [lia|eauto]].
Qed.

Lemma timeout_after_match_frame : forall e so r s,
  same_match s (fst (timeout_after_match e so r s)) /\
  s_oof (fst (timeout_after_match e so r s)) = s_oof s /\
  s_ub (fst (timeout_after_match e so r s)) = s_ub s /\
  s_buf (fst (timeout_after_match e so r s)) = s_buf s /\
  s_any (fst (timeout_after_match e so r s)) = s_any s /\
  (snd (timeout_after_match e so r s) = r \/ snd (timeout_after_match e so r s) = RNo).
Proof.
  intros. unfold timeout_after_match.
  destruct (s_timeout s) as [c|]; [|cbn; split; [apply same_match_refl|tauto]].
  destruct (is_not_timeout _); [cbn; split; [apply same_match_refl|tauto]|].
  destruct (ek e =? k_timeout).
  - destruct r; try (cbn; split; [apply same_match_refl|tauto]).
    destruct (ct_output c) as [r0|]; [destruct (oref_eqb r0 r)|destruct so];
      try (cbn; split; [apply same_match_refl|tauto]).
    unfold same_match; cbn; tauto.
  - destruct r; try (cbn; split; [apply same_match_refl|tauto]).
    unfold same_match; cbn; tauto.
Qed.

Lemma not_timeout_after_match_frame : forall r s,
  same_match s (not_timeout_after_match r s) /\
  s_oof (not_timeout_after_match r s) = s_oof s /\
  s_ub (not_timeout_after_match r s) = s_ub s /\
  s_buf (not_timeout_after_match r s) = s_buf s /\
  s_any (not_timeout_after_match r s) = s_any s.
Proof.
  intros. unfold not_timeout_after_match.
  destruct (s_timeout s) as [c|]; [|split; [apply same_match_refl|tauto]].
  destruct (is_not_timeout _); [|split; [apply same_match_refl|tauto]].
  destruct r; [unfold same_match; cbn; tauto| |]; (split; [apply same_match_refl|tauto]).
Qed.

(** * One round *)

Lemma round_progress : forall e dev s s' brk,
  apply_round cs e dev s = (s', brk) ->
  no_none (s_seq s) -> no_none (s_hist s) -> has_non_optional (s_seq s) = true ->
  s_oof s' = s_oof s /\ s_hist s' = s_hist s /\ no_none (s_seq s') /\
  s_active s' = s_active s /\ s_client s' = s_client s /\ s_exit s' = s_exit s /\
  s_pdev s' = s_pdev s /\ s_rdev s' = s_rdev s /\
  (brk = false -> weight (s_seq s') < weight (s_seq s))%nat.
Proof.
  intros e dev s s' brk H Hq Hh Hno. unfold apply_round in H.
  set (u := kstate_eqb (es e) Up && negb (ek e =? k_timeout)) in *.
  destruct (match_input_frame true (s_seq s) dev u s) as [Ha Hb].
  destruct (match_input cs true (s_seq s) dev u s) as [s1 res]. cbn [fst] in *.
  specialize (Hb Hq Hh).
  assert (E1 : s_seq s1 = s_seq s) by (unfold same_match in Ha; intuition).
  assert (Eh : s_hist s1 = s_hist s) by (unfold same_match in Ha; intuition).
  assert (Hfin : forall n, no_none (finish_loop n (s_seq s))).
  { intros n. apply (finish_loop_keys (fun k => k <> k_none)). exact Hq. }
  destruct (is_virtual_key (ek e) && _).
  { injection H as <- <-. unfold finish_sequence. cbn. rewrite E1.
    unfold same_match in Ha. intuition (try congruence; auto). }
  destruct res as [|inp ci|r o inp ci].
  2:{ injection H as <- <-. cbn. rewrite E1. unfold same_match in Ha.
      intuition; try congruence. }
  all: match type of H with (let '(_, _) := ?X in _) = _ => destruct X as [[[s2 len] res2] so] eqn:E2
       | _ => idtac end.
  all: assert (Hp : same_match s s2 /\ s_oof s2 = s_oof s /\
           (forall a b c d, res2 = RMatch a b c d -> has_non_optional (firstn len (s_seq s)) = true)).
  1:{ destruct (s_might s1); cbn [negb andb] in E2.
      - destruct (match_prefixes_frame (length (s_seq s)) dev u s1) as [Hc [Hd He]].
        rewrite E1, Eh in Hd. specialize (Hd Hq Hh).
        destruct (match_prefixes cs (length (s_seq s)) dev u s1) as [s3 [[len' r']|]]; cbn [fst snd] in *;
          injection E2 as <- <- <- <-.
        + split; [eapply same_match_trans; eauto|]. split; [congruence|]. intros.
          destruct (He len' r' eq_refl) as [H1 _]. rewrite E1 in H1.
          apply has_unmatched_non_optional, H1.
        + split; [eapply same_match_trans; eauto|]. split; [congruence|]. discriminate.
      - injection E2 as <- <- <- <-. split; [auto|split; [auto|discriminate]]. }
  2:{ cbn [negb andb] in E2. injection E2 as <- <- <- <-. split; [auto|]. split; [auto|].
      intros. rewrite firstn_all. exact Hno. }
  all: destruct Hp as [Hp1 [Hp2 Hp3]].
  all: destruct (timeout_after_match_frame e so res2 s2) as [Ht1 [Ht2 [Ht3 [Ht4 [Ht5 Ht6]]]]];
    destruct (timeout_after_match e so res2 s2) as [s3 res3]; cbn [fst snd] in *.
  all: destruct (not_timeout_after_match_frame res3 s3) as [Hn1 [Hn2 [Hn3 [Hn4 Hn5]]]];
    set (s4 := not_timeout_after_match res3 s3) in *.
  all: assert (H4 : same_match s s4) by (repeat (eapply same_match_trans; eauto)).
  all: assert (E4 : s_seq s4 = s_seq s) by (unfold same_match in H4; intuition).
  all: destruct res3 as [|inp3 ci3|r3 o3 inp3 ci3].
  all: try (
    destruct (forward_frame s4) as [Hf1 Hf2];
    destruct (forward_seq_weight (s_seq s) []) as [_ Hw]; specialize (Hw Hno);
    assert (Hk : no_none (forward_seq [] (s_seq s)))
      by (apply (forward_seq_keys (fun k => k <> k_none)); [constructor|exact Hq]);
    rewrite E4 in Hf2;
    match type of H with ((if ?B then ?X else ?Y), false) = _ =>
      assert (Hs' : (s' = X \/ s' = Y) /\ brk = false)
        by (destruct B; injection H as <- <-; auto)
    end;
    destruct Hs' as [Hs' ->]; unfold same_match in H4; unfold same_fwd in Hf1;
    destruct Hs' as [-> | ->]; cbn; rewrite Hf2; intuition congruence).
  all: pose proof (apply_output_frame o3 (select_trigger e inp3 o3 s4) (Some ci3) s4) as Hao;
    set (s5 := apply_output o3 _ (Some ci3) s4) in *;
    assert (E5 : s_seq s5 = s_seq s) by (unfold same_app in Hao; intuition congruence);
    assert (Hlen : has_non_optional (firstn len (s_seq s)) = true)
      by (destruct Ht6 as [Ht6 | Ht6]; [eapply Hp3; symmetry; exact Ht6|discriminate]);
    destruct (finish_loop_weight len (s_seq s)) as [_ Hw]; specialize (Hw Hlen);
    assert (Hs' : (s' = finish_sequence len s5 \/ s' = set_might false (finish_sequence len s5)) /\ brk = false)
      by (destruct so; injection H as <- <-; auto);
    destruct Hs' as [Hs' ->]; unfold same_match in H4; unfold same_app in Hao;
    destruct Hs' as [-> | ->]; unfold finish_sequence; cbn; rewrite E5;
    intuition (try congruence; auto).
Qed.

(** * The loop *)

(** The loop Stage.cpp:554-655 without fuel: [loop_run s n s'] if it ends in s' after
    n rounds. *)
Inductive loop_run (e : event) (dev : Z) : state -> nat -> state -> Prop :=
| run_done : forall s, has_non_optional (s_seq s) = false -> loop_run e dev s 0 s
| run_break : forall s s', has_non_optional (s_seq s) = true ->
    apply_round cs e dev s = (s', true) -> loop_run e dev s 1 s'
| run_round : forall s s1 n s', has_non_optional (s_seq s) = true ->
    apply_round cs e dev s = (s1, false) -> loop_run e dev s1 n s' -> loop_run e dev s (S n) s'.

Lemma apply_loop_run : forall e dev fuel s,
  (weight (s_seq s) <= fuel)%nat -> no_none (s_seq s) -> no_none (s_hist s) ->
  exists n, (n <= weight (s_seq s))%nat /\ loop_run e dev s n (apply_loop cs fuel e dev s) /\
  let s' := apply_loop cs fuel e dev s in
  s_oof s' = s_oof s /\ s_hist s' = s_hist s /\ no_none (s_seq s') /\
  s_active s' = s_active s /\ s_client s' = s_client s /\ s_exit s' = s_exit s /\
  s_pdev s' = s_pdev s /\ s_rdev s' = s_rdev s.
Proof.
  induction fuel as [|fuel IH]; intros s Hw Hq Hh; cbn [apply_loop].
  - destruct (has_non_optional (s_seq s)) eqn:E.
    + exfalso. destruct (s_seq s) as [|x l]; [discriminate|]. cbn in Hw.
      destruct (is_non_optional x); lia.
    + exists 0%nat. split; [lia|]. split; [constructor; auto|]. intuition.
  - destruct (has_non_optional (s_seq s)) eqn:E.
    + destruct (apply_round cs e dev s) as [s1 brk] eqn:Er.
      destruct (round_progress e dev s s1 brk Er Hq Hh E) as (H1 & H2 & H3 & H4 & H5 & H6 & H7 & H8 & H9).
      destruct brk.
      * exists 1%nat. split; [destruct (s_seq s) as [|x l]; [discriminate|]; cbn; destruct (is_non_optional x); lia|].
        split; [apply run_break; auto|]. intuition.
      * specialize (H9 eq_refl).
        destruct (IH s1) as [n [Hn [Hr Hx]]]; [lia|auto|rewrite H2; auto|].
        exists (S n). split; [lia|]. split; [eapply run_round; eauto|].
        cbn zeta in *. intuition congruence.
    + exists 0%nat. split; [lia|]. split; [constructor; auto|]. intuition.
Qed.

(** * The whole of apply_input *)

Lemma clean_up_history_term : forall fuel s,
  (length (s_hist s) <= fuel)%nat -> s_oof (clean_up_history cs fuel s) = s_oof s.
Proof.
  induction fuel as [|fuel IH]; intros s Hl; cbn [clean_up_history].
  - destruct (s_hist s); [auto|cbn in Hl; lia].
  - destruct (s_hist s) as [|x r] eqn:Eh; [auto|].
    destruct (negb _); [auto|]. destruct (history_might_match cs s); [auto|].
    destruct (remove_first_ev (Ev (ek x) Up (ev x)) r) as [h|] eqn:Er; [|auto].
    rewrite IH; [auto|]. cbn.
    assert (length h < length r)%nat; [|cbn in Hl; lia].
    clear -Er. revert h Er. induction r as [|y r IH]; intros h H; [discriminate|].
    cbn in H. destruct (event_eqb y _); [injection H as <-; cbn; lia|].
    destruct (remove_first_ev _ r); [|discriminate]. injection H as <-. cbn.
    specialize (IH _ eq_refl). lia.
Qed.

Lemma remove_first_ev_incl : forall P e l l',
  remove_first_ev e l = Some l' -> Forall P l -> Forall P l'.
Proof.
  induction l as [|x l IH]; intros l' H HF; [discriminate|].
  inversion_clear HF. cbn in H. destruct (event_eqb x e); [injection H as <-; auto|].
  destruct (remove_first_ev e l); [|discriminate]. injection H as <-. constructor; auto.
Qed.

Lemma clean_up_history_frame : forall P fuel s, Forall P (s_hist s) ->
  Forall P (s_hist (clean_up_history cs fuel s)) /\
  s_seq (clean_up_history cs fuel s) = s_seq s.
Proof.
  induction fuel as [|fuel IH]; intros s HF; cbn [clean_up_history];
    destruct (s_hist s) as [|x r] eqn:Eh; try rewrite Eh; auto; try (cbn; rewrite Eh; auto).
  destruct (negb _); [rewrite Eh; auto|].
  destruct (history_might_match cs s); [rewrite Eh; auto|].
  destruct (remove_first_ev _ r) as [h|] eqn:Er; [|cbn; rewrite Eh; auto].
  inversion_clear HF. apply (IH (set_hist h s)). cbn.
  eapply remove_first_ev_incl; eauto.
Qed.

Lemma Forall_remove_at : forall A (P : A -> Prop) i l, Forall P l -> Forall P (remove_at i l).
Proof.
  induction i; intros l H; destruct l; cbn; auto; inversion_clear H; auto.
Qed.

Lemma drop_up_matched_Forall : forall P l, Forall P l -> Forall P (drop_up_matched l).
Proof.
  induction l as [|x l IH]; intros H; [auto|]. cbn. destruct (kstate_eqb (es x) UpMatched); auto.
  inversion_clear H; auto.
Qed.

Lemma suppress_frame : forall e s,
  same_match s (fst (suppress_not_timeout e s)) /\
  s_oof (fst (suppress_not_timeout e s)) = s_oof s /\
  s_ub (fst (suppress_not_timeout e s)) = s_ub s /\
  s_buf (fst (suppress_not_timeout e s)) = s_buf s /\
  s_any (fst (suppress_not_timeout e s)) = s_any s.
Proof.
  intros. unfold suppress_not_timeout.
  destruct (s_timeout s) as [c|]; [|split; [apply same_match_refl|tauto]].
  destruct (is_not_timeout _); [|split; [apply same_match_refl|tauto]].
  destruct (ek e =? k_timeout).
  - destruct (ev (ct_event c) =? ev e); [unfold same_match; cbn; tauto|].
    split; [apply same_match_refl|tauto].
  - destruct (kstate_eqb _ _ && _); [unfold same_match; cbn; tauto|].
    split; [apply same_match_refl|tauto].
Qed.

(** merge_repeat changes the sequence and the device indices only. *)
Lemma merge_repeat_frame : forall e dev s,
  let s' := fst (merge_repeat e dev s) in
  s_client s' = s_client s /\ s_active s' = s_active s /\ s_exit s' = s_exit s /\
  s_might s' = s_might s /\ s_hist s' = s_hist s /\ s_onrel s' = s_onrel s /\
  s_down s' = s_down s /\ s_timeout s' = s_timeout s /\ s_buf s' = s_buf s /\
  s_reapplied s' = s_reapplied s /\ s_any s' = s_any s /\ s_ub s' = s_ub s /\
  s_oof s' = s_oof s /\
  (s_seq s' = s_seq s \/ exists i, s_seq s' = remove_at i (s_seq s)).
Proof.
  intros e dev s. unfold merge_repeat.
  Local Ltac mfin := cbn; repeat match goal with |- _ /\ _ => split end; try reflexivity; try assumption;
                     first [left; reflexivity | right; eexists; reflexivity].
  destruct (es e); try (destruct (dev =? s_rdev s)%Z; mfin; fail).
  destruct (rfind_key (s_seq s) (ek e)) as [i|].
  - destruct (match nth_error (s_seq s) i with Some _ => _ | None => _ end).
    + destruct (s_might s) eqn:Em; [mfin; auto|].
      destruct (negb (dev =? no_device)%Z); [|mfin].
      destruct (dev =? s_pdev s)%Z; cbn;
        match goal with |- context [(dev =? ?x)%Z] => destruct (dev =? x)%Z end; mfin.
    + destruct (dev =? no_device)%Z; [mfin|].
      destruct (dev =? s_rdev s)%Z; mfin.
  - destruct (dev =? no_device)%Z; [mfin|].
    destruct (dev =? s_rdev s)%Z; mfin.
Qed.

Lemma add_to_history_frame : forall P e s,
  Forall P (s_hist s) -> P e ->
  Forall P (s_hist (add_to_history cs e s)) /\
  s_seq (add_to_history cs e s) = s_seq s /\ s_oof (add_to_history cs e s) = s_oof s.
Proof.
  intros P e s Hh He. unfold add_to_history.
  destruct (_ && _ && _); [|auto].
  set (b := match rfind_key (s_hist s) (ek e) with Some _ => _ | None => _ end).
  assert (Forall P (s_hist s ++ [e])) by (apply Forall_app; auto).
  destruct (es e); destruct b; cbn; auto.
Qed.

Lemma prepare_up_frame : forall (P : key -> Prop) e s,
  Forall (fun x => P (ek x)) (s_seq s) ->
  Forall (fun x => P (ek x)) (s_seq (prepare_up e s)) /\
  s_hist (prepare_up e s) = s_hist s /\ s_oof (prepare_up e s) = s_oof s.
Proof.
  intros P e s H. unfold prepare_up. destruct (kstate_eqb (es e) Up); [|auto].
  set (s1 := match s_timeout s with Some _ => _ | None => s end).
  assert (H1 : Forall (fun x => P (ek x)) (s_seq s1) /\ s_hist s1 = s_hist s /\ s_oof s1 = s_oof s).
  { unfold s1. destruct (s_timeout s) as [c|]; [destruct (ct_output c)|]; auto.
    cbn. split; [|auto]. apply Forall_map. eapply Forall_impl; [|exact H].
    intros x Hx. destruct (kstate_eqb (es x) Down); exact Hx. }
  destruct H1 as [H1 [H2 H3]].
  destruct (s_might s1); [auto|].
  destruct (find_key (s_seq s1) (ek e)) as [i|]; [|cbn; auto].
  destruct (nth_error (s_seq s1) i) as [x|]; [|auto].
  destruct (kstate_eqb (es x) DownMatched); [|auto].
  cbn. split; [|auto]. apply Forall_remove_at. exact H1.
Qed.

(** The result of C09 for one event. *)
Theorem update_terminates : forall e dev s,
  no_none (s_seq s) -> no_none (s_hist s) -> ek e <> k_none ->
  s_oof (fst (update cs e dev s)) = s_oof s /\
  no_none (s_seq (fst (update cs e dev s))) /\ no_none (s_hist (fst (update cs e dev s))).
Proof.
  intros e dev s Hq Hh He. unfold update. cbn [fst].
  set (s0 := set_exit _ s).
  change (s_oof (apply_input cs e dev s0) = s_oof s0 /\
          no_none (s_seq (apply_input cs e dev s0)) /\ no_none (s_hist (apply_input cs e dev s0))).
  change (no_none (s_seq s0)) in Hq. change (no_none (s_hist s0)) in Hh.
  clearbody s0. clear s. rename s0 into s. unfold apply_input.
  pose proof (continue_frame e None s) as Hc.
  destruct (continue_output_on_release e None s) as [s1 go1]. cbn [fst] in Hc.
  assert (H1 : s_oof s1 = s_oof s /\ s_seq s1 = s_seq s /\ s_hist s1 = s_hist s)
    by (unfold same_app in Hc; intuition).
  destruct H1 as [H1 [H1q H1h]].
  destruct go1; cbn [negb]; [|rewrite H1q, H1h; auto].
  destruct (suppress_frame e s1) as [Hs [Hs1 _]].
  destruct (suppress_not_timeout e s1) as [s2 go2]. cbn [fst] in *.
  assert (H2 : s_seq s2 = s_seq s /\ s_hist s2 = s_hist s) by (unfold same_match in Hs; intuition congruence).
  destruct H2 as [H2q H2h].
  destruct go2; cbn [negb]; [|rewrite H2q, H2h; intuition congruence].
  pose proof (merge_repeat_frame e dev s2) as Hm.
  destruct (merge_repeat e dev s2) as [s3 go3]. cbn [fst] in Hm.
  assert (H3 : s_oof s3 = s_oof s2 /\ s_hist s3 = s_hist s2 /\ no_none (s_seq s3)).
  { destruct Hm as (_ & _ & _ & _ & Hmh & _ & _ & _ & _ & _ & _ & _ & Hmo & Hms).
    split; [exact Hmo|]. split; [exact Hmh|].
    destruct Hms as [Hms | [i Hms]]; rewrite Hms, H2q; [auto|].
    apply Forall_remove_at. auto. }
  destruct H3 as [H3 [H3h H3q]].
  destruct go3; cbn [negb]; [|split; [congruence|split; [auto|rewrite H3h, H2h; auto]]].
  unfold process_input.
  set (s4 := set_seq (s_seq s3 ++ [e]) s3).
  assert (H4 : no_none (s_seq s4)).
  { unfold s4. cbn. apply no_none_app. split; [auto|]. constructor; auto. }
  destruct (add_to_history_frame (fun x => ek x <> k_none) e s4) as [H5h [H5q H5o]];
    [cbn; rewrite H3h, H2h; auto|auto|].
  set (s5 := add_to_history cs e s4) in *.
  pose proof (update_active_frame cs s5) as Hu. set (s6 := update_active_contexts cs s5) in *.
  assert (H6 : s_oof s6 = s_oof s5 /\ s_seq s6 = s_seq s5 /\ s_hist s6 = s_hist s5)
    by (unfold same_ctx in Hu; intuition).
  destruct H6 as [H6o [H6q H6h]].
  destruct (prepare_up_frame (fun k => k <> k_none) e s6) as [H7q [H7h H7o]];
    [rewrite H6q, H5q; exact H4|].
  set (s7 := prepare_up e s6) in *.
  set (s8 := unsuppress s7).
  destruct (apply_loop_run e dev (weight (s_seq s8)) s8) as [n [Hn [_ Hl]]];
    [lia|exact H7q|cbn; rewrite H7h, H6h; exact H5h|].
  set (s9 := apply_loop cs (weight (s_seq s8)) e dev s8) in *. cbn zeta in Hl.
  destruct Hl as (Hl1 & Hl2 & Hl3 & _).
  unfold finish_input.
  set (s10 := if kstate_eqb (es e) Up then release_triggered (ek e) None s9 else s9).
  assert (H10 : s_oof s10 = s_oof s9 /\ s_seq s10 = s_seq s9 /\ s_hist s10 = s_hist s9).
  { unfold s10. destruct (kstate_eqb (es e) Up); [|auto].
    pose proof (release_frame (ek e) None s9) as Hr. unfold same_rel in Hr. intuition. }
  destruct H10 as [H10o [H10q H10h]].
  pose proof (update_active_frame cs s10) as Hu2. set (s11 := update_active_contexts cs s10) in *.
  assert (H11 : s_oof s11 = s_oof s10 /\ s_seq s11 = s_seq s10 /\ s_hist s11 = s_hist s10)
    by (unfold same_ctx in Hu2; intuition).
  destruct H11 as [H11o [H11q H11h]].
  set (s12 := set_seq (drop_up_matched (s_seq s11)) s11).
  set (s13 := match s_seq s12 with [] => set_timeout None s12 | _ => s12 end).
  assert (H13 : s_oof s13 = s_oof s11 /\ s_seq s13 = drop_up_matched (s_seq s11) /\ s_hist s13 = s_hist s11).
  { unfold s13. destruct (s_seq s12) eqn:E12; cbn in *; auto. }
  destruct H13 as [H13o [H13q H13h]].
  set (s14 := set_reapplied false s13).
  assert (Hh14 : no_none (s_hist s14)).
  { cbn. rewrite H13h, H11h, H10h, Hl2. cbn. rewrite H7h, H6h. exact H5h. }
  destruct (clean_up_history_frame (fun x => ek x <> k_none) (length (s_hist s14)) s14 Hh14) as [H15h H15q].
  split; [|split; [|exact H15h]].
  - rewrite clean_up_history_term by lia. cbn. rewrite H13o, H11o, H10o, Hl1. cbn.
    rewrite H7o, H6o, H5o. cbn. congruence.
  - rewrite H15q. cbn. rewrite H13q. apply drop_up_matched_Forall. rewrite H11q, H10q. exact Hl3.
Qed.

End WithContexts.
