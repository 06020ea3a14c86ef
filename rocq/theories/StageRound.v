(** Case analysis of one round of the processing loop. *)
From Coq Require Import List Arith NArith ZArith Bool Lia.
From Verif Require Import Base Key Match Stage StageFrame StageTerm.
Import ListNotations.
Local Open Scope N_scope.

Section WithContexts.
Variable cs : list context.

Definition key_up (e : event) : bool := kstate_eqb (es e) Up && negb (ek e =? k_timeout).

(** A mapping was found for the first [len] buffered events of [s]. *)
Definition found (e : event) (dev : Z) (s s' : state) (len : nat)
                 (r : oref) (o inp : sequence) (ci : nat) : Prop :=
  exists first s0 s1,
    same_match s s0 /\ (first = true -> s0 = s /\ len = length (s_seq s)) /\
    (first = false -> has_unmatched_down (firstn len (s_seq s)) = true /\ (len < length (s_seq s))%nat /\ s_might s = true) /\
    match_input cs first (firstn len (s_seq s)) dev (key_up e) s0 = (s1, RMatch r o inp ci) /\
    same_match s1 s' /\ s_any s' = s_any s1.

Inductive round_case (e : event) (dev : Z) (s : state) : state -> bool -> Prop :=
| RCVirtual : forall s1 res, is_virtual_key (ek e) = true ->
    match_input cs true (s_seq s) dev (key_up e) s = (s1, res) ->
    (forall r o inp ci, res <> RMatch r o inp ci) ->
    round_case e dev s (finish_sequence (length (s_seq s)) s1) true
| RCMight : forall s1 inp ci, is_virtual_key (ek e) = false ->
    match_input cs true (s_seq s) dev (key_up e) s = (s1, RMight inp ci) ->
    round_case e dev s (set_might true s1) true
| RCMatch : forall s2 len r o inp ci m,
    found e dev s s2 len r o inp ci -> (m = false \/ m = s_might s) ->
    round_case e dev s
      (set_might m (finish_sequence len (apply_output o (select_trigger e inp o s2) (Some ci) s2))) false
| RCForward : forall s2 m,
    same_match s s2 -> (m = false \/ m = s_might s) ->
    round_case e dev s (set_might m (forward_from_sequence s2)) false.

Lemma set_might_id : forall s, set_might (s_might s) s = s.
Proof. destruct s; reflexivity. Qed.

Lemma match_prefixes_found : forall n dev u s s' len res,
  match_prefixes cs n dev u s = (s', Some (len, res)) ->
  exists s0 s1 r o inp ci, res = RMatch r o inp ci /\ same_match s s0 /\
    has_unmatched_down (firstn len (s_seq s)) = true /\ (len < n)%nat /\
    match_input cs false (firstn len (s_seq s)) dev u s0 = (s1, res) /\ s' = s1.
Proof.
  induction n as [|n IH]; intros dev u s s' len res H; [discriminate|]. cbn [match_prefixes] in H.
  destruct (Nat.ltb 1 (S n)); [|discriminate].
  destruct (has_unmatched_down (firstn n (s_seq s))) eqn:Eu; cbn [negb] in H; [|discriminate].
  pose proof (proj1 (match_input_frame cs false (firstn n (s_seq s)) dev u s)) as Hf.
  destruct (match_input cs false (firstn n (s_seq s)) dev u s) as [s1 r1] eqn:Em. cbn [fst] in Hf.
  assert (Hs : s_seq s1 = s_seq s) by (unfold same_match in Hf; intuition).
  assert (G : match_prefixes cs n dev u s1 = (s', Some (len, res)) ->
    exists s0 s1 r o inp ci, res = RMatch r o inp ci /\ same_match s s0 /\
    has_unmatched_down (firstn len (s_seq s)) = true /\ (len < S n)%nat /\
    match_input cs false (firstn len (s_seq s)) dev u s0 = (s1, res) /\ s' = s1).
  { intros H'. destruct (IH _ _ _ _ _ _ H') as (t0 & t1 & r & o & inp & ci & H1 & H2 & H3 & H4 & H5 & H6).
    exists t0, t1, r, o, inp, ci. rewrite Hs in H3, H5.
    split; [exact H1|]. split; [eapply same_match_trans; eauto|]. split; [exact H3|].
    split; [lia|]. split; auto. }
  destruct r1 as [| |r o inp ci]; [exact (G H)|exact (G H)|].
  injection H as <- <- <-. exists s, s1, r, o, inp, ci.
  split; [reflexivity|]. split; [apply same_match_refl|]. split; [exact Eu|]. split; [lia|]. auto.
Qed.

Lemma round_cases : forall e dev s s' brk,
  apply_round cs e dev s = (s', brk) -> round_case e dev s s' brk.
Proof.
  intros e dev s s' brk H. unfold apply_round in H. fold (key_up e) in H.
  pose proof (proj1 (match_input_frame cs true (s_seq s) dev (key_up e) s)) as Hf.
  destruct (match_input cs true (s_seq s) dev (key_up e) s) as [s1 res] eqn:Em. cbn [fst] in Hf.
  assert (Hs1 : s_seq s1 = s_seq s /\ s_might s1 = s_might s) by (unfold same_match in Hf; intuition).
  destruct Hs1 as [Hs1 Hm1].
  destruct (is_virtual_key (ek e) && negb match res with RMatch _ _ _ _ => true | _ => false end) eqn:Ev.
  { injection H as <- <-. apply andb_prop in Ev. destruct Ev as [Ev1 Ev2].
    eapply RCVirtual; eauto. intros r o inp ci ->. discriminate. }
  assert (Htail : forall s2 len res so,
    same_match s s2 ->
    (forall r o inp ci, res = RMatch r o inp ci -> forall s3, same_match s2 s3 -> s_any s3 = s_any s2 -> found e dev s s3 len r o inp ci) ->
    (let '(s, res) := timeout_after_match e so res s2 in
        let s := not_timeout_after_match res s in
        match res with
        | RMatch _ o inp ci =>
            let t := select_trigger e inp o s in
            let s := apply_output o t (Some ci) s in
            let s := finish_sequence len s in
            ((if so then s else set_might false s), false)
        | _ =>
            let s := forward_from_sequence s in
            ((if s_might s && negb (has_non_optional (s_seq s)) then set_might false s else s),
             false)
        end) = (s', brk) -> round_case e dev s s' brk).
  { clear -cs. intros s2 len res so H2 Hfound H.
    pose proof (timeout_after_match_frame e so res s2) as (Ha & _ & _ & _ & Hany & Hr).
    destruct (timeout_after_match e so res s2) as [s3 r3]. cbn [fst snd] in *.
    pose proof (not_timeout_after_match_frame r3 s3) as (Hb & _ & _ & _ & Hany').
    set (s4 := not_timeout_after_match r3 s3) in *. clearbody s4. cbn zeta in H.
    assert (H4 : same_match s2 s4) by (eapply same_match_trans; eauto).
    assert (Hm4 : s_might s4 = s_might s) by (unfold same_match in H2, H4; intuition congruence).
    assert (Hfw : forall s' brk, ((if s_might (forward_from_sequence s4) && negb (has_non_optional (s_seq (forward_from_sequence s4)))
        then set_might false (forward_from_sequence s4) else forward_from_sequence s4), false) = (s', brk) ->
        round_case e dev s s' brk).
    { intros s'' brk' E.
      pose proof (proj1 (forward_frame s4)) as Hfw.
      assert (Hmf : s_might (forward_from_sequence s4) = s_might s) by (unfold same_fwd in Hfw; intuition congruence).
      assert (H5 : same_match s s4) by (eapply same_match_trans; eauto).
      set (fw := forward_from_sequence s4) in *.
      destruct (_ && negb _); injection E as <- <-; [eapply RCForward; eauto|].
      replace fw with (set_might (s_might s) fw) by (rewrite <- Hmf; apply set_might_id).
      eapply RCForward; eauto. }
    destruct r3 as [| |r o inp ci]; [exact (Hfw _ _ H)|exact (Hfw _ _ H)|].
    destruct Hr as [Hr|Hr]; [|discriminate].
    pose proof (proj1 (conj (apply_output_frame o (select_trigger e inp o s4) (Some ci) s4) I)) as Hap.
    assert (Hf : found e dev s s4 len r o inp ci).
    { eapply Hfound; [symmetry; exact Hr|exact H4|congruence]. }
    set (s5 := finish_sequence len (apply_output o (select_trigger e inp o s4) (Some ci) s4)) in *.
    assert (Hm5 : s_might s5 = s_might s) by (unfold s5; cbn; unfold same_app in Hap; intuition congruence).
    destruct so; injection H as <- <-.
    - replace s5 with (set_might (s_might s) s5) by (rewrite <- Hm5; apply set_might_id).
      eapply RCMatch; eauto.
    - eapply RCMatch; eauto. }
  destruct res as [|inp ci|r o inp ci].
  - cbn [negb] in H. destruct (s_might s1) eqn:E1; cbn [andb] in H.
    + destruct (match_prefixes cs (length (s_seq s)) dev (key_up e) s1) as [s2 [[len r]|]] eqn:Ep.
      * eapply (Htail s2 len r true); [| |exact H].
        -- pose proof (proj1 (match_prefixes_frame cs (length (s_seq s)) dev (key_up e) s1)) as Hp.
           rewrite Ep in Hp. eapply same_match_trans; eauto.
        -- intros r0 o inp ci Er s3 H3 Ha3.
           destruct (match_prefixes_found _ _ _ _ _ _ _ Ep) as (t0 & t1 & r' & o' & inp' & ci' & F1 & F2 & F3 & F4 & F5 & F6).
           rewrite Er in F5. subst t1.
           exists false, t0, s2. rewrite Hs1 in F3, F5.
           split; [eapply same_match_trans; eauto|]. split; [discriminate|]. split; [intuition congruence|]. auto.
      * eapply (Htail s2 (length (s_seq s)) RNo false); [| |exact H]; [|discriminate].
        pose proof (proj1 (match_prefixes_frame cs (length (s_seq s)) dev (key_up e) s1)) as Hp.
        rewrite Ep in Hp. eapply same_match_trans; eauto.
    + eapply (Htail s1 (length (s_seq s)) RNo false); [exact Hf|discriminate|exact H].
  - injection H as <- <-. destruct (is_virtual_key (ek e)) eqn:E; [discriminate|]. eapply RCMight; eauto.
  - cbn [negb andb] in H. eapply (Htail s1 (length (s_seq s)) (RMatch r o inp ci) false); [exact Hf| |exact H].
    intros r0 o0 inp0 ci0 Er s3 H3 Ha3. injection Er as <- <- <- <-.
    exists true, s, s1. split; [apply same_match_refl|]. split; [auto|]. split; [discriminate|].
    rewrite firstn_all. auto.
Qed.

End WithContexts.
