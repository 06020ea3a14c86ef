(** What the operations of the stage leave unchanged. *)
From Coq Require Import List Arith NArith ZArith Bool Lia.
From Verif Require Import Base Key Match Stage.
Import ListNotations.
Local Open Scope N_scope.

(** Everything but m_output_down, the buffer and m_temporary_reapplied. *)
Definition same_out (s s' : state) : Prop :=
  s_client s' = s_client s /\ s_active s' = s_active s /\ s_exit s' = s_exit s /\
  s_seq s' = s_seq s /\ s_might s' = s_might s /\ s_pdev s' = s_pdev s /\
  s_rdev s' = s_rdev s /\ s_hist s' = s_hist s /\ s_onrel s' = s_onrel s /\
  s_timeout s' = s_timeout s /\ s_any s' = s_any s /\ s_ub s' = s_ub s /\ s_oof s' = s_oof s.

(** As before, m_output_on_release may change as well. *)
Definition same_app (s s' : state) : Prop :=
  s_client s' = s_client s /\ s_active s' = s_active s /\ s_exit s' = s_exit s /\
  s_seq s' = s_seq s /\ s_might s' = s_might s /\ s_pdev s' = s_pdev s /\
  s_rdev s' = s_rdev s /\ s_hist s' = s_hist s /\
  s_timeout s' = s_timeout s /\ s_any s' = s_any s /\ s_ub s' = s_ub s /\ s_oof s' = s_oof s.

Lemma same_out_refl : forall s, same_out s s.
Proof. intros; unfold same_out; intuition. Qed.
Lemma same_out_trans : forall a b c, same_out a b -> same_out b c -> same_out a c.
Proof. unfold same_out; intuition congruence. Qed.
Lemma same_app_refl : forall s, same_app s s.
Proof. intros; unfold same_app; intuition. Qed.
Lemma same_app_trans : forall a b c, same_app a b -> same_app b c -> same_app a c.
Proof. unfold same_app; intuition congruence. Qed.
Lemma same_out_app : forall a b, same_out a b -> same_app a b.
Proof. unfold same_out, same_app; intuition. Qed.

Lemma update_output_frame : forall e t ci s, same_out s (update_output e t ci s).
Proof.
  intros e t ci s. unfold update_output.
  destruct (es e); try apply same_out_refl;
    try (destruct (find_index _ (s_down s)) as [i|]); try apply same_out_refl.
  - destruct (nth_error (s_down s) i) as [o|]; [|apply same_out_refl].
    destruct (od_twice o && is_virtual_key (ek e)); [unfold same_out; cbn; intuition|].
    destruct (od_twice o && negb (od_suppressed o)).
    + destruct (rfind_key (s_buf s) (ek e)); unfold same_out; cbn; intuition.
    + unfold same_out; cbn; intuition.
  - destruct (reapply_loop (ek e) (s_down s) (s_buf s) (s_reapplied s)) as [[[d b] rea] ret].
    destruct ret; [unfold same_out; cbn; intuition|].
    cbn [s_reapplied set_reapplied]. destruct rea; unfold same_out; cbn; intuition.
  - destruct (reapply_loop (ek e) (s_down s) (s_buf s) (s_reapplied s)) as [[[d b] rea] ret].
    destruct ret; [unfold same_out; cbn; intuition|].
    destruct (ek e =? k_timeout); unfold same_out; cbn; intuition.
  - destruct (is_virtual_key (ek e) || is_action_key (ek e)); [apply same_out_refl|].
    destruct (nth_error (s_down s) i) as [o|]; [|apply same_out_refl].
    destruct (od_temp o); unfold same_out; cbn; intuition.
Qed.

Lemma fold_update_frame : forall st t ci ks s,
  same_out s (fold_left (fun s k => update_output (ev0 k st) t ci s) ks s).
Proof.
  induction ks as [|k ks IH]; intros s; [apply same_out_refl|].
  cbn [fold_left]. eapply same_out_trans; [apply update_output_frame|apply IH].
Qed.

Lemma apply_output_frame : forall sq t ci s, same_app s (apply_output sq t ci s).
Proof.
  induction sq as [|e r IH]; intros t ci s; [apply same_app_refl|].
  cbn [apply_output].
  destruct (ek e =? k_any).
  - eapply same_app_trans; [|apply IH]. apply same_out_app.
    destruct (es e); apply fold_update_frame.
  - destruct (es e);
      try (eapply same_app_trans; [apply same_out_app, update_output_frame|apply IH]).
    + destruct (is_virtual_key (ek e)).
      * eapply same_app_trans; [|apply IH].
        destruct (existsb _ (s_seq s)); [apply same_out_app, update_output_frame|apply same_app_refl].
      * eapply same_app_trans; [apply same_out_app, update_output_frame|apply IH].
    + destruct (es (get_trigger_event t)); try apply IH. unfold same_app; cbn; intuition.
Qed.

(** Outputs triggered by a release never add to m_output_on_release, so that the
    iterator held at Stage.cpp:689-690 stays valid. *)
Lemma apply_output_released : forall sq t ci s,
  es (get_trigger_event t) <> Down -> same_out s (apply_output sq t ci s).
Proof.
  induction sq as [|e r IH]; intros t ci s Ht; [apply same_out_refl|].
  cbn [apply_output].
  destruct (ek e =? k_any).
  - eapply same_out_trans; [|apply IH; auto].
    destruct (es e); apply fold_update_frame.
  - destruct (es e);
      try (eapply same_out_trans; [apply update_output_frame|apply IH; auto]).
    + destruct (is_virtual_key (ek e)).
      * eapply same_out_trans; [|apply IH; auto].
        destruct (existsb _ (s_seq s)); [apply update_output_frame|apply same_out_refl].
      * eapply same_out_trans; [apply update_output_frame|apply IH; auto].
    + destruct (es (get_trigger_event t)) eqn:E; try (apply IH; congruence). congruence.
Qed.

Lemma continue_frame : forall e ci s, same_app s (fst (continue_output_on_release e ci s)).
Proof.
  intros e ci s. unfold continue_output_on_release.
  destruct (find_index _ (s_onrel s)) as [i|]; [|apply same_app_refl].
  destruct (es e); try apply same_app_refl;
    (destruct (nth_error (s_onrel s) i) as [o|]; [|apply same_app_refl];
     cbn [fst]; eapply same_app_trans; [apply apply_output_frame|]; unfold same_app; cbn; intuition).
Qed.

(** release_triggered changes only the held output, the buffer and the timeout. *)
Definition same_rel (s s' : state) : Prop :=
  s_client s' = s_client s /\ s_active s' = s_active s /\ s_exit s' = s_exit s /\
  s_seq s' = s_seq s /\ s_might s' = s_might s /\ s_pdev s' = s_pdev s /\
  s_rdev s' = s_rdev s /\ s_hist s' = s_hist s /\
  s_any s' = s_any s /\ s_ub s' = s_ub s /\ s_oof s' = s_oof s.
Lemma same_rel_refl : forall s, same_rel s s.
Proof. intros; unfold same_rel; intuition. Qed.
Lemma same_rel_trans : forall a b c, same_rel a b -> same_rel b c -> same_rel a c.
Proof. unfold same_rel; intuition congruence. Qed.
Lemma same_app_rel : forall a b, same_app a b -> same_rel a b.
Proof. unfold same_app, same_rel; intuition. Qed.
Lemma same_out_rel : forall a b, same_out a b -> same_rel a b.
Proof. unfold same_out, same_rel; intuition. Qed.

Lemma release_frame : forall k ci s, same_rel s (release_triggered k ci s).
Proof.
  intros k ci s. unfold release_triggered.
  destruct (s_timeout _) as [c|]; [destruct (ct_trigger c =? k)|]; unfold same_rel; cbn; intuition.
Qed.

(** forward_from_sequence: as release_triggered, and the sequence. *)
Definition same_fwd (s s' : state) : Prop :=
  s_client s' = s_client s /\ s_active s' = s_active s /\ s_exit s' = s_exit s /\
  s_might s' = s_might s /\ s_pdev s' = s_pdev s /\
  s_rdev s' = s_rdev s /\ s_hist s' = s_hist s /\
  s_any s' = s_any s /\ s_ub s' = s_ub s /\ s_oof s' = s_oof s.
Lemma same_fwd_trans : forall a b c, same_fwd a b -> same_fwd b c -> same_fwd a c.
Proof. unfold same_fwd; intuition congruence. Qed.
Lemma same_rel_fwd : forall a b, same_rel a b -> same_fwd a b.
Proof. unfold same_rel, same_fwd; intuition. Qed.
Lemma set_seq_fwd : forall x s, same_fwd s (set_seq x s).
Proof. intros; unfold same_fwd; cbn; intuition. Qed.

(** The rewriting of the sequence by forward_from_sequence. *)
Fixpoint forward_seq (pre l : sequence) : sequence :=
  match l with
  | [] => pre
  | e :: r =>
      match es e with
      | Down | DownMatched =>
          if contains_ev (e :: r) (ev0 (ek e) Up) then pre ++ r
          else match es e with
               | Down => pre ++ set_es DownMatched e :: r
               | _ => forward_seq (pre ++ [e]) r
               end
      | _ => pre ++ r
      end
  end.

Lemma forward_loop_frame : forall l pre s,
  s_seq s = pre ++ l ->
  same_fwd s (forward_loop pre l s) /\ s_seq (forward_loop pre l s) = forward_seq pre l.
Proof.
  induction l as [|e r IH]; intros pre s Hs.
  - cbn. rewrite app_nil_r in Hs. split; [unfold same_fwd; intuition|exact Hs].
  - cbn [forward_loop forward_seq]. destruct (es e) eqn:Ee;
      try (split; [eapply same_fwd_trans; [apply same_rel_fwd, release_frame|apply set_seq_fwd]
                  |reflexivity]).
    + destruct (contains_ev _ _).
      * split; [|reflexivity].
        eapply same_fwd_trans; [apply same_rel_fwd, same_out_rel, update_output_frame|apply set_seq_fwd].
      * split; [|reflexivity].
        eapply same_fwd_trans; [|apply set_seq_fwd]. apply same_rel_fwd, same_out_rel.
        destruct (s_timeout s) as [c|]; [destruct (ct_output c)|];
          try apply same_out_refl; apply update_output_frame.
    + destruct (contains_ev _ _).
      * split; [|reflexivity].
        eapply same_fwd_trans; [apply same_rel_fwd, same_out_rel, update_output_frame|apply set_seq_fwd].
      * apply IH. rewrite <- app_assoc. exact Hs.
Qed.

Lemma forward_frame : forall s,
  same_fwd s (forward_from_sequence s) /\
  s_seq (forward_from_sequence s) = forward_seq [] (s_seq s).
Proof. intros s. apply forward_loop_frame. reflexivity. Qed.

Section WithContexts.
Variable cs : list context.

(** Context changes: s_seq, s_hist and so on stay. *)
Definition same_ctx (s s' : state) : Prop :=
  s_client s' = s_client s /\ s_exit s' = s_exit s /\
  s_seq s' = s_seq s /\ s_might s' = s_might s /\ s_pdev s' = s_pdev s /\
  s_rdev s' = s_rdev s /\ s_hist s' = s_hist s /\
  s_any s' = s_any s /\ s_oof s' = s_oof s.
Lemma same_ctx_refl : forall s, same_ctx s s.
Proof. intros; unfold same_ctx; intuition. Qed.
Lemma same_ctx_trans : forall a b c, same_ctx a b -> same_ctx b c -> same_ctx a c.
Proof. unfold same_ctx; intuition congruence. Qed.
Lemma same_rel_ctx : forall a b, same_rel a b -> same_ctx a b.
Proof. unfold same_rel, same_ctx; intuition. Qed.

Lemma on_context_frame : forall e ci s,
  same_ctx s (on_context_active_event cs e ci s) /\
  s_active (on_context_active_event cs e ci s) = s_active s.
Proof.
  intros e ci s. unfold on_context_active_event.
  destruct (nth_error cs ci) as [c|]; [|split; [unfold same_ctx; cbn; intuition|reflexivity]].
  set (s1 := ub_unless _ s).
  assert (H1 : same_ctx s s1 /\ s_active s1 = s_active s).
  { unfold s1, ub_unless. destruct (forallb _ _); [split; [apply same_ctx_refl|reflexivity]|].
    split; [unfold same_ctx; cbn; intuition|reflexivity]. }
  destruct H1 as [H1 H1'].
  destruct (find _ (cx_inputs c)) as [i|]; [|auto].
  assert (HA : same_ctx s (let '(s0, _) := continue_output_on_release e (Some ci) s1 in
                   release_triggered (ek e) (Some ci) s0) /\
               s_active (let '(s0, _) := continue_output_on_release e (Some ci) s1 in
                   release_triggered (ek e) (Some ci) s0) = s_active s).
  { pose proof (continue_frame e (Some ci) s1) as Hc.
    destruct (continue_output_on_release e (Some ci) s1) as [s2 b]. cbn [fst] in Hc.
    pose proof (release_frame (ek e) (Some ci) s2) as Hr.
    split.
    - eapply same_ctx_trans; [exact H1|]. eapply same_ctx_trans; apply same_rel_ctx;
        [apply same_app_rel, Hc|apply Hr].
    - unfold same_app in Hc. unfold same_rel in Hr. intuition congruence. }
  destruct (es e); try exact HA.
  destruct (find_output _ _ _ _ _) as [r o| |].
  - pose proof (apply_output_frame o (TEvent e) (Some ci) s1) as Ha.
    split.
    + eapply same_ctx_trans; [exact H1|]. apply same_rel_ctx, same_app_rel, Ha.
    + unfold same_app in Ha. intuition congruence.
  - auto.
  - split; [|exact H1']. eapply same_ctx_trans; [exact H1|]. unfold same_ctx; cbn; intuition.
Qed.

Lemma fold_context_frame : forall e l s,
  same_ctx s (fold_left (fun s p => on_context_active_event cs e p s) l s) /\
  s_active (fold_left (fun s p => on_context_active_event cs e p s) l s) = s_active s.
Proof.
  induction l as [|p l IH]; intros s; [split; [apply same_ctx_refl|reflexivity]|].
  cbn [fold_left]. destruct (on_context_frame e p s) as [H1 H2].
  destruct (IH (on_context_active_event cs e p s)) as [H3 H4].
  split; [eapply same_ctx_trans; eauto|congruence].
Qed.

Lemma update_active_frame : forall s, same_ctx s (update_active_contexts cs s).
Proof.
  intros s. unfold update_active_contexts.
  destruct (eval_active cs (s_seq s) (s_client s) []) as [curr|];
    [|unfold same_ctx; cbn; intuition].
  eapply same_ctx_trans; [|apply fold_context_frame].
  eapply same_ctx_trans; [|apply fold_context_frame].
  unfold same_ctx; cbn; intuition.
Qed.

Lemma update_active_active : forall s curr,
  eval_active cs (s_seq s) (s_client s) [] = Some curr ->
  s_active (update_active_contexts cs s) = curr.
Proof.
  intros s curr H. unfold update_active_contexts. rewrite H.
  rewrite (proj2 (fold_context_frame _ _ _)), (proj2 (fold_context_frame _ _ _)). reflexivity.
Qed.

End WithContexts.
