(** C113 after a history: a stage which tells that it is clear is at rest, with assumptions
    and a non-trivial instance beside each theorem. *)
From Coq Require Import String Ascii List Arith NArith ZArith Bool Lia.
From Verif Require Import Base Key Match MatchSpec MatchProofs MatchMore MatchLang Stage Text TextSpec ParseSeq Config MultiStage Replay.
From Verif Require Import StageSpec StageSafe StageShape StageRel StageRoute StageProperties MultiSpec MultiProofs MultiProperties.
From Verif Require Import StuckSpec StageStuck StuckProperties StringInputSpec StringInputProofs StringInputProperties TriggerSpec TriggerProofs TriggerProperties.
Import ListNotations.
Local Open Scope N_scope.

(** * The calls of the history *)

(** Keys and changes of the active contexts, but no timeouts *)
Definition keys_and_contexts (c : call) : Prop :=
  match c with
  | CInput e _ => ek e <> k_timeout
  | CContexts _ => True
  | CValidate _ => False
  end.

(** * Proofs *)

Lemma clean_reapplied cs n : forall s, s_reapplied (clean_up_history cs n s) = s_reapplied s.
Proof.
  induction n as [|n IH]; intros s; cbn [clean_up_history]; destruct (s_hist s) as [|x r]; try reflexivity.
  - destruct (negb _); [reflexivity|]. destruct (history_might_match _ _); [reflexivity|]. destruct (remove_first_ev _ _); [|reflexivity]. rewrite IH. reflexivity.
Qed.
Lemma finish_reapplied cs e s : s_reapplied (finish_input cs e s) = false.
Proof. unfold finish_input. cbv zeta. rewrite clean_reapplied. reflexivity. Qed.

Lemma suppress_goes e s : ek e <> k_timeout -> exists s', suppress_not_timeout e s = (s', true) /\ s_reapplied s' = s_reapplied s.
Proof.
  intro NT. unfold suppress_not_timeout. destruct (s_timeout s) as [c|]; [|eauto]. destruct (is_not_timeout _); [|eauto].
  apply N.eqb_neq in NT. rewrite NT. destruct (kstate_eqb _ _ && _); eexists; split; reflexivity.
Qed.

Lemma update_reapplied cs e dev s : wf_event e -> ek e <> k_timeout -> s_reapplied s = false ->
  s_reapplied (fst (update cs e dev s)) = false.
Proof.
  intros (_ & WF) NT R. unfold update. cbn [fst]. set (s0 := set_exit _ s). assert (R0 : s_reapplied s0 = false) by exact R. clearbody s0. clear s R.
  change (s_reapplied (set_buf [] (apply_input cs e dev s0))) with (s_reapplied (apply_input cs e dev s0)).
  unfold apply_input.
  assert (A : (snd (continue_output_on_release e None s0) = true /\ es e = Up) \/ s_reapplied (fst (continue_output_on_release e None s0)) = false).
  { destruct WF as [(D & _)|(U & _)].
    - right. unfold continue_output_on_release. destruct (find_index _ _); [rewrite D|]; exact R0.
    - left. split; [|exact U]. unfold continue_output_on_release. destruct (find_index _ _); [rewrite U; destruct (nth_error _ _)|]; reflexivity. }
  destruct (continue_output_on_release e None s0) as [s1 go]. cbn [fst snd] in A. destruct A as [[-> U]|R1].
  - cbn [negb]. destruct (suppress_goes e s1 NT) as (s2 & -> & _). cbn [negb].
    unfold merge_repeat. rewrite U. cbn [negb]. unfold process_input. cbv zeta. apply finish_reapplied.
  - destruct go; [|exact R1]. cbn [negb]. destruct (suppress_goes e s1 NT) as (s2 & -> & R2). cbn [negb]. rewrite R1 in R2.
    destruct (merge_repeat e dev s2) as [s3 go3] eqn:M. destruct go3; cbn [negb]; [unfold process_input; cbv zeta; apply finish_reapplied|].
    unfold merge_repeat in M. destruct (es e); try discriminate M.
    destruct (rfind_key (s_seq s2) (ek e)) as [i|]; [|discriminate M].
    match type of M with (if ?b then _ else _) = _ => destruct b; [|discriminate M] end.
    destruct (s_might s2); [injection M as <-; exact R2|]. destruct (negb (dev =? no_device)%Z); [|discriminate M]. cbv zeta in M.
    match type of M with (if ?b then _ else _) = _ => destruct b; [|discriminate M] end. injection M as <-. destruct (dev =? s_pdev s2)%Z; exact R2.
Qed.

Lemma contexts_reapplied cs l s : TriggerProperties.no_context_active cs -> s_reapplied s = false ->
  s_reapplied (fst (set_active_client_contexts cs l s)) = false.
Proof.
  intros NC R. unfold set_active_client_contexts, cancel_inactive_output_on_release, update_active_contexts. cbv zeta. cbn [fst].
  set (s0 := set_client l s). assert (R0 : s_reapplied s0 = false) by exact R. clearbody s0. clear s R.
  assert (ST : forall e p u, s_reapplied u = false -> s_reapplied (on_context_active_event cs e p u) = false).
  { intros e p u A. unfold on_context_active_event. destruct (nth_error cs p) as [c|] eqn:NT; [|exact A].
    apply nth_error_In in NT. unfold TriggerProperties.no_context_active in NC. rewrite Forall_forall in NC. specialize (NC c NT).
    assert (F : find (fun i => match in_seq i with x :: _ => ek x =? k_ContextActive | [] => false end) (cx_inputs c) = None).
    { clear -NC. induction NC as [|i r H _ IH]; [reflexivity|]. cbn [find].
      destruct (in_seq i) as [|x q]; [exact IH|]. destruct (N.eqb_spec (ek x) k_ContextActive); [contradiction|exact IH]. }
    rewrite F. unfold ub_unless. destruct (forallb _ _); exact A. }
  assert (FO : forall e ps u, s_reapplied u = false -> s_reapplied (fold_left (fun s p => on_context_active_event cs e p s) ps u) = false).
  { intros e ps. induction ps as [|p ps IH]; intros u A; [exact A|]. cbn [fold_left]. apply IH, ST, A. }
  destruct (eval_active cs (s_seq s0) (s_client s0) []) as [act|]; [|exact R0].
  match goal with |- s_reapplied (set_buf [] (set_onrel _ ?x)) = _ => change (s_reapplied x = false) end.
  apply FO, FO. exact R0.
Qed.

Lemma run_reapplied cs : TriggerProperties.no_context_active cs -> forall l s, Forall (wf_call cs) l -> Forall keys_and_contexts l -> s_reapplied s = false ->
  s_reapplied (fst (run cs l s)) = false.
Proof.
  intros NC l. induction l as [|c l IH] using rev_ind; intros s W K R; [exact R|].
  apply Forall_app in W, K. destruct W as [W Wc], K as [K Kc]. rewrite run_snoc. cbn [fst].
  apply Forall_inv in Wc, Kc. specialize (IH s W K R). destruct c as [e dev|il|f]; [| |contradiction]; cbn [do_call].
  - apply update_reapplied; [apply Wc|exact Kc|exact IH].
  - now apply contexts_reapplied.
Qed.

Lemma run_buffer cs l s : s_buf s = [] -> Forall keys_and_contexts l -> s_buf (fst (run cs l s)) = [].
Proof.
  intros B K. induction l as [|c l IH] using rev_ind; [exact B|]. rewrite run_snoc. cbn [fst]. apply Forall_app in K. destruct K as [_ K].
  apply Forall_inv in K. destruct c; [reflexivity|reflexivity|contradiction].
Qed.

Lemma run_append cs b : forall l s, run cs (l ++ b) s =
  (fst (run cs b (fst (run cs l s))), snd (run cs l s) ++ snd (run cs b (fst (run cs l s)))).
Proof.
  induction l as [|c l IH]; intros s; cbn [app run]; [cbn [fst snd app]; now destruct (run cs b s)|].
  destruct (do_call cs c s) as [s1 o1]. rewrite IH. destruct (run cs l s1) as [s2 o2]. cbn [fst snd]. now rewrite app_assoc.
Qed.

(** * The theorems *)

(** Whatever was typed and whichever contexts became active before: when the stage tells that
    it is clear, it is at rest. *)
Theorem C113_clear : forall cs l, wf_config cs -> Forall (fun c => cx_mods c = []) cs -> TriggerProperties.no_context_active cs ->
  Forall (wf_call cs) l -> wheels_ok l -> Forall keys_and_contexts l ->
  is_clear (fst (run cs l init_state)) = true -> at_rest cs (fst (run cs l init_state)).
Proof.
  intros cs l WF NM NC W WH K C.
  pose proof (run_reapplied cs NC l init_state W K eq_refl) as RA. pose proof (run_buffer cs l init_state eq_refl K) as BU.
  assert (NT : no_timeout_filter cs).
  { unfold no_timeout_filter. eapply Forall_impl; [|exact NM]. cbn beta. intros c ->. constructor. }
  assert (NV : Forall (fun c => is_validate c = false) l).
  { eapply Forall_impl; [|exact K]. intros [] H; [reflexivity|reflexivity|contradiction]. }
  destruct (run_active cs l WF NT W NV) as [[_ EA] _]. destruct (reach_inv cs WF l W WH) as [m IV]. pose proof (inv_active _ _ _ IV) as BD.
  set (s := fst (run cs l init_state)) in *. clearbody s. unfold is_clear in C.
  destruct (s_down s) eqn:E1; [|discriminate C]. destruct (s_onrel s) eqn:E2; [|discriminate C]. destruct (s_seq s) eqn:E3; [|discriminate C].
  destruct (s_hist s) eqn:E4; [|discriminate C]. destruct (s_timeout s) eqn:E5; [discriminate C|]. apply andb_true_iff in C. destruct C as [_ C].
  apply negb_true_iff in C. split; assumption.
Qed.
Print Assumptions C113_clear.

(** So after any history which left the stage clear the events which complete a mapping are
    replaced by its output.  Missing as in C113_replaced_partial, and histories with timeouts
    or after which something is held. *)
Theorem C113_again_partial : forall cs l dev pre e o, wf_config cs -> steady cs -> TriggerProperties.no_context_active cs ->
  Forall (wf_call cs) l -> wheels_ok l -> Forall keys_and_contexts l ->
  let s := fst (run cs l init_state) in is_clear s = true ->
  typing_keys (pre ++ [e]) -> es e = Down ->
  (forall p q, pre = p ++ q -> p <> [] -> waits cs (s_active s) dev p) ->
  fires cs (s_active s) dev (pre ++ [e]) o -> plain_output o ->
  snd (run cs (l ++ fed dev pre) init_state) = snd (run cs l init_state) /\
  snd (run cs (l ++ fed dev (pre ++ [e])) init_state) = snd (run cs l init_state) ++ shown o.
Proof.
  intros cs l dev pre e o WF ST NC W WH K s C TK DE WA FI PO.
  pose proof (C113_clear cs l WF (proj1 ST) NC W WH K C) as AR. fold s in AR.
  destruct (C113_replaced_partial cs s dev pre e o ST AR TK DE WA FI PO) as [A B].
  rewrite !run_append. cbn [snd]. fold s. rewrite A, B, app_nil_r. auto.
Qed.
Print Assumptions C113_again_partial.

Definition again_history : list call := CContexts [0%nat] :: fed 0 (ev_at "+A -A +B +C -B -C +D -D +A +E -E -A +F -F").
(** The first mapping was used before, another one too, and the third one in between;
    the conditions on what is typed next are those of C113_case. *)
Example C113_again_case :
  wf_config rest_cfg /\ steady rest_cfg /\ TriggerProperties.no_context_active rest_cfg /\
  Forall (wf_call rest_cfg) again_history /\ wheels_ok again_history /\ Forall keys_and_contexts again_history /\
  is_clear (fst (run rest_cfg again_history init_state)) = true /\
  s_active (fst (run rest_cfg again_history init_state)) = s_active rest_state /\
  fmt (snd (run rest_cfg again_history init_state)) = "+X -X +Z -Z +Y -Y +Y +E -E -Y +F -F"%string /\
  fmt (snd (run rest_cfg (again_history ++ fed 0 (ev_at "+A -A +B +C")) init_state)) = "+X -X +Z -Z +Y -Y +Y +E -E -Y +F -F +X -X +Z -Z"%string.
Proof.
  destruct C113_contexts_case as (A & B & _). split; [exact A|]. split; [exact rest_steady|]. split; [exact B|].
  split; [apply (wf_call_dec rest_cfg); vm_compute; reflexivity|].
  split; [right; vm_compute; repeat constructor|]. split; [vm_compute; repeat (constructor; try discriminate)|].
  vm_compute. repeat split; reflexivity.
Qed.
