(** What the server hands to the virtual device are presses and releases (C74). *)
From Coq Require Import List Arith NArith ZArith Bool Lia SpecFloat.
From Verif Require Import Base Key Match Stage StageSpec StageShape MultiStage MultiSpec MultiProofs
  Server ServerLoop ServerSpec ServerProofs.
Import ListNotations.
Local Open Scope N_scope.

Definition any_key (k : key) : Prop := True.
Definition stroke (e : event) : Prop := es e = Down \/ es e = Up \/ ek e = k_timeout.

Lemma ok_stroke l : Forall (ok_out any_key) l -> Forall stroke l.
Proof. apply Forall_impl. intros e (_ & H & _). exact H. Qed.

Lemma update_strokes e dev ms : ok_seq any_key e -> stroke e -> kminv any_key ms ->
  kminv any_key (fst (m_update e dev ms)) /\ Forall stroke (snd (m_update e dev ms)).
Proof.
  intros He Hs [Hb Hst]. destruct ms as [st c b]. cbn [m_buf m_stages] in *. subst b.
  unfold m_update. cbn [m_buf m_stages m_client app]. destruct st as [|[cs s] r].
  - cbn. split; [split; [reflexivity|constructor]|constructor; [exact Hs|constructor]].
  - inversion_clear Hst. cbn [update_loop negb]. rewrite andb_false_r. cbn [andb feed_stage].
    destruct (kinv_stage any_key Logic.I dev cs e (s, []) He (conj H (Forall_nil _))) as [S1 S2].
    unfold sequence in *. destruct (update_stage dev cs e (s, [])) as [s1 o1]. cbn [fst snd] in *.
    destruct (kinv_later any_key Logic.I e dev r o1 He H0 S2) as [L1 L2].
    destruct (update_loop false e dev o1 r) as [r' o']. cbn [fst snd] in *.
    split; [split; [reflexivity|constructor; assumption]|apply ok_stroke; exact L2].
Qed.
Lemma contexts_strokes l ms : kminv any_key ms ->
  kminv any_key (m_reuse_buffer (fst (m_set_active_client_contexts l ms))) /\
  Forall stroke (snd (m_set_active_client_contexts l ms)).
Proof.
  intros [Hb Hst]. unfold m_set_active_client_contexts. rewrite Hb.
  destruct (kinv_contexts_loop any_key Logic.I l (m_stages ms) 0 [] Hst (Forall_nil _)) as [L1 L2].
  destruct (contexts_loop l 0 [] (m_stages ms)) as [l' o']. cbn [fst snd] in *.
  split; [split; [reflexivity|assumption]|apply ok_stroke; exact L2].
Qed.

Section Strokes.
Variable clock : nat -> Z.
Variable send_ok : nat -> bool.
Variable k : key.
Hypothesis not_timeout : k <> k_timeout.

Definition stroke_of (e : event) : Prop := ek e = k -> es e = Up \/ es e = Down.
Lemma stroke_stroke l : Forall stroke l -> Forall stroke_of l.
Proof. apply Forall_impl. intros e [H|[H|H]] E; auto. congruence. Qed.

(** The labels which keep this up *)
Definition plain (l : label) : Prop :=
  match l with
  | LFeed e _ => ok_seq any_key e /\ stroke e
  | LPush l => Forall stroke_of l
  | LClear m => kminv any_key m
  | _ => True
  end.
Lemma plain_closed : closed plain.
Proof.
  constructor; try (intros; exact Logic.I).
  - intros v e dev _. split; [split; [exact Logic.I|discriminate]|]. right. left. reflexivity.
  - intros k0 v dev W [[_ H] _]. split; [|left; reflexivity]. split; [exact Logic.I|]. intros _. right. exact W.
  - intros k0 st V S. split; [split; [exact Logic.I|intros _; left; reflexivity]|]. destruct S as [->| ->]; [left|right; left]; reflexivity.
Qed.

Definition trace_strokes (t : list effect) : Prop :=
  Forall (fun x => match x with ESend e _ => stroke_of e | _ => True end) t.
Record stroking (s : server) : Prop := {
  sk_stage : kminv any_key (sv_stage s);
  sk_buf : Forall stroke_of (sv_buf s);
  sk_trace : trace_strokes (sv_trace s)
}.

Lemma queue_strokes l t : trace_strokes t -> trace_strokes (rev (map EQueue l) ++ t).
Proof.
  intros H. apply Forall_app. split; [|exact H]. apply Forall_rev, Forall_map, Forall_forall. intros; exact Logic.I.
Qed.

Lemma keys_strokes e out : Forall stroke out -> Forall stroke_of (keys_of e out).
Proof.
  intros H. apply stroke_stroke. unfold keys_of.
  assert (G : Forall stroke (match request out with [] => out | _ => pop_back out end)).
  { destruct (request out); [exact H|]. unfold pop_back. clear -H. induction H as [|x l Hx H IH]; [constructor|].
    cbn [removelast]. destruct l; [constructor|constructor; assumption]. }
  unfold copy_delta. destruct (is_mouse_wheel (ek e)); [|exact G]. apply Forall_map. eapply Forall_impl; [|exact G].
  intros x Hx. cbn beta. destruct (_ && _); exact Hx.
Qed.

Lemma micro_strokes x l y : micro clock send_ok x l y -> plain l ->
  ~ is_exit l -> stroking (snd x) -> stroking (snd y).
Proof.
  intros M P X [H1 H2 H3]. destruct M; cbn [snd] in *.
  - destruct H as [E1 E2 _ _ (new & E3 & E4)]. split; [now rewrite E1|now rewrite E2|]. rewrite E3. apply Forall_app. split; [|exact H3].
    eapply Forall_impl; [|exact E4]. intros []; cbn; tauto.
  - destruct (m_update e dev (sv_stage s)) as [m out] eqn:E.
    destruct (feed_spec clock _ _ _ _ _ E) as (F1 & F2 & _ & _ & F5 & _).
    destruct P as [P1 P2]. destruct (update_strokes e dev (sv_stage s) P1 P2 H1) as [U1 U2]. rewrite E in U1, U2. cbn [fst snd] in *.
    split.
    + rewrite F1. destruct U1 as [U1 U1']. split; [reflexivity|exact U1'].
    + rewrite F2. apply Forall_app. split; [exact H2|]. apply keys_strokes. exact U2.
    + rewrite F5. apply queue_strokes. apply Forall_app. split; [|constructor; [exact Logic.I|exact H3]].
      unfold request. destruct (back out); [destruct (_ =? _)|]; repeat constructor.
  - exfalso. apply X. exact Logic.I.
  - destruct (push_all l s) as (F1 & F2 & _ & _ & F5 & _). split.
    + now rewrite F1.
    + rewrite F2. apply Forall_app. split; assumption.
    + rewrite F5. now apply queue_strokes.
  - unfold release_all_keys. match goal with |- context [send_key_sequence ?l s] => destruct (push_all l s) as (F1 & F2 & _ & _ & F5 & _) end. split.
    + now rewrite F1.
    + rewrite F2. apply Forall_app. split; [assumption|]. apply Forall_map, Forall_forall. intros q _ _. left. reflexivity.
    + rewrite F5. now apply queue_strokes.
  - split; [exact P|exact H2|exact H3].
  - split; [split; [reflexivity|constructor]|exact H2|exact H3].
  - destruct (contexts_strokes l (sv_stage s) H1) as [C1 C2]. rewrite H in C1, C2. cbn [fst snd] in *.
    destruct (push_all out s) as (F1 & F2 & _ & _ & F5 & _). split; cbn [put_stage sv_stage sv_buf sv_trace].
    + exact C1.
    + rewrite F2. apply Forall_app. split; [assumption|]. now apply stroke_stroke.
    + rewrite F5. now apply queue_strokes.
  - split; [|exact H2|exact H3]. cbn [put_stage sv_stage]. apply (kminv_call any_key Logic.I (MultiSpec.MDevices ds) (sv_stage s) Logic.I H1).
  - split; [|exact H2|exact H3]. cbn [put_stage sv_stage]. apply (kminv_call any_key Logic.I (MultiSpec.MValidate f) (sv_stage s) Logic.I H1).
  - split; assumption.
  - split; [exact H1|exact H2|]. constructor; [exact Logic.I|exact H3].
  - split; assumption.
  - split; assumption.
  - split; [exact H1|exact H2|]. constructor; [exact Logic.I|exact H3].
  - split; [exact H1|exact H2|]. constructor; [|exact H3]. apply nth_error_In in H. rewrite Forall_forall in H2. now apply H2.
  - split; [exact H1|exact H2|]. constructor; [|exact H3]. apply nth_error_In in H. rewrite Forall_forall in H2. now apply H2.
  - split; [exact H1| |exact H3]. cbn [put_sending put_buf sv_buf]. apply Forall_forall. intros e He. rewrite Forall_forall in H2. apply H2.
    rewrite <- (firstn_skipn i (sv_buf s)). apply in_or_app. now right.
Qed.

Lemma steps_strokes x ls y : steps clock send_ok x ls y -> Forall plain ls -> ~ Exists is_exit ls ->
  stroking (snd x) -> stroking (snd y).
Proof.
  induction 1 as [x|x l y ls z M _ IH]; intros P X H; [exact H|]. inversion_clear P as [|? ? P1 P2]. apply IH; [exact P2| |].
  - intros E. apply X. now apply Exists_cons_tl.
  - eapply micro_strokes; [exact M|exact P1| |exact H]. intros E. apply X. now apply Exists_cons_hd.
Qed.

Definition stroke_step (x : step) : Prop :=
  match x with
  | SInput e _ => (es e = Up \/ es e = Down) /\ (ev e = 0 \/ is_mouse_wheel (ek e) = true)
  | SMessage (MConfig (Some m)) => exists cfg, Forall values_ok cfg /\ m = new_multi_stage cfg
  | SMessage (MInjectInput l) => Forall (fun e => ev e = 0 \/ is_mouse_wheel (ek e) = true) l
  | SMessage (MInjectOutput l) => Forall stroke_of l
  | _ => True
  end.

Lemma new_strokes cfg : Forall values_ok cfg -> kminv any_key (new_multi_stage cfg).
Proof.
  intros H. split; [reflexivity|]. unfold new_multi_stage. cbn [m_stages]. apply Forall_map. eapply Forall_impl; [|exact H].
  intros cs Hc. split; [now apply wf_outputs_new|apply init_shape].
Qed.

Theorem run_strokes l : Forall stroke_step l ->
  let s := server_run clock send_ok l init_server in
  ~ In EExit (sv_trace s) -> Forall stroke_of (delivered (sv_trace s)).
Proof.
  intros F s NX.
  assert (F' : Forall (step_ok plain) l).
  { eapply Forall_impl; [|exact F]. intros [e dev| | |ds|[[m|]|l'|k' st|f| |l'|l']| ] Hx; cbn [stroke_step step_ok plain] in *; auto.
    - destruct Hx as [Hs Hv]. split; [split; [exact Logic.I|auto]|]. unfold stroke. tauto.
    - intros v. split; [split; [exact Logic.I|discriminate]|]. right. left. reflexivity.
    - destruct Hx as (cfg & Hc & ->). now apply new_strokes.
    - split; (split; [split; [exact Logic.I|intros _; left; reflexivity]|]); unfold stroke; cbn [es ev0]; auto.
    - eapply Forall_impl; [|exact Hx]. intros e Hv Hs _. cbn beta. split; [split; [exact Logic.I|auto]|]. unfold stroke. tauto.
    - split; [reflexivity|constructor]. }
  destruct (run_runs clock send_ok plain plain_closed Logic.I l init_server eq_refl F') as (ls & R1 & R2 & R3).
  assert (K : stroking s).
  { apply (steps_strokes _ _ _ R1 R2); [intros E; apply NX, R3, E|]. split; [split; [reflexivity|constructor]|constructor|constructor]. }
  apply sk_trace in K. unfold delivered. apply Forall_flat_map, Forall_rev. eapply Forall_impl; [|exact K].
  intros [] Hx; cbn [delivered_one]; try constructor. destruct ok; [constructor; [exact Hx|constructor]|constructor].
Qed.
End Strokes.
