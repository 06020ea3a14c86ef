(** Keys which no mapping mentions, followed through all stages and the server. *)
From Coq Require Import List Arith NArith ZArith Bool Lia SpecFloat.
From Verif Require Import Base Key Match Stage MatchProofs StageSpec StageShape UntouchedSpec StageRoute StageUntouched.
From Verif Require Import MultiStage MultiSpec MultiProofs Server ServerLoop ServerSpec ServerProofs ServerQueue ServerReset.
Import ListNotations.
Local Open Scope N_scope.

Section Pass.
Variable k : key.
Hypothesis Hk : device_button k.

Definition not_time (te : event) : Prop := is_not_timeout (es te) = true.
Definition kept (cs : list context) : Prop :=
  unmentioned k cs /\ question_first cs /\ no_output_on_release cs.

(** A stage which has passed on the key, which is down or not. *)
Record kst (D : bool) (st : stage) : Prop := {
  ks_kept : kept (fst st);
  ks_rest : krest k not_time (fst st) D (snd st);
  ks_buf : s_buf (snd st) = [];
  ks_shape : kinv no_none_key st
}.

Lemma after_one : forall D e, after D [e] k = knext k D e.
Proof. intros. unfold after, knext. cbn. unfold has_key. destruct (ek e =? k); reflexivity. Qed.
Lemma next_other : forall D e, ek e <> k -> knext k D e = D.
Proof. intros D e H. unfold knext. apply N.eqb_neq in H. rewrite H. reflexivity. Qed.
Lemma after_snoc : forall D l e, after D (l ++ [e]) k = knext k (after D l k) e.
Proof. intros. rewrite after_app. apply after_one. Qed.
Lemma after_cons : forall D l e, after D (e :: l) k = after (knext k D e) l k.
Proof. intros. change (e :: l) with ([e] ++ l). rewrite after_app, after_one. reflexivity. Qed.
Lemma after_filter : forall l D, after D (filter (has_key k) l) k = after D l k.
Proof.
  induction l as [|e l IH]; intros D; [reflexivity|]. cbn [filter]. rewrite after_cons.
  destruct (has_key k e) eqn:E; [rewrite after_cons; apply IH|].
  rewrite IH, next_other; [reflexivity|]. now apply N.eqb_neq.
Qed.
Lemma wf_updown : forall e, wf_event e -> es e = Down \/ es e = Up.
Proof. intros e [_ [[H _]|[H _]]]; auto. Qed.
Lemma wf_ok_seq : forall e, wf_event e -> ok_seq no_none_key e.
Proof.
  intros e [H1 H2]. split; [exact H1|]. intros E. destruct H2 as [(_ & _ & H)|[H _]]; [exact H|congruence].
Qed.
Lemma out_wf : forall e, ok_out no_none_key e -> is_server_event e = false -> wf_event e.
Proof.
  intros e (H1 & H2 & H3) H. apply orb_false_iff in H as [H _]. apply orb_false_iff in H as [H _]. apply N.eqb_neq in H.
  split; [exact H1|]. destruct H2 as [E|[E|E]]; [left|right|contradiction].
  - split; [exact E|]. split; [exact H|]. destruct H3 as [V|[V|[V _]]]; [auto|contradiction|auto].
  - split; [exact E|]. destruct H3 as [V|[V|[V _]]]; auto.
Qed.

Lemma stage_pass : forall e dev D cs s, wf_event e -> kst D (cs, s) ->
  kst (knext k D e) (cs, fst (update cs e dev s)) /\ after D (snd (update cs e dev s)) k = knext k D e /\
  Forall (ok_out no_none_key) (snd (update cs e dev s)).
Proof.
  intros e dev D cs s He [(Hu & Hh & Ho) R B [W P]]. cbn [fst snd] in *.
  destruct (update_shape no_none_key ltac:(discriminate) cs W e dev s (wf_ok_seq e He) P) as [S1 S2].
  destruct (update_k k Hk not_time (fun te H => H) cs) with (e := e) (dev := dev) (D := D) (s := s) as (U1 & U2 & U3);
    try assumption.
  - intros c i Hc Hi. eapply question_input; eauto.
  - intros c o Hc Hi. apply Forall_forall. intros x Hx. destruct (Hu c Hc) as [_ H1].
    destruct (H1 o x Hi Hx) as [H2 H3]. split; [exact H2|]. split; [exact H3|]. eapply Ho; eauto.
  - intros x _ te H. exact H.
  - unfold kbuf. rewrite B. reflexivity.
  - split; [constructor; try assumption; [split; auto|split; assumption]|]. split; [|exact S2].
    rewrite <- after_filter, <- after_one. apply kouts_after.
    + exists (filter (has_key k) (snd (update cs e dev s))), []. rewrite app_nil_r. split; [reflexivity|].
      split; [exact U3|reflexivity].
    + constructor; [apply wf_updown; exact He|constructor].
Qed.

(** Fed into one stage, with its output so far. *)
Definition fed_to (D0 D : bool) (cs : list context) (so : state * sequence) : Prop :=
  kst D (cs, fst so) /\ Forall (ok_out no_none_key) (snd so) /\ after D0 (snd so) k = D.

Lemma pass_stage : forall dev D0 D cs e so, wf_event e -> fed_to D0 D cs so ->
  fed_to D0 (knext k D e) cs (update_stage dev cs e so).
Proof.
  intros dev D0 D cs e [s o] He (H1 & H2 & H3). cbn [fst snd] in *. unfold update_stage. cbn [fst snd].
  destruct (stage_pass e dev D cs s He H1) as (S1 & S2 & S3). destruct (update cs e dev s) as [s' o']. cbn [fst snd] in *.
  split; [exact S1|]. split; [apply Forall_app; auto|]. cbn [snd]. rewrite after_app, H3. exact S2.
Qed.

Lemma server_event_other : forall e, is_server_event e = true -> is_action_key k = false -> ek e <> k.
Proof.
  intros e H Ha E. unfold is_server_event in H. rewrite E in H. destruct Hk as (_ & _ & H3 & _ & H5 & _).
  apply N.eqb_neq in H3. rewrite H3, H5, Ha in H. discriminate.
Qed.

Hypothesis Ha : is_action_key k = false.

Lemma pass_feed : forall dev D0 cs l D so, Forall (ok_out no_none_key) l -> fed_to D0 D cs so ->
  fed_to D0 (after D l k) cs (feed_stage true dev cs l so).
Proof.
  intros dev D0 cs. induction l as [|e l IH]; intros D so Hl H; [exact H|].
  pose proof (Forall_inv Hl) as He. apply Forall_inv_tail in Hl. cbn [feed_stage andb]. rewrite after_cons.
  apply IH; [exact Hl|]. destruct (is_server_event e) eqn:E.
  - destruct H as (H1 & H2 & H3). rewrite next_other by (apply server_event_other; assumption). split; [exact H1|].
    cbn [fst snd]. split; [apply Forall_app; auto|]. rewrite after_snoc, H3. apply next_other, server_event_other; assumption.
  - apply pass_stage; [apply out_wf; assumption|exact H].
Qed.

Lemma pass_later : forall e dev D l buf, wf_event e -> Forall (kst D) l -> Forall (ok_out no_none_key) buf ->
  after D buf k = knext k D e ->
  Forall (kst (knext k D e)) (fst (update_loop false e dev buf l)) /\
  Forall (ok_out no_none_key) (snd (update_loop false e dev buf l)) /\
  after D (snd (update_loop false e dev buf l)) k = knext k D e.
Proof.
  intros e dev D. induction l as [|[cs s] l IH]; intros buf He Hl Hb Hd; [cbn; auto|].
  pose proof (Forall_inv Hl) as H. apply Forall_inv_tail in Hl. cbn [update_loop negb]. rewrite andb_true_r. cbn [andb].
  set (so1 := if ek e =? k_timeout then _ else _).
  assert (F0 : fed_to D D cs (s, [])) by (split; [exact H|split; [constructor|reflexivity]]).
  assert (H1 : fed_to D D cs so1).
  { unfold so1. destruct (N.eqb_spec (ek e) k_timeout) as [E|E]; [|exact F0].
    replace D with (knext k D e) at 2; [now apply pass_stage|]. apply next_other. rewrite E. intros X. symmetry in X. revert X. apply Hk. }
  clearbody so1. set (so2 := if is_virtual_key (ek e) then _ else _).
  assert (H2 : fed_to D D cs so2).
  { unfold so2. destruct (is_virtual_key (ek e)) eqn:E; [|exact H1].
    replace D with (knext k D e) at 2; [now apply pass_stage|]. apply next_other. intros X. rewrite X in E.
    destruct Hk as (_ & _ & _ & _ & V & _). congruence. }
  clearbody so2. destruct (pass_feed dev D cs buf D so2 Hb H2) as (F1 & F2 & F3).
  rewrite Hd in *. destruct (feed_stage true dev cs buf so2) as [s3 o3]. cbn [fst snd] in *.
  destruct (IH o3 He Hl F2 F3) as (I1 & I2 & I3). destruct (update_loop false e dev o3 l) as [l' o'].
  split; [constructor; assumption|auto].
Qed.

Definition kms (D : bool) (m : mstage) : Prop := m_buf m = [] /\ Forall (kst D) (m_stages m).

Definition plain_out (e : event) : Prop := ek e = k -> (es e = Down \/ es e = Up) /\ ev e = 0.
Lemma out_plain : forall e, ok_out no_none_key e -> plain_out e.
Proof.
  intros e (_ & H2 & H3) E. destruct Hk as (_ & _ & K3 & _ & _ & K6). rewrite E in *. split; [tauto|].
  destruct H3 as [H|[H|[H _]]]; [exact H|contradiction|congruence].
Qed.

Lemma pass_update : forall e dev D m, wf_event e -> kms D m ->
  let r := m_update e dev m in
  kms (knext k D e) (fst r) /\ after D (snd r) k = knext k D e /\ Forall plain_out (snd r).
Proof.
  intros e dev D [st c b] He [Hb Hst]. cbn [m_buf m_stages] in *. subst b. cbn zeta.
  unfold m_update. cbn [m_buf m_stages m_client app]. destruct st as [|[cs s] r].
  - cbn. split; [split; [reflexivity|constructor]|]. split; [apply after_one|]. constructor; [|constructor].
    intros E. split; [now apply wf_updown|]. destruct Hk as (_ & _ & K3 & _ & _ & K6). rewrite <- E in K3, K6.
    destruct He as [_ [(_ & _ & [V|V])|(_ & [V|[V|V]])]]; congruence.
  - pose proof (Forall_inv Hst) as H. apply Forall_inv_tail in Hst.
    cbn [update_loop negb]. rewrite andb_false_r. cbn [andb feed_stage].
    assert (F0 : fed_to D D cs (s, [])) by (split; [exact H|split; [constructor|reflexivity]]).
    destruct (pass_stage dev D D cs e (s, []) He F0) as (S1 & S2 & S3).
    unfold sequence in *. destruct (update_stage dev cs e (s, [])) as [s1 o1]. cbn [fst snd] in *.
    destruct (pass_later e dev D r o1 He Hst S2 S3) as (L1 & L2 & L3).
    unfold sequence in *. destruct (update_loop false e dev o1 r) as [r' o']. cbn [fst snd] in *.
    split; [split; [reflexivity|constructor; assumption]|]. split; [exact L3|].
    eapply Forall_impl; [|exact L2]. apply out_plain.
Qed.

Lemma contexts_pass : forall il D cs s, kst D (cs, s) ->
  kst D (cs, fst (set_active_client_contexts cs il s)) /\ after D (snd (set_active_client_contexts cs il s)) k = D /\
  Forall (ok_out no_none_key) (snd (set_active_client_contexts cs il s)).
Proof.
  intros il D cs s [(Hu & Hh & Ho) R B [W P]]. cbn [fst snd] in *.
  destruct (set_contexts_shape no_none_key cs W il s P) as [S1 S2].
  destruct (contexts_k k Hk not_time cs) with (il := il) (D := D) (s := s) as (U1 & U2 & U3); try assumption.
  - intros c o Hc Hi. apply Forall_forall. intros x Hx. destruct (Hu c Hc) as [_ H1].
    destruct (H1 o x Hi Hx) as [H2 H3]. split; [exact H2|]. split; [exact H3|]. eapply Ho; eauto.
  - split; [constructor; try assumption; [split; auto|split; assumption]|]. split; [|exact S2].
    rewrite <- after_filter, U3. reflexivity.
Qed.

Lemma pass_contexts_loop : forall idx D l off buf, Forall (kst D) l -> Forall (ok_out no_none_key) buf -> after D buf k = D ->
  Forall (kst D) (fst (contexts_loop idx off buf l)) /\ Forall (ok_out no_none_key) (snd (contexts_loop idx off buf l)) /\
  after D (snd (contexts_loop idx off buf l)) k = D.
Proof.
  intros idx D. induction l as [|[cs s] l IH]; intros off buf Hl Hb Hd; [cbn; auto|].
  pose proof (Forall_inv Hl) as H. apply Forall_inv_tail in Hl. cbn [contexts_loop].
  assert (F0 : fed_to D D cs (s, [])) by (split; [exact H|split; [constructor|reflexivity]]).
  destruct (pass_feed no_device D cs buf D (s, []) Hb F0) as (F1 & F2 & F3). rewrite Hd in *.
  unfold sequence in *. destruct (feed_stage true no_device cs buf (s, [])) as [s1 o1]. cbn [fst snd] in *.
  destruct (contexts_pass (stage_indices off (off + Z.of_nat (length cs)) idx) D cs s1 F1) as (G1 & G2 & G3).
  destruct (set_active_client_contexts _ _ s1) as [s2 o2]. cbn [fst snd] in *.
  destruct (IH (off + Z.of_nat (length cs))%Z (o1 ++ o2) Hl) as (I1 & I2 & I3);
    [apply Forall_app; auto|rewrite after_app, F3; exact G2|].
  destruct (contexts_loop idx _ (o1 ++ o2) l) as [l' o']. cbn [fst snd] in *.
  split; [constructor; assumption|auto].
Qed.

Lemma pass_contexts : forall idx D m, kms D m ->
  let r := m_set_active_client_contexts idx m in
  kms D (m_reuse_buffer (fst r)) /\ after D (snd r) k = D /\ Forall plain_out (snd r).
Proof.
  intros idx D [st c b] [Hb Hst]. cbn [m_buf m_stages] in *. subst b. cbn zeta. unfold m_set_active_client_contexts.
  cbn [m_buf m_stages].
  destruct (pass_contexts_loop idx D st 0 [] Hst (Forall_nil _) eq_refl) as (L1 & L2 & L3).
  destruct (contexts_loop idx 0 [] st) as [l' o']. cbn [fst snd] in *.
  split; [split; [reflexivity|exact L1]|]. split; [exact L3|]. eapply Forall_impl; [|exact L2]. apply out_plain.
Qed.

Lemma kept_evaluate : forall ds cs, kept cs -> kept (evaluate_device_filters ds cs).
Proof.
  intros ds cs (H1 & H2 & H3). unfold evaluate_device_filters. repeat split.
  - apply in_map_iff in H as (c' & <- & Hc). eapply (proj1 (H1 c' Hc)); eauto.
  - apply in_map_iff in H as (c' & <- & Hc). eapply (proj1 (H1 c' Hc)); eauto.
  - apply in_map_iff in H as (c' & <- & Hc). eapply (proj2 (H1 c' Hc)); eauto.
  - apply in_map_iff in H as (c' & <- & Hc). eapply (proj2 (H1 c' Hc)); eauto.
  - intros c i Hc. apply in_map_iff in Hc as (c' & <- & Hc). exact (H2 c' i Hc).
  - intros c i e Hc. apply in_map_iff in Hc as (c' & <- & Hc). exact (H3 c' i e Hc).
Qed.
Lemma nmm_evaluate : forall ds cs, has_nmm_mapping (evaluate_device_filters ds cs) = has_nmm_mapping cs.
Proof.
  intros ds cs. unfold has_nmm_mapping, evaluate_device_filters. induction cs as [|c cs IH]; [reflexivity|].
  cbn [map existsb]. rewrite IH. reflexivity.
Qed.
Lemma pass_devices : forall ds D m, kms D m -> kms D (m_evaluate_device_filters ds m).
Proof.
  intros ds D m [Hb H]. split; [exact Hb|]. cbn [m_evaluate_device_filters m_stages]. rewrite Forall_map.
  eapply Forall_impl; [|exact H]. intros [cs s] [H1 H2 H3 [H4 H5]]. constructor; cbn [fst snd] in *; auto.
  - now apply kept_evaluate.
  - destruct H2. constructor; auto. unfold hist_ok in *.
    rewrite nmm_evaluate. assumption.
  - split; [|exact H5]. cbn [fst]. unfold wf_outputs, evaluate_device_filters in *. cbn [fst] in H4. rewrite Forall_map.
    eapply Forall_impl; [|exact H4]. intros c0 Hc. exact Hc.
Qed.
Lemma kept_new : forall cs, kept cs -> kept (new_stage cs).
Proof.
  intros cs (H1 & H2 & H3).
  assert (O : forall c o, In o (context_outputs (sort_context c)) -> In o (context_outputs c)).
  { intros c o H. unfold context_outputs in *. cbn [sort_context cx_outputs cx_commands] in H. apply in_app_iff in H.
    apply in_app_iff. destruct H as [H|H]; [left; exact H|right]. apply in_map_iff in H as (m & <- & Hm).
    destruct (sort_commands_spec (cx_commands c)) as [_ Hp]. apply in_map.
    eapply Permutation.Permutation_in; [|exact Hm]. apply Permutation.Permutation_sym. exact Hp. }
  unfold new_stage. repeat split.
  - apply in_map_iff in H as (c' & <- & Hc). eapply (proj1 (H1 c' Hc)); eauto.
  - apply in_map_iff in H as (c' & <- & Hc). eapply (proj1 (H1 c' Hc)); eauto.
  - apply in_map_iff in H as (c' & <- & Hc). eapply (proj2 (H1 c' Hc)); eauto.
  - apply in_map_iff in H as (c' & <- & Hc). eapply (proj2 (H1 c' Hc)); eauto.
  - intros c i Hc. apply in_map_iff in Hc as (c' & <- & Hc). exact (H2 c' i Hc).
  - intros c i e Hc Hi. apply in_map_iff in Hc as (c' & <- & Hc). apply (H3 c' i e Hc). now apply O.
Qed.
Lemma pass_new : forall cfg, Forall (fun cs => kept cs /\ wf_outputs no_none_key cs) cfg -> kms false (new_multi_stage cfg).
Proof.
  intros cfg H. split; [reflexivity|]. unfold new_multi_stage. cbn [m_stages]. apply Forall_map.
  eapply Forall_impl; [|exact H]. intros cs [H1 H2]. constructor; cbn [fst snd]; [now apply kept_new|apply init_k|reflexivity|].
  split; [now apply wf_outputs_new|apply init_shape].
Qed.

(** * The server *)

(** The key was queued as it was input, and is down or not. *)
Record passed (D : bool) (s : server) : Prop := {
  pa_stage : kms D (sv_stage s);
  pa_queue : after false (queued (sv_trace s)) k = D;
  pa_plain : Forall plain_out (queued (sv_trace s));
  pa_last : ek (sv_last s) = k -> kstate_eqb (es (sv_last s)) Down = D;
  pa_next : sv_next s = false
}.

(** Unless the server exits, which it does not forget. *)
Definition unless_exit (P : Prop) (s s' : server) : Prop :=
  (In EExit (sv_trace s) -> In EExit (sv_trace s')) /\ (In EExit (sv_trace s') \/ P).
Definition keeps (s s' : server) : Prop := unless_exit (forall D, passed D s -> passed D s') s s'.
Definition takes (e : event) (s s' : server) : Prop :=
  unless_exit (forall D, passed D s -> passed (knext k D e) s') s s'.

Lemma keeps_refl : forall s, keeps s s.
Proof. intros s. split; auto. Qed.
Lemma keeps_trans : forall a b c, keeps a b -> keeps b c -> keeps a c.
Proof. intros a b c [A1 A2] [B1 B2]. split; [auto|]. destruct A2, B2; auto. Qed.
Lemma keeps_takes : forall e a b c, keeps a b -> takes e b c -> takes e a c.
Proof. intros e a b c [A1 A2] [B1 B2]. split; [auto|]. destruct A2, B2; auto. Qed.
Lemma takes_keeps : forall e a b, ek e <> k -> takes e a b -> keeps a b.
Proof.
  intros e a b H [A1 A2]. split; [exact A1|]. destruct A2 as [A2|A2]; [left; exact A2|right]. intros D P.
  rewrite <- (next_other D e H). auto.
Qed.
Local Notation "a ;; b" := (keeps_trans _ _ _ a b) (at level 60, right associativity).

Lemma keeps_new : forall s s' new, sv_stage s' = sv_stage s -> sv_trace s' = new ++ sv_trace s ->
  sv_last s' = sv_last s -> sv_next s' = sv_next s ->
  (forall D, after D (queued new) k = D) -> Forall plain_out (queued new) -> keeps s s'.
Proof.
  intros s s' new E1 E2 E3 E4 Q1 Q2. split; [rewrite E2; intros H; apply in_or_app; auto|]. right.
  intros D [P1 P2 P3 P4 P5]. constructor; rewrite ?E1, ?E3, ?E4; auto.
  - rewrite E2, queued_app, after_app, P2. apply Q1.
  - rewrite E2, queued_app. apply Forall_app. auto.
Qed.
Ltac silent l := apply (keeps_new _ _ l); [reflexivity|reflexivity|reflexivity|reflexivity|reflexivity|constructor].

Lemma timeout_other : forall e, ek e = k_timeout -> ek e <> k.
Proof. intros e H X. rewrite X in H. now apply Hk in H. Qed.

Lemma request_silent : forall out, queued (request out) = [].
Proof. intros out. unfold request. destruct (back out); [|reflexivity]. destruct (_ =? _); reflexivity. Qed.
Lemma keys_pass : forall e out D, Forall plain_out out ->
  after D (keys_of e out) k = after D out k /\ Forall plain_out (keys_of e out).
Proof.
  intros e out D H. unfold keys_of.
  match goal with |- context [copy_delta e ?x] => set (o := x) end.
  assert (O : after D o k = after D out k /\ Forall plain_out o).
  { unfold o, request. destruct (back out) as [r|] eqn:Eb; [|auto].
    destruct (N.eqb_spec (ek r) k_timeout) as [E|E]; [|auto].
    destruct out as [|x out] using rev_ind; [discriminate|]. clear IHout.
    assert (B : back (out ++ [x]) = Some x) by apply back_snoc.
    assert (P : pop_back (out ++ [x]) = out).
    { clear. unfold pop_back. apply removelast_last. }
    rewrite B in Eb. injection Eb as <-. rewrite P, after_snoc, next_other by (now apply timeout_other).
    apply Forall_app in H. tauto. }
  clearbody o. destruct O as [<- O]. unfold copy_delta. destruct (is_mouse_wheel (ek e)); [|auto].
  destruct Hk as (_ & _ & _ & _ & _ & W). clear H. split.
  - revert D. induction o as [|x o IH]; intros D; [reflexivity|]. cbn [map]. rewrite !after_cons, (IH (Forall_inv_tail O)).
    f_equal. unfold knext. destruct (is_mouse_wheel (ek x) && (ev x =? 0)); reflexivity.
  - apply Forall_map. eapply Forall_impl; [|exact O]. intros x Hx. cbn beta.
    destruct (is_mouse_wheel (ek x) && (ev x =? 0)) eqn:E; [|exact Hx]. intros X. cbn [ek] in X. rewrite X, W in E.
    discriminate.
Qed.

Section Server.
Variable clock : nat -> Z.
Variable send_ok : nat -> bool.

Lemma pass_fed : forall e dev s, wf_event e ->
  takes e s (feed clock e dev (if ek e =? k_timeout then s else put_last e s)).
Proof.
  intros e dev s He. set (s0 := if ek e =? k_timeout then s else put_last e s).
  assert (E0 : sv_stage s0 = sv_stage s /\ sv_trace s0 = sv_trace s /\ sv_next s0 = sv_next s)
    by (unfold s0; destruct (_ =? _); auto). destruct E0 as (Z1 & Z2 & Z3).
  destruct (m_update e dev (sv_stage s0)) as [m out] eqn:Eu.
  destruct (feed_spec clock _ _ _ _ _ Eu) as (F1 & _ & _ & _ & F2 & _ & F3 & F4 & _).
  split; [rewrite F2, Z2; intros H; repeat (apply in_or_app; right); right; exact H|]. right.
  intros D [P1 P2 P3 P4 P5]. rewrite Z1 in Eu. destruct (pass_update e dev D (sv_stage s) He P1) as (U1 & U2 & U3).
  rewrite Eu in U1, U2, U3. cbn [fst snd] in *.
  assert (Q : queued (sv_trace (feed clock e dev s0)) = queued (sv_trace s) ++ keys_of e out).
  { rewrite F2, !queued_app, queued_cons, request_silent, Z2. cbn [queued_one]. rewrite !app_nil_r.
    destruct (pushed (keys_of e out)) as [-> _]. reflexivity. }
  destruct (keys_pass e out D U3) as [K1 K2]. constructor.
  - rewrite F1. split; [reflexivity|apply U1].
  - rewrite Q, after_app, P2, K1. exact U2.
  - rewrite Q. apply Forall_app. auto.
  - rewrite F3. unfold s0. destruct (N.eqb_spec (ek e) k_timeout) as [E|E].
    + rewrite next_other by (now apply timeout_other). exact P4.
    + cbn [put_last sv_last]. intros X. unfold knext. rewrite X, N.eqb_refl. reflexivity.
  - rewrite F4, Z3. exact P5.
Qed.

Lemma pass_core : forall reset e dev s, wf_event e -> takes e s (fst (translate_core clock reset e dev s)).
Proof.
  intros reset e dev s He. rewrite core_cases. cbn zeta. destruct (m_should_exit _).
  - split; [intros _|]; [left; reflexivity|left; left; reflexivity].
  - cbn [fst]. now apply pass_fed.
Qed.

Lemma timeout_wf : forall v, wf_event (make_input_timeout_event v).
Proof. intros v. split; [discriminate|]. right. split; [reflexivity|]. right. left. reflexivity. Qed.

Lemma pass_translate : forall reset fuel e dev s, wf_event e -> (ek e = k -> fuel <> 0%nat) ->
  takes e s (fst (translate_with clock reset fuel e dev s)).
Proof.
  intros reset. induction fuel as [|fuel IH]; intros e dev s He Hf.
  { cbn [translate_with fst]. assert (K : keeps s (put_oof s)) by (silent (@nil effect)).
    destruct K as [K1 K2]. split; [exact K1|]. destruct K2 as [K2|K2]; [auto|right]. intros D P.
    rewrite next_other; [auto|]. intros E. now apply Hf. }
  cbn [translate_with]. destruct (event_eqb e (sv_last s) && _) eqn:Er.
  { cbn [fst]. split; [auto|right]. intros D P. apply andb_prop in Er as [Er _]. apply event_eqb_eq in Er.
    destruct (N.eq_dec (ek e) k) as [E|E]; [|rewrite next_other by exact E; exact P].
    unfold knext. rewrite E, N.eqb_refl. replace (kstate_eqb (es e) Down) with D; [exact P|].
    symmetry. rewrite Er. apply P. rewrite <- Er. exact E. }
  destruct (sv_next s && _ && _ && _) eqn:En.
  { cbn [fst]. split; [intros H; right; exact H|right]. intros D P.
    apply andb_prop in En as [En _]. apply andb_prop in En as [En _]. apply andb_prop in En as [En _].
    rewrite (pa_next _ _ P) in En. discriminate. }
  clear Er En. set (s1 := match sv_start s with Some _ => _ | None => _ end).
  assert (K1 : keeps s s1).
  { unfold s1. destruct (sv_start s) as [t|]; [|apply keeps_refl]. destruct (_ || _); [|apply keeps_refl].
    cbn zeta. eapply keeps_trans.
    2:{ eapply takes_keeps; [|apply IH]; [|apply timeout_wf|]; [apply timeout_other; reflexivity|].
        intros X. exfalso. revert X. apply timeout_other. reflexivity. }
    silent [ECancel]. }
  clearbody s1. cbn zeta. match goal with |- takes e s (fst (translate_core _ _ _ _ ?x)) => set (s2 := x) end.
  assert (K2 : keeps s1 s2).
  { unfold s2. destruct (is_mouse_wheel (ek e) && kstate_eqb (es e) Up) eqn:Ew; [|apply keeps_refl].
    apply andb_prop in Ew as [Ew _].
    assert (N0 : ek e <> k). { intros X. destruct Hk as (_ & _ & _ & _ & _ & W). congruence. }
    apply (takes_keeps (Ev (ek e) Down (ev e))); [exact N0|]. apply IH; [|intros X; contradiction].
    destruct He as [H _]. split; [exact H|]. left. cbn [es ek ev]. split; [reflexivity|]. split; [|auto].
    intros X. rewrite X in Ew. discriminate. }
  clearbody s2. eapply keeps_takes; [exact (K1 ;; K2)|]. now apply pass_core.
Qed.

Lemma pass_set_virtual : forall translate j st s, ek (ev0 j Down) <> k -> is_virtual_key j = true ->
  (forall st s, (st = Down \/ st = Up) -> keeps s (fst (translate (ev0 j st) any_device s))) ->
  keeps s (set_virtual_with translate j st s).
Proof.
  intros translate j st s Hj V Ht. unfold set_virtual_with. cbn zeta.
  assert (H : forall st' l, (st' = Down \/ st' = Up) ->
    keeps s ((fun s : server => if is_virtual_key j then log (EVirtual j st') s else s)
         (fst (translate (ev0 j st') any_device (put_virtual l s))))).
  { intros st' l Hst. cbv beta. apply (keeps_trans _ (put_virtual l s)); [silent (@nil effect)|].
    eapply keeps_trans; [apply (Ht st' _ Hst)|].
    rewrite V. silent [EVirtual j st']. }
  destruct (find_index _ _); (destruct (negb _); [apply H; auto|apply keeps_refl]).
Qed.

Lemma virtual_other : forall j, is_virtual_key j = true -> j <> k.
Proof. intros j V X. destruct Hk as (_ & _ & _ & _ & W & _). congruence. Qed.
Lemma virtual_wf : forall j st, is_virtual_key j = true -> (st = Down \/ st = Up) -> wf_event (ev0 j st).
Proof.
  intros j st V S0. assert (A : j <> k_none /\ j <> k_timeout) by (split; intros ->; discriminate V).
  split; [apply A|]. destruct S0 as [->| ->]; [left|right]; cbn [ev0 es ek ev]; intuition.
Qed.

Lemma pass_toggle : forall j s, is_virtual_key j = true -> keeps s (toggle_virtual_key clock j s).
Proof.
  intros j s V. apply pass_set_virtual; [now apply virtual_other|exact V|]. intros st s0 S0.
  apply (takes_keeps (ev0 j st)); [now apply virtual_other|]. apply pass_translate; [now apply virtual_wf|].
  intros X. exfalso. now apply (virtual_other j V).
Qed.

Lemma pass_schedule : forall v s, keeps s (schedule_flush clock v s).
Proof. intros v s. unfold schedule_flush. destruct (sv_flush s); [apply keeps_refl|silent [EFlushAt v]]. Qed.

Lemma pass_scan : forall left again, (left <> 0%nat -> forall i s, keeps s (fst (fst (again i s)))) ->
  forall rest i s, keeps s (fst (fst (scan clock send_ok left again rest i s))).
Proof.
  intros left again Hag. induction rest as [|e r IH]; intros i s; cbn [scan]; [apply keeps_refl|].
  destruct (is_mouse_wheel (ek e) && kstate_eqb (es e) Down); [apply IH|].
  destruct (is_action_key (ek e)).
  { destruct (kstate_eqb (es e) Down); [|apply IH]. refine (_ ;; IH _ _). silent [EAction (ek e - first_action)]. }
  destruct (is_virtual_key (ek e)) eqn:V.
  { destruct (kstate_eqb (es e) Down); [|apply IH]. destruct left as [|left]; [apply IH|].
    exact (pass_toggle _ _ V ;; Hag ltac:(discriminate) _ _). }
  destruct (ek e =? k_timeout); [apply pass_schedule|].
  destruct (send_ok (sv_sends s)); [refine (_ ;; IH _ _); silent [ESend e true]|silent [ESend e false]].
Qed.
Lemma pass_loop : forall left i s, keeps s (fst (fst (flush_loop clock send_ok left i s))).
Proof.
  induction left as [|left IH]; intros i s; rewrite flush_loop_scan; apply pass_scan; [intros H; contradiction|].
  intros _. exact IH.
Qed.
Lemma pass_flush : forall s, keeps s (fst (flush_send_buffer clock send_ok s)).
Proof.
  intros s. unfold flush_send_buffer. destruct (sv_sending s); [apply keeps_refl|].
  pose proof (pass_loop 9 0 (put_flush None (put_sending true s))) as H.
  destruct (flush_loop _ _ _ _ _) as [[s' i] b]. refine (_ ;; H ;; _); silent (@nil effect).
Qed.
Lemma pass_flush_unless : forall s, keeps s (flush_unless_scheduled clock send_ok s).
Proof. intros s. unfold flush_unless_scheduled. destruct (sv_flush s); [apply keeps_refl|apply pass_flush]. Qed.

Lemma pass_set_contexts : forall l s, keeps s (set_active_contexts clock send_ok l s).
Proof.
  intros l s. unfold set_active_contexts. destruct (m_set_active_client_contexts l (sv_stage s)) as [m out] eqn:E.
  refine (_ ;; pass_flush_unless _).
  destruct (push_all out (put_stage m s)) as (I1 & _ & _ & _ & I5 & _ & _ & I8 & I9 & _).
  set (s1 := send_key_sequence out (put_stage m s)) in *. clearbody s1. cbn [put_stage sv_stage sv_trace sv_last sv_next] in *.
  split; [cbn [put_stage sv_trace]; rewrite I5; intros H; apply in_or_app; auto|]. right. intros D [P1 P2 P3 P4 P5].
  destruct (pass_contexts l D (sv_stage s) P1) as (C1 & C2 & C3). rewrite E in C1, C2, C3. cbn [fst snd] in *.
  assert (Q : queued (sv_trace s1) = queued (sv_trace s) ++ out).
  { rewrite I5, queued_app. destruct (pushed out) as [-> _]. reflexivity. }
  constructor; cbn [put_stage sv_stage sv_trace sv_last sv_next]; rewrite ?I1, ?I8, ?I9; auto.
  - rewrite Q, after_app, P2. exact C2.
  - rewrite Q. apply Forall_app. auto.
Qed.
Lemma pass_filters : forall s, keeps s (evaluate_filters clock send_ok s).
Proof.
  intros s. unfold evaluate_filters. destruct (_ || _); [apply keeps_refl|].
  refine (_ ;; pass_set_contexts _ _). split; [auto|]. right. intros D [P1 P2 P3 P4 P5].
  constructor; cbn [put_stage sv_stage sv_trace sv_last sv_next]; auto. now apply pass_devices.
Qed.

(** Requests which leave the key alone, apart from its own input. *)
Definition leaves (x : step) : Prop :=
  match x with
  | SInput e _ => wf_event e
  | SExpire | SFlush | SDevices _ => True
  | SMessage (MConfig None) | SMessage (MContexts _) => True
  | SMessage (MVirtual j _) => is_virtual_key j = true
  | SMessage (MInjectInput l) => Forall (fun e => wf_event e /\ ek e <> k) l
  | SMessage (MInjectOutput l) => Forall (fun e => ek e <> k) l
  | SMessage (MConfig (Some _)) | SMessage (MValidate _) | SMessage MNextKey | SReset => False
  end.
Definition input_of (x : step) : sequence := match x with SInput e _ => [e] | _ => [] end.

Lemma pass_input : forall e dev s, wf_event e -> takes e s (fst (translate_input clock send_ok e dev s)).
Proof. intros e dev s He. apply pass_translate; [exact He|discriminate]. Qed.

Lemma pass_inject : forall l s, Forall (fun e => wf_event e /\ ek e <> k) l -> keeps s (inject_input clock send_ok l s).
Proof.
  induction l as [|e l IH]; intros s H; cbn [inject_input]; [apply keeps_refl|].
  destruct (Forall_inv H) as [H1 H2]. apply Forall_inv_tail in H. refine (_ ;; IH _ H).
  destruct (match es e with Up | Down => true | _ => false end && is_device_key (ek e)); [|apply keeps_refl].
  pose proof (pass_input e no_device s H1) as Ht. apply takes_keeps in Ht; [|exact H2].
  pose proof (translate_true clock (reset_configuration clock send_ok None) translate_depth e no_device s) as Hb.
  fold (translate_input clock send_ok e no_device s) in Hb.
  destruct (translate_input clock send_ok e no_device s) as [s' b]. cbn [fst snd] in *. subst b. exact Ht.
Qed.

Lemma others_after : forall l D, Forall (fun e => ek e <> k) l -> after D l k = D /\ Forall plain_out l.
Proof.
  induction l as [|e l IH]; intros D H; [split; [reflexivity|constructor]|].
  pose proof (Forall_inv H) as He. apply Forall_inv_tail in H. rewrite after_cons, next_other by exact He.
  destruct (IH D H) as [I1 I2]. split; [exact I1|]. constructor; [intros X; contradiction|exact I2].
Qed.

Lemma pass_step : forall x s, leaves x ->
  unless_exit (forall D, passed D s -> passed (after D (input_of x) k) (server_step clock send_ok x s))
              s (server_step clock send_ok x s).
Proof.
  intros x s Hx.
  assert (K : forall y, input_of y = [] -> keeps s (server_step clock send_ok y s) ->
    unless_exit (forall D, passed D s -> passed (after D (input_of y) k) (server_step clock send_ok y s))
              s (server_step clock send_ok y s)).
  { intros y E H. rewrite E. exact H. }
  destruct x as [e dev| | |ds|[[m|]|l|j st|f| |l|l]| ]; cbn [leaves] in Hx; try contradiction; try (apply K; [reflexivity|]);
    cbn [server_step on_message].
  - destruct (pass_input e dev s Hx) as [T1 T2]. split; [exact T1|]. destruct T2 as [T2|T2]; [auto|right].
    intros D P. cbn [input_of]. rewrite after_one. auto.
  - destruct (sv_start s) eqn:E; [|apply keeps_refl]. cbn zeta.
    eapply keeps_trans; [|eapply takes_keeps; [|apply pass_input, timeout_wf]; apply timeout_other; reflexivity].
    silent [ECancel].
  - apply pass_flush.
  - unfold set_device_descs. refine (_ ;; pass_filters _). silent (@nil effect).
  - apply keeps_refl.
  - apply pass_set_contexts.
  - refine (_ ;; pass_flush_unless _). apply pass_set_virtual; [now apply virtual_other|exact Hx|]. intros st' s0 S0.
    apply (takes_keeps (ev0 j st')); [now apply virtual_other|]. apply pass_input. now apply virtual_wf.
  - refine (pass_inject l s Hx ;; pass_schedule _ _).
  - refine (_ ;; pass_schedule _ _). destruct (push_all l s) as (I1 & _ & _ & _ & I5 & _ & _ & I8 & I9 & _).
    destruct (pushed l) as [Q _]. apply (keeps_new _ _ (rev (map EQueue l))); try assumption; rewrite Q.
    + intros D. apply (others_after l D Hx).
    + apply (others_after l false Hx).
Qed.

Theorem pass_run : forall l s D, Forall leaves l -> passed D s -> ~ In EExit (sv_trace (server_run clock send_ok l s)) ->
  passed (after D (flat_map input_of l) k) (server_run clock send_ok l s).
Proof.
  assert (X : forall l s, Forall leaves l -> In EExit (sv_trace s) -> In EExit (sv_trace (server_run clock send_ok l s))).
  { induction l as [|x l IH]; intros s Hl H; [exact H|]. cbn [server_run]. apply IH; [now apply Forall_inv_tail in Hl|].
    apply (proj1 (pass_step x s (Forall_inv Hl))). exact H. }
  induction l as [|x l IH]; intros s D Hl P NX; [exact P|]. cbn [server_run flat_map] in *.
  pose proof (Forall_inv Hl) as Hx. apply Forall_inv_tail in Hl. rewrite after_app.
  apply IH; [exact Hl| |exact NX]. destruct (pass_step x s Hx) as [_ [H|H]]; [|auto].
  exfalso. apply NX, X; assumption.
Qed.

(** The first configuration. *)
Lemma pass_start : forall ds cfg, Forall (fun cs => kept cs /\ wf_outputs no_none_key cs) cfg ->
  let s := server_run clock send_ok [SDevices ds; SMessage (MConfig (Some (new_multi_stage cfg)))] init_server in
  ~ In EExit (sv_trace s) -> passed false s.
Proof.
  intros ds cfg H. cbn zeta. intros NX. cbn [server_run server_step on_message] in *.
  set (s0 := put_devices ds init_server).
  assert (E0 : set_device_descs clock send_ok ds init_server = s0) by reflexivity. rewrite E0 in *. clear E0.
  unfold reset_configuration in *.
  set (s1 := clear_configuration (new_multi_stage cfg) (fst (flush_send_buffer clock send_ok (release_all_keys s0)))) in *.
  assert (P : passed false s1).
  { constructor; [exact (pass_new cfg H)|reflexivity|constructor|intros X; exfalso; symmetry in X; revert X; apply Hk|reflexivity]. }
  clearbody s1. destruct (pass_filters s1) as [_ [X|X]]; [contradiction|auto].
Qed.
End Server.
End Pass.
