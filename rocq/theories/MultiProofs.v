(** Several stages in a row (C21, C22) and their safety. *)
From Coq Require Import List Arith NArith ZArith Bool Lia.
From Verif Require Import Base Key Match Stage MatchProofs StageFrame StageTerm StageSpec StageSafe
  StageOut StageShape StageRoute MultiStage MultiSpec.
Import ListNotations.
Local Open Scope N_scope.

(** * Composition *)

Lemma update_loop_app : forall e dev l1 l2 first buf,
  update_loop first e dev buf (l1 ++ l2) =
  let '(l1', o1) := update_loop first e dev buf l1 in
  let '(l2', o2) := update_loop (match l1 with [] => first | _ => false end) e dev o1 l2 in
  (l1' ++ l2', o2).
Proof.
  intros e dev. induction l1 as [|[cs s] l1 IH]; intros l2 first buf.
  - cbn. destruct (update_loop first e dev buf l2). reflexivity.
  - cbn [app update_loop].
    destruct (feed_stage _ _ _ _ _) as [s1 o1]. rewrite IH.
    destruct (update_loop false e dev o1 l1) as [l1' o1'].
    replace (match l1 with [] => false | _ => false end) with false by (destruct l1; reflexivity).
    destruct (update_loop false e dev o1' l2). reflexivity.
Qed.

Lemma feed_passes : forall dev cs l s o s' o',
  feed_stage true dev cs l (s, o) = (s', o') ->
  exists r, o' = o ++ r /\ passes dev cs s l s' r.
Proof.
  intros dev cs. induction l as [|e l IH]; intros s o s' o' H; cbn [feed_stage] in H.
  - injection H as <- <-. exists []. rewrite app_nil_r. split; [reflexivity|constructor].
  - destruct (is_server_event e) eqn:Es; cbn [andb fst snd] in H.
    + destruct (IH _ _ _ _ H) as (r & -> & Hp). exists (e :: r). rewrite <- app_assoc.
      split; [reflexivity|]. constructor; assumption.
    + unfold update_stage in H. cbn [fst snd] in H. destruct (update cs e dev s) as [s1 o1] eqn:Eu.
      destruct (IH _ _ _ _ H) as (r & -> & Hp). exists (o1 ++ r). rewrite <- app_assoc.
      split; [reflexivity|]. econstructor; eassumption.
Qed.

Lemma passes_state : forall dev cs s l s' o, passes dev cs s l s' o ->
  s' = fst (run cs (map (fun e => CInput e dev) (List.filter (fun e => negb (is_server_event e)) l)) s).
Proof.
  intros dev cs s l s' o H. induction H as [s|s e l s' o He H IH|s e l s1 o1 s' o He Hc H IH].
  - reflexivity.
  - cbn [List.filter]. rewrite He. exact IH.
  - cbn [List.filter map run negb]. rewrite He. cbn [negb map run]. rewrite Hc.
    destruct (run cs _ s1) as [s2 o2]. exact IH.
Qed.

(** Events for the server keep their order, nothing is inserted but output of the stage. *)
Inductive merged : sequence -> sequence -> Prop :=
| mg_nil : forall o, merged [] o
| mg_take : forall e l o, merged l o -> merged (e :: l) (e :: o)
| mg_skip : forall e l o, merged l o -> merged l (e :: o).
Lemma merged_app : forall o1 l o, merged l o -> merged l (o1 ++ o).
Proof. induction o1; intros l o H; [exact H|]. cbn. apply mg_skip. auto. Qed.
Lemma passes_server : forall dev cs s l s' o, passes dev cs s l s' o ->
  merged (List.filter is_server_event l) o.
Proof.
  intros dev cs s l s' o H. induction H as [s|s e l s' o He H IH|s e l s1 o1 s' o He Hc H IH]; cbn [List.filter].
  - constructor.
  - rewrite He. constructor. exact IH.
  - rewrite He. apply merged_app. exact IH.
Qed.

Definition ups_direct (e : event) (dev : Z) (cs : list context) (s : state) : state * sequence :=
  run cs (map (fun e => CInput e dev) (seen_by_all e)) s.

(** The last of several stages: it sees the input event itself if it is a timeout or a
    virtual key, and then the output of the stages before it. *)
Theorem compose_last : forall e dev ss cs s c m1 o1, ss <> [] ->
  m_update e dev (MS ss c []) = (m1, o1) ->
  exists s1 oa s2 ob,
    run cs (map (fun e => CInput e dev) (seen_by_all e)) s = (s1, oa) /\
    passes dev cs s1 o1 s2 ob /\
    m_update e dev (MS (ss ++ [(cs, s)]) c []) = (MS (m_stages m1 ++ [(cs, s2)]) c [], oa ++ ob).
Proof.
  intros e dev ss cs s c m1 o1 Hne H. unfold m_update in *. cbn [m_buf m_stages m_client] in *.
  rewrite update_loop_app.
  destruct (update_loop true e dev ([] ++ [e]) ss) as [l1 o] eqn:E1. injection H as <- <-.
  replace (match ss with [] => true | _ => false end) with false by (destruct ss; [contradiction|reflexivity]).
  cbn [update_loop negb]. rewrite andb_true_r. cbn [andb].
  assert (Hv : ek e = k_timeout -> is_virtual_key (ek e) = false) by (intros ->; reflexivity).
  set (so := if is_virtual_key (ek e) then _ else _).
  assert (Hso : so = run cs (map (fun e => CInput e dev) (seen_by_all e)) s).
  { unfold so, seen_by_all, update_stage. clear so. destruct (N.eqb_spec (ek e) k_timeout) as [Et|Et].
    - rewrite (Hv Et). cbn [orb map run do_call fst snd]. destruct (update cs e dev s). cbn.
      rewrite app_nil_r. reflexivity.
    - cbn [orb]. destruct (is_virtual_key (ek e)); cbn [map run do_call fst snd]; [|reflexivity].
      destruct (update cs e dev s). cbn. rewrite app_nil_r. reflexivity. }
  clearbody so. destruct so as [s1 oa].
  destruct (feed_stage true dev cs o (s1, oa)) as [s2 out] eqn:Ef.
  destruct (feed_passes _ _ _ _ _ _ _ Ef) as (ob & -> & Hp).
  exists s1, oa, s2, ob. split; [symmetry; exact Hso|]. split; [exact Hp|]. reflexivity.
Qed.

Theorem no_stages : forall e dev c, m_update e dev (MS [] c []) = (MS [] c [], [e]).
Proof. reflexivity. Qed.

Theorem single_stage : forall e dev cs s c s' o, update cs e dev s = (s', o) ->
  m_update e dev (MS [(cs, s)] c []) = (MS [(cs, s')] c [], o).
Proof.
  intros e dev cs s c s' o H. unfold m_update. cbn [m_buf m_stages m_client app update_loop negb].
  rewrite andb_false_r. cbn [andb feed_stage]. unfold update_stage. cbn [fst snd]. rewrite H. reflexivity.
Qed.

(** * Contexts *)

Lemma contexts_loop_app : forall idx l1 l2 off buf,
  contexts_loop idx off buf (l1 ++ l2) =
  let '(l1', o1) := contexts_loop idx off buf l1 in
  let '(l2', o2) := contexts_loop idx (off + offset (length l1) l1) o1 l2 in
  (l1' ++ l2', o2).
Proof.
  intros idx. induction l1 as [|[cs s] l1 IH]; intros l2 off buf.
  - cbn. rewrite Z.add_0_r. destruct (contexts_loop idx off buf l2). reflexivity.
  - cbn [app contexts_loop length].
    destruct (feed_stage _ _ _ _ _) as [s1 o1].
    destruct (set_active_client_contexts _ _ _) as [s2 o2]. rewrite IH.
    destruct (contexts_loop idx _ (o1 ++ o2) l1) as [l1' o1'].
    unfold offset. cbn [firstn fold_right fst]. rewrite !Z.add_assoc.
    destruct (contexts_loop idx _ o1' l2). reflexivity.
Qed.

Lemma offset_app : forall l1 l2, offset (length l1) (l1 ++ l2) = offset (length l1) l1.
Proof. intros. unfold offset. rewrite firstn_app, Nat.sub_diag, firstn_all. cbn. rewrite app_nil_r. reflexivity. Qed.

Lemma set_contexts_client : forall cs l s, s_client (fst (set_active_client_contexts cs l s)) = l.
Proof.
  intros. unfold set_active_client_contexts. cbn [fst].
  pose proof (update_active_frame cs (set_client l s)) as F. unfold same_ctx in F.
  destruct F as (F & _). cbn. rewrite F. reflexivity.
Qed.

(** The last stage: it gets the output of the others and then its own contexts. *)
Theorem contexts_last : forall idx ss cs s c m1 o1,
  m_set_active_client_contexts idx (MS ss c []) = (m1, o1) ->
  exists s1 oa s2 ob l,
    passes no_device cs s o1 s1 oa /\
    l = stage_indices (offset (length ss) ss) (offset (length ss) ss + Z.of_nat (length cs)) idx /\
    do_call cs (CContexts l) s1 = (s2, ob) /\
    m_set_active_client_contexts idx (MS (ss ++ [(cs, s)]) c []) =
      (MS (m_stages m1 ++ [(cs, s2)]) idx (oa ++ ob), oa ++ ob).
Proof.
  intros idx ss cs s c m1 o1 H. unfold m_set_active_client_contexts in *. cbn [m_buf m_stages] in *.
  rewrite contexts_loop_app.
  destruct (contexts_loop idx 0 [] ss) as [l1 o] eqn:E1. injection H as <- <-.
  cbn [contexts_loop]. rewrite Z.add_0_l.
  destruct (feed_stage true no_device cs o (s, [])) as [s1 oa] eqn:Ef.
  destruct (feed_passes _ _ _ _ _ _ _ Ef) as (r & -> & Hp). cbn [app].
  destruct (set_active_client_contexts _ _ s1) as [s2 ob] eqn:Es.
  exists s1, r, s2, ob, (stage_indices (offset (length ss) ss) (offset (length ss) ss + Z.of_nat (length cs)) idx).
  cbn [do_call m_stages]. auto.
Qed.

Lemma contexts_loop_nth : forall idx l off buf l' o j cs s,
  contexts_loop idx off buf l = (l', o) -> nth_error l j = Some (cs, s) ->
  exists s', nth_error l' j = Some (cs, s') /\
    s_client s' = stage_indices (off + offset j l) (off + offset j l + Z.of_nat (length cs)) idx.
Proof.
  intros idx. induction l as [|[cs0 s0] l IH]; intros off buf l' o j cs s H Hj; [destruct j; discriminate|].
  cbn [contexts_loop] in H. destruct (feed_stage _ _ _ _ _) as [s1 o1].
  pose proof (set_contexts_client cs0 (stage_indices off (off + Z.of_nat (length cs0)) idx) s1) as Hc.
  destruct (set_active_client_contexts _ _ _) as [s2 o2]. cbn [fst] in Hc.
  destruct (contexts_loop idx _ _ l) as [l1 ol] eqn:El. injection H as <- <-.
  destruct j as [|j].
  - injection Hj as <- <-. exists s2. split; [reflexivity|]. unfold offset. cbn. rewrite Z.add_0_r. exact Hc.
  - cbn in Hj. destruct (IH _ _ _ _ _ _ _ El Hj) as (s' & H1 & H2). exists s'. split; [exact H1|].
    rewrite H2. unfold offset. cbn [firstn fold_right fst]. rewrite !Z.add_assoc. reflexivity.
Qed.

Lemma contexts_loop_length : forall idx l off buf l' o,
  contexts_loop idx off buf l = (l', o) -> map fst l' = map fst l.
Proof.
  intros idx. induction l as [|[cs s] l IH]; intros off buf l' o H; cbn [contexts_loop] in H.
  - injection H as <- <-. reflexivity.
  - destruct (feed_stage _ _ _ _ _) as [s1 o1]. destruct (set_active_client_contexts _ _ _) as [s2 o2].
    destruct (contexts_loop idx _ _ l) as [l1 ol] eqn:El. injection H as <- <-.
    cbn [map fst]. rewrite (IH _ _ _ _ El). reflexivity.
Qed.

Theorem contexts_routed : forall idx m j cs s,
  nth_error (m_stages m) j = Some (cs, s) ->
  exists s', nth_error (m_stages (fst (m_set_active_client_contexts idx m))) j = Some (cs, s') /\
    s_client s' = map (fun i => Z.to_nat (i - offset j (m_stages m)))
      (List.filter (fun i => (offset j (m_stages m) <=? i)%Z &&
                             (i <? offset j (m_stages m) + Z.of_nat (length cs))%Z) idx).
Proof.
  intros idx m j cs s H. unfold m_set_active_client_contexts.
  destruct (contexts_loop idx 0 (m_buf m) (m_stages m)) as [l o] eqn:E.
  destruct (contexts_loop_nth _ _ _ _ _ _ _ _ _ E H) as (s' & H1 & H2). rewrite Z.add_0_l in H2. exists s'. split; [exact H1|].
  rewrite H2. reflexivity.
Qed.

Lemma stage_indices_bounds : forall lo n idx,
  Forall (fun i => (i < n)%nat) (stage_indices lo (lo + Z.of_nat n) idx).
Proof.
  intros lo n idx. unfold stage_indices. rewrite Forall_map. apply Forall_forall.
  intros i Hi. apply filter_In in Hi. destruct Hi as [_ Hi]. apply andb_prop in Hi. lia.
Qed.

(** Every index of the configuration belongs to exactly one stage. *)
Lemma context_owner : forall l i, (0 <= i < offset (length l) l)%Z ->
  exists j cs s, nth_error l j = Some (cs, s) /\ (offset j l <= i < offset j l + Z.of_nat (length cs))%Z.
Proof.
  induction l as [|[cs s] l IH]; intros i Hi; [unfold offset in Hi; cbn in Hi; lia|].
  unfold offset in Hi. cbn [length firstn fold_right fst] in Hi.
  destruct (Z_lt_dec i (Z.of_nat (length cs))) as [Hl|Hl].
  - exists 0%nat, cs, s. split; [reflexivity|]. unfold offset. cbn. lia.
  - destruct (IH (i - Z.of_nat (length cs))%Z) as (j & cs' & s' & Hj & Hb).
    { unfold offset. lia. }
    exists (S j), cs', s'. split; [exact Hj|]. unfold offset in *. cbn [firstn fold_right fst]. lia.
Qed.

Lemma offset_mono : forall l j k, (j <= k)%nat -> (0 <= offset j l <= offset k l)%Z.
Proof.
  induction l as [|[cs s] l IH]; intros j k H.
  - unfold offset. rewrite !firstn_nil. cbn. lia.
  - destruct j as [|j], k as [|k]; unfold offset in *; cbn [firstn fold_right fst]; try lia.
    + specialize (IH 0%nat k ltac:(lia)). cbn [firstn fold_right] in IH. lia.
    + specialize (IH j k ltac:(lia)). lia.
Qed.

Lemma offset_next : forall l j cs s, nth_error l j = Some (cs, s) ->
  offset (S j) l = (offset j l + Z.of_nat (length cs))%Z.
Proof.
  induction l as [|[c0 s0] l IH]; intros [|j] cs s H; try discriminate.
  - injection H as -> ->. unfold offset. cbn. lia.
  - cbn in H. specialize (IH _ _ _ H). unfold offset in *. cbn [firstn fold_right fst] in *. lia.
Qed.

Lemma context_owner_unique : forall l i j k cj sj ck sk,
  nth_error l j = Some (cj, sj) -> nth_error l k = Some (ck, sk) ->
  (offset j l <= i < offset j l + Z.of_nat (length cj))%Z ->
  (offset k l <= i < offset k l + Z.of_nat (length ck))%Z -> j = k.
Proof.
  intros l i j k cj sj ck sk Hj Hk H1 H2.
  rewrite <- (offset_next _ _ _ _ Hj) in H1. rewrite <- (offset_next _ _ _ _ Hk) in H2.
  destruct (Nat.lt_trichotomy j k) as [H|[H|H]]; [|exact H|]; exfalso.
  - pose proof (offset_mono l (S j) k H). lia.
  - pose proof (offset_mono l (S k) j H). lia.
Qed.

(** * Safety *)

Definition sinv (m : wheel_mode) (st : stage) : Prop :=
  wf_stage_config (fst st) /\ inv (fst st) m (snd st) /\ shp no_none_key (snd st).

Lemma nn_timeout : no_none_key k_timeout. Proof. discriminate. Qed.

Lemma wf_event_ok_seq : forall e, wf_event e -> ok_seq no_none_key e.
Proof.
  intros e [Hn H]. split; [exact Hn|]. intros E. destruct H as [(_ & _ & H)|(H & _)]; [exact H|congruence].
Qed.

Lemma ok_out_input : forall e, ok_out no_none_key e -> is_server_event e = false ->
  wf_event e /\ mode_step None e None.
Proof.
  intros e (Hk & Hs & Hv) Hn. unfold is_server_event in Hn.
  apply orb_false_elim in Hn. destruct Hn as [Hn _]. apply orb_false_elim in Hn. destruct Hn as [Hn _].
  apply N.eqb_neq in Hn. split.
  - split; [exact Hk|]. destruct Hs as [Hs|[Hs|Hs]]; [| |contradiction].
    + left. split; [exact Hs|]. split; [exact Hn|]. destruct Hv as [Hv|[Hv|[Hv _]]]; [auto|contradiction|auto].
    + right. split; [exact Hs|]. destruct Hv as [Hv|[Hv|[_ Hv]]]; [auto|contradiction|congruence].
  - split; [|reflexivity]. intros _ Hu. destruct Hv as [Hv|[Hv|[_ Hv]]]; [exact Hv|contradiction|congruence].
Qed.

Lemma sinv_update : forall m m' e dev cs s, wf_event e -> valid_device dev = true -> mode_step m e m' ->
  sinv m (cs, s) -> sinv m' (cs, fst (update cs e dev s)) /\ Forall (ok_out no_none_key) (snd (update cs e dev s)).
Proof.
  intros m m' e dev cs s He Hd Hm (Hc & Hi & Hs). cbn [fst snd] in *.
  destruct (update_shape no_none_key nn_timeout cs (proj2 Hc) e dev s (wf_event_ok_seq e He) Hs) as [S1 S2].
  destruct (update_inv cs (proj1 Hc) m m' e dev s He Hd Hm Hi) as [I1 _].
  split; [|exact S2]. split; [exact Hc|]. split; assumption.
Qed.

Lemma feed_safe : forall dev cs l s (o : sequence), valid_device dev = true -> Forall (ok_out no_none_key) l ->
  sinv None (cs, s) -> Forall (ok_out no_none_key) o ->
  let '(s', o') := feed_stage true dev cs l (s, o) in
  sinv None (cs, s') /\ Forall (ok_out no_none_key) o'.
Proof.
  intros dev cs. induction l as [|e l IH]; intros s o Hd Hl Hs Ho; cbn [feed_stage]; [auto|].
  inversion_clear Hl. destruct (is_server_event e) eqn:Es; cbn [andb fst snd].
  - apply IH; auto. apply Forall_app. split; [exact Ho|constructor; [assumption|constructor]].
  - destruct (ok_out_input e H Es) as [Hw Hm]. unfold update_stage. cbn [fst snd].
    destruct (sinv_update None None e dev cs s Hw Hd Hm Hs) as [H1 H2].
    destruct (update cs e dev s) as [s1 o1]. cbn [fst snd] in *.
    apply IH; auto. apply Forall_app. auto.
Qed.

Definition minv (m : wheel_mode) (ms : mstage) : Prop :=
  m_buf ms = [] /\
  match m_stages ms with
  | [] => True
  | st :: r => sinv m st /\ Forall (sinv None) r
  end.

Lemma special_not_wheel : forall k, k = k_timeout \/ is_virtual_key k = true -> is_mouse_wheel k = false.
Proof.
  intros k [->|H]; [reflexivity|]. unfold is_virtual_key, is_mouse_wheel, in_range in *.
  apply andb_prop in H. destruct H as [H1 H2]. apply N.leb_le in H1. apply N.leb_le in H2.
  apply andb_false_iff. right. apply N.leb_gt. eapply N.lt_le_trans; [|exact H1]. reflexivity.
Qed.

Lemma direct_mode : forall e, ek e = k_timeout \/ is_virtual_key (ek e) = true -> mode_step None e None.
Proof. intros e H. split; [|reflexivity]. rewrite (special_not_wheel _ H). discriminate. Qed.

Lemma later_safe : forall e dev l buf, wf_event e -> valid_device dev = true ->
  Forall (sinv None) l -> Forall (ok_out no_none_key) buf ->
  let '(l', o) := update_loop false e dev buf l in
  Forall (sinv None) l' /\ Forall (ok_out no_none_key) o.
Proof.
  intros e dev. induction l as [|[cs s] l IH]; intros buf He Hd Hl Hb; cbn [update_loop]; [auto|].
  inversion_clear Hl. cbn [negb]. rewrite andb_true_r. cbn [andb].
  assert (Hstep : forall so, sinv None (cs, fst so) /\ Forall (ok_out no_none_key) (snd so) ->
            (ek e = k_timeout \/ is_virtual_key (ek e) = true) ->
            sinv None (cs, fst (update_stage dev cs e so)) /\ Forall (ok_out no_none_key) (snd (update_stage dev cs e so))).
  { intros [s1 o1] [Ha Hb1] Hk. cbn [fst snd] in *. unfold update_stage. cbn [fst snd].
    destruct (sinv_update None None e dev cs s1 He Hd (direct_mode e Hk) Ha) as [G1 G2].
    destruct (update cs e dev s1). cbn [fst snd] in *. split; [exact G1|]. apply Forall_app. auto. }
  set (so1 := if ek e =? k_timeout then _ else _).
  assert (H1 : sinv None (cs, fst so1) /\ Forall (ok_out no_none_key) (snd so1)).
  { unfold so1. destruct (N.eqb_spec (ek e) k_timeout); [apply Hstep; [split; [exact H|constructor]|left; assumption]|split; [exact H|constructor]]. }
  clearbody so1. set (so2 := if is_virtual_key (ek e) then _ else _).
  assert (H2 : sinv None (cs, fst so2) /\ Forall (ok_out no_none_key) (snd so2)).
  { unfold so2. destruct (is_virtual_key (ek e)) eqn:Ev; [apply Hstep; auto|exact H1]. }
  clearbody so2. destruct so2 as [s2 o2]. cbn [fst snd] in H2.
  pose proof (feed_safe dev cs buf s2 o2 Hd Hb (proj1 H2) (proj2 H2)) as Hf.
  destruct (feed_stage true dev cs buf (s2, o2)) as [s3 o3].
  specialize (IH o3 He Hd H0 (proj2 Hf)). destruct (update_loop false e dev o3 l) as [l' o'].
  split; [constructor; [apply Hf|apply IH]|apply IH].
Qed.

Lemma m_update_safe : forall m m' e dev ms, wf_event e -> valid_device dev = true -> mode_step m e m' ->
  minv m ms -> minv m' (fst (m_update e dev ms)) /\
  (m_stages ms <> [] -> Forall (ok_out no_none_key) (snd (m_update e dev ms))).
Proof.
  intros m m' e dev [st c b] He Hd Hm [Hb Hst]. cbn [m_buf m_stages] in *. subst b.
  unfold m_update. cbn [m_buf m_stages m_client app]. destruct st as [|[cs s] r].
  - cbn. split; [split; [reflexivity|exact I]|]. intros H. contradiction.
  - destruct Hst as [Hs Hr]. cbn [update_loop negb]. rewrite andb_false_r. cbn [andb feed_stage].
    unfold update_stage. cbn [fst snd].
    destruct (sinv_update m m' e dev cs s He Hd Hm Hs) as [H1 H2].
    destruct (update cs e dev s) as [s1 o1]. cbn [fst snd app] in *.
    pose proof (later_safe e dev r o1 He Hd Hr H2) as H3.
    destruct (update_loop false e dev o1 r) as [r' o']. cbn [fst snd].
    split; [|intros _; apply H3]. split; [reflexivity|]. cbn [m_stages]. split; [exact H1|apply H3].
Qed.

Lemma sinv_contexts : forall m cs l s, Forall (fun i => (i < length cs)%nat) l -> sinv m (cs, s) ->
  sinv m (cs, fst (set_active_client_contexts cs l s)) /\
  Forall (ok_out no_none_key) (snd (set_active_client_contexts cs l s)).
Proof.
  intros m cs l s Hl (Hc & Hi & Hs). cbn [fst snd] in *.
  destruct (set_contexts_shape no_none_key cs (proj2 Hc) l s Hs) as [S1 S2].
  split; [|exact S2]. split; [exact Hc|]. split; [|exact S1].
  apply (set_contexts_inv cs (proj1 Hc)); assumption.
Qed.

Lemma contexts_later_safe : forall idx l off buf,
  Forall (sinv None) l -> Forall (ok_out no_none_key) buf ->
  let '(l', o) := contexts_loop idx off buf l in
  Forall (sinv None) l' /\ Forall (ok_out no_none_key) o.
Proof.
  intros idx. induction l as [|[cs s] l IH]; intros off buf Hl Hb; cbn [contexts_loop]; [auto|].
  inversion_clear Hl.
  pose proof (feed_safe no_device cs buf s [] eq_refl Hb H (Forall_nil _)) as Hf.
  unfold sequence in *. destruct (feed_stage true no_device cs buf (s, [])) as [s1 o1]. destruct Hf as [F1 F2].
  destruct (sinv_contexts None cs _ s1 (stage_indices_bounds off (length cs) idx) F1) as [G1 G2].
  destruct (set_active_client_contexts _ _ s1) as [s2 o2]. cbn [fst snd] in *.
  specialize (IH (off + Z.of_nat (length cs))%Z (o1 ++ o2) H0).
  destruct (contexts_loop idx _ (o1 ++ o2) l) as [l' o'].
  destruct IH as [I1 I2]; [apply Forall_app; auto|]. auto.
Qed.

Lemma m_contexts_safe : forall m idx ms, minv m ms ->
  minv m (m_reuse_buffer (fst (m_set_active_client_contexts idx ms))) /\
  Forall (ok_out no_none_key) (snd (m_set_active_client_contexts idx ms)).
Proof.
  intros m idx [st c b] [Hb Hst]. cbn [m_buf m_stages] in *. subst b.
  unfold m_set_active_client_contexts. cbn [m_buf m_stages]. destruct st as [|[cs s] r].
  - cbn. split; [split; [reflexivity|exact I]|constructor].
  - destruct Hst as [Hs Hr]. cbn [contexts_loop feed_stage].
    destruct (sinv_contexts m cs _ s (stage_indices_bounds 0 (length cs) idx) Hs) as [G1 G2].
    destruct (set_active_client_contexts _ _ s) as [s2 o2]. cbn [fst snd app] in *.
    pose proof (contexts_later_safe idx r (0 + Z.of_nat (length cs)) o2 Hr G2) as H3.
    destruct (contexts_loop idx _ o2 r) as [r' o']. cbn [fst snd].
    split; [|apply H3]. split; [reflexivity|]. cbn [m_stages m_reuse_buffer]. split; [exact G1|apply H3].
Qed.

Lemma m_validate_safe : forall m f ms, minv m ms -> minv m (m_validate_state f ms).
Proof.
  intros m f [st c b] [Hb Hst]. unfold m_validate_state. cbn [m_stages m_buf m_client] in *.
  destruct st as [|[cs s] r]; [split; auto|]. destruct Hst as [(Hc & Hi & Hs) Hr]. cbn [fst snd] in *.
  split; [exact Hb|]. cbn [m_stages]. split; [|exact Hr]. split; [exact Hc|]. cbn [fst snd].
  split; [apply validate_inv; exact Hi|apply validate_shape; exact Hs].
Qed.

Lemma eval_filters_shape : forall ds cs,
  length (evaluate_device_filters ds cs) = length cs /\
  has_nmm_mapping (evaluate_device_filters ds cs) = has_nmm_mapping cs.
Proof.
  intros ds cs. unfold evaluate_device_filters. split; [apply map_length|].
  unfold has_nmm_mapping. induction cs as [|c cs IH]; [reflexivity|]. cbn [map existsb]. rewrite IH. reflexivity.
Qed.

Lemma sinv_devices : forall ds m cs s, sinv m (cs, s) -> sinv m (evaluate_device_filters ds cs, s).
Proof.
  intros ds m cs s (((Hw & Hch) & Ho) & Hi & Hs). cbn [fst snd] in *.
  destruct (eval_filters_shape ds cs) as [El En].
  split; [split; [split|]|split; [|exact Hs]]; cbn [fst snd].
  - unfold evaluate_device_filters. rewrite Forall_map. eapply Forall_impl; [|exact Hw]. intros c Hc. exact Hc.
  - intros i c Hn Hf. rewrite El. unfold evaluate_device_filters in Hn. rewrite nth_error_map in Hn.
    destruct (nth_error cs i) as [c0|] eqn:E; [|discriminate]. injection Hn as <-. eapply Hch; eauto.
  - unfold wf_outputs, evaluate_device_filters in *. rewrite Forall_map. eapply Forall_impl; [|exact Ho]. intros c Hc. exact Hc.
  - destruct Hi as [I1 I2 I3 I4 I5 I6 I7]. constructor; auto.
    + unfold in_bounds in *. rewrite El. exact I3.
    + unfold in_bounds in *. rewrite El. exact I4.
    + destruct I7. constructor; auto. rewrite En. assumption.
Qed.

Lemma m_devices_safe : forall m ds ms, minv m ms -> minv m (m_evaluate_device_filters ds ms).
Proof.
  intros m ds [st c b] [Hb Hst]. unfold m_evaluate_device_filters. cbn [m_stages m_buf m_client] in *.
  split; [exact Hb|]. cbn [m_stages]. destruct st as [|[cs s] r]; [exact I|]. cbn [map fst snd].
  destruct Hst as [Hs Hr]. split; [apply sinv_devices; exact Hs|]. rewrite Forall_map.
  eapply Forall_impl; [|exact Hr]. intros [cs' s'] H. apply sinv_devices. exact H.
Qed.

Lemma minv_init : forall m cfg, Forall wf_stage_config cfg -> minv m (new_multi_stage cfg).
Proof.
  intros m cfg H. split; [reflexivity|]. unfold new_multi_stage. cbn [m_stages].
  assert (G : forall m cs, wf_stage_config cs -> sinv m (new_stage cs, init_state)).
  { intros m' cs [H1 H2]. split; [split|split]; cbn [fst snd].
    - apply wf_new_stage. exact H1.
    - unfold wf_outputs, new_stage in *. rewrite Forall_map. eapply Forall_impl; [|exact H2].
      intros c [Hc1 Hc2]. cbn [sort_context cx_outputs cx_commands]. split; [exact Hc1|].
      destruct (sort_commands_spec (cx_commands c)) as [_ Hp].
      rewrite Forall_forall in *. intros x Hx. apply Hc2. eapply Permutation.Permutation_in; [|exact Hx].
      apply Permutation.Permutation_sym. exact Hp.
    - apply init_inv.
    - apply init_shape. }
  destruct cfg as [|cs cfg]; [exact I|]. inversion_clear H. cbn [map]. split; [apply G; assumption|].
  rewrite Forall_map. eapply Forall_impl; [|exact H1]. intros. apply G. assumption.
Qed.

Lemma minv_reuse : forall m ms, minv m ms -> minv m (m_reuse_buffer ms).
Proof. intros m ms [H1 H2]. split; [reflexivity|exact H2]. Qed.

Lemma stages_ne : forall c ms, m_stages ms <> [] -> m_stages (fst (do_mcall c ms)) <> [].
Proof.
  intros [e dev|l|f|ds] [st cl b] H; cbn [do_mcall m_stages] in *.
  - unfold m_update. cbn [m_stages m_buf m_client]. destruct st as [|[cs s] r]; [contradiction|].
    cbn [update_loop]. destruct (feed_stage _ _ _ _ _). destruct (update_loop _ _ _ _ _). discriminate.
  - unfold m_set_active_client_contexts. cbn [m_stages m_buf m_client]. destruct st as [|[cs s] r]; [contradiction|].
    cbn [contexts_loop]. destruct (feed_stage _ _ _ _ _). destruct (set_active_client_contexts _ _ _).
    destruct (contexts_loop _ _ _ _). discriminate.
  - unfold m_validate_state. cbn [m_stages]. destruct st as [|[cs s] r]; [contradiction|]. discriminate.
  - unfold m_evaluate_device_filters. cbn [fst m_stages]. destruct st; [contradiction|]. discriminate.
Qed.

Lemma do_mcall_safe : forall c m m' ms, wf_mcall c ->
  match c with MInput e _ => mode_step m e m' | _ => m' = m end -> minv m ms ->
  minv m' (fst (do_mcall c ms)) /\
  (m_stages ms <> [] -> Forall (ok_out no_none_key) (snd (do_mcall c ms))).
Proof.
  intros [e dev|l|f|ds] m m' ms Hw Hm Hi; cbn [do_mcall].
  - destruct Hw as [He Hd]. destruct (m_update_safe m m' e dev ms He Hd Hm Hi) as [H1 H2].
    destruct (m_update e dev ms) as [ms' o]. cbn [fst snd] in *. split; [apply minv_reuse; exact H1|exact H2].
  - subst m'. destruct (m_contexts_safe m l ms Hi) as [H1 H2].
    destruct (m_set_active_client_contexts l ms) as [ms' o]. cbn [fst snd] in *. auto.
  - subst m'. cbn [fst snd]. split; [apply m_validate_safe; exact Hi|constructor].
  - subst m'. cbn [fst snd]. split; [apply m_devices_safe; exact Hi|constructor].
Qed.

Lemma mrun_safe : forall l m m' ms, Forall wf_mcall l -> mode_steps m (map wheel_call l) m' -> minv m ms ->
  minv m' (fst (mrun l ms)) /\
  (m_stages ms <> [] -> Forall (ok_out no_none_key) (snd (mrun l ms))).
Proof.
  induction l as [|c l IH]; intros m m' ms Hl Hm Hi.
  - cbn in *. subst m'. split; [exact Hi|constructor].
  - inversion_clear Hl. cbn [map] in Hm. cbn [mrun].
    assert (Hs : exists m1, match c with MInput e _ => mode_step m e m1 | _ => m1 = m end /\
                   mode_steps m1 (map wheel_call l) m').
    { destruct c; cbn [wheel_call mode_steps] in Hm; [destruct Hm as (m1 & H1 & H2); exists m1; auto|..];
        exists m; auto. }
    destruct Hs as (m1 & H1 & H2).
    destruct (do_mcall_safe c m m1 ms H H1 Hi) as [H3 H4].
    pose proof (stages_ne c ms) as H5.
    destruct (do_mcall c ms) as [ms1 o1]. cbn [fst snd] in *.
    destruct (IH m1 m' ms1 H0 H2 H3) as [H6 H7]. destruct (mrun l ms1) as [ms2 o2]. cbn [fst snd] in *.
    split; [exact H6|]. intros Hne. apply Forall_app. auto.
Qed.

Theorem multi_safe : forall cfg l, Forall wf_stage_config cfg -> Forall wf_mcall l ->
  wheels_ok (map wheel_call l) ->
  Forall (fun st => s_ub (snd st) = false /\ s_oof (snd st) = false)
         (m_stages (fst (mrun l (new_multi_stage cfg)))) /\
  (cfg <> [] -> Forall (ok_out no_none_key) (snd (mrun l (new_multi_stage cfg)))).
Proof.
  intros cfg l Hc Hl Hw. destruct (wheels_steps _ Hw) as (m & m' & Hm).
  destruct (mrun_safe l m m' _ Hl Hm (minv_init m cfg Hc)) as [[_ H1] H2].
  assert (G : forall m st, sinv m st -> s_ub (snd st) = false /\ s_oof (snd st) = false).
  { intros m0 st (_ & Hi & _). split; apply Hi. }
  split.
  - destruct (m_stages _) as [|st r]; [constructor|]. destruct H1 as [Hs Hr].
    constructor; [eapply G; exact Hs|]. eapply Forall_impl; [|exact Hr]. intros a. apply G.
  - intros Hne. apply H2. unfold new_multi_stage. cbn [m_stages]. destruct cfg; [contradiction|discriminate].
Qed.

(** * The held output keys *)

Definition plain_key (k : key) : Prop := is_device_key k = true.

Lemma plain_key_server : forall k, plain_key k ->
  k <> k_timeout /\ is_virtual_key k = false /\ is_action_key k = false.
Proof.
  intros k H.
  assert (Hb : k <= last_keyboard_key).
  { unfold plain_key, is_device_key, is_keyboard_key, is_mouse_button, is_mouse_wheel, in_range in H.
    destruct (N.leb_spec k last_keyboard_key) as [Hk|Hk]; [exact Hk|].
    assert (ButtonForward < k) by (eapply N.le_lt_trans; [|exact Hk]; discriminate).
    assert (WheelRight < k) by (eapply N.le_lt_trans; [|exact Hk]; discriminate).
    apply N.leb_gt in H0. apply N.leb_gt in H1. rewrite H0, H1, !andb_false_r in H. discriminate. }
  split; [intros ->; discriminate|]. unfold is_virtual_key, is_action_key, in_range.
  split; apply andb_false_iff; left; apply N.leb_gt; (eapply N.le_lt_trans; [exact Hb|reflexivity]).
Qed.

Lemma down_after_app_other : forall D e k, ek e <> k -> is_down_after (D ++ [e]) k = is_down_after D k.
Proof. intros. rewrite down_after_snoc. apply N.eqb_neq in H. rewrite H. reflexivity. Qed.

(** [D] is what the last stage produced, [T] what was delivered. *)
Definition agree (D T : sequence) : Prop := forall k, plain_key k -> is_down_after T k = is_down_after D k.

Lemma down_after_app : forall A B k,
  is_down_after (A ++ B) k = match find_last (has_key k) B with Some e => kstate_eqb (es e) Down | None => is_down_after A k end.
Proof.
  intros A B k. unfold is_down_after. rewrite find_last_app. destruct (find_last (has_key k) B); reflexivity.
Qed.
Lemma agree_app : forall D T o, agree D T -> agree (D ++ o) (T ++ o).
Proof.
  intros D T o H k Hk. rewrite !down_after_app. destruct (find_last _ o); [reflexivity|apply H; exact Hk].
Qed.
Lemma agree_server : forall D T e, is_server_event e = true -> agree D T -> agree D (T ++ [e]).
Proof.
  intros D T e He H k Hk. rewrite down_after_app_other; [apply H; exact Hk|].
  intros E. subst k. destruct (plain_key_server _ Hk) as (H1 & H2 & H3). unfold is_server_event in He.
  apply N.eqb_neq in H1. rewrite H1, H2, H3 in He. discriminate.
Qed.

Definition linv (T : sequence) (st : stage) : Prop :=
  balanced_config (fst st) /\ s_buf (snd st) = [] /\ exists D, oi D (snd st) /\ agree D T.

Lemma linv_call : forall T cs s c, is_validate c = false -> linv T (cs, s) ->
  linv (T ++ snd (do_call cs c s)) (cs, fst (do_call cs c s)).
Proof.
  intros T cs s c Hv (Hb & He & D & Ho & Ha). cbn [fst snd] in *.
  split; [exact Hb|]. split; [destruct c; [reflexivity|reflexivity|discriminate]|].
  exists (D ++ snd (do_call cs c s)). split; [apply (do_call_oi cs Hb D c s Hv Ho)|].
  apply agree_app. exact Ha.
Qed.

Lemma linv_passes : forall dev cs s l s' o T, passes dev cs s l s' o -> linv T (cs, s) -> linv (T ++ o) (cs, s').
Proof.
  intros dev cs s l s' o T H. revert T.
  induction H as [s|s e l s' o He H IH|s e l s1 o1 s' o He Hc H IH]; intros T Hl.
  - rewrite app_nil_r. exact Hl.
  - change (e :: o) with ([e] ++ o). rewrite app_assoc. apply IH.
    destruct Hl as (H1 & H2 & D & H3 & H4). split; [exact H1|]. split; [exact H2|]. exists D.
    split; [exact H3|]. apply agree_server; assumption.
  - rewrite app_assoc. apply IH. pose proof (linv_call T cs s (CInput e dev) eq_refl Hl) as G.
    rewrite Hc in G. exact G.
Qed.

Lemma linv_run : forall cs l s T, Forall (fun c => is_validate c = false) l -> linv T (cs, s) ->
  linv (T ++ snd (run cs l s)) (cs, fst (run cs l s)).
Proof.
  intros cs. induction l as [|c l IH]; intros s T Hl H; [cbn; rewrite app_nil_r; exact H|].
  inversion_clear Hl. cbn [run]. pose proof (linv_call T cs s c H0 H) as G.
  destruct (do_call cs c s) as [s1 o1]. cbn [fst snd] in G. specialize (IH s1 _ H1 G).
  destruct (run cs l s1) as [s2 o2]. cbn [fst snd] in *. rewrite app_assoc. exact IH.
Qed.

(** The last stage keeps track of what was delivered. *)
Definition tracks (T : sequence) (ms : mstage) : Prop :=
  m_buf ms = [] /\ exists ss st, m_stages ms = ss ++ [st] /\ linv T st.

Lemma tracks_call : forall T c ms,
  (is_mvalidate c = true -> (2 <= length (m_stages ms))%nat) -> tracks T ms ->
  tracks (T ++ snd (do_mcall c ms)) (fst (do_mcall c ms)) /\
  length (m_stages (fst (do_mcall c ms))) = length (m_stages ms).
Proof.
  intros T c [stages cl b] Hv (Hbuf & ss & [cs s] & Hst & Hl). cbn [m_buf m_stages] in *. subst b stages.
  destruct c as [e dev|l|f|ds]; cbn [do_mcall].
  - destruct ss as [|st0 ss].
    + destruct (update cs e dev s) as [s' o] eqn:Eu. rewrite (single_stage _ _ _ _ _ _ _ Eu). cbn [fst snd m_reuse_buffer m_stages m_client].
      split; [|reflexivity]. split; [reflexivity|]. exists [], (cs, s'). split; [reflexivity|].
      pose proof (linv_call T cs s (CInput e dev) eq_refl Hl) as G. cbn [do_call] in G. rewrite Eu in G. exact G.
    + destruct (m_update e dev (MS (st0 :: ss) cl [])) as [m1 o1] eqn:E1.
      destruct (compose_last e dev (st0 :: ss) cs s cl m1 o1) as (s1 & oa & s2 & ob & Hr & Hp & Em); [discriminate|exact E1|].
      unfold stage in *. rewrite Em.
      cbn [fst snd m_reuse_buffer m_stages m_client]. split.
      * split; [reflexivity|]. exists (m_stages m1), (cs, s2). split; [reflexivity|]. rewrite app_assoc.
        eapply linv_passes; [exact Hp|].
        assert (Hnv : Forall (fun c => is_validate c = false) (map (fun e => CInput e dev) (seen_by_all e))).
        { rewrite Forall_map. apply Forall_forall. reflexivity. }
        pose proof (linv_run cs _ s T Hnv Hl) as G. rewrite Hr in G. exact G.
      * rewrite !app_length. f_equal.
        assert (Hlen : forall l first buf, length (fst (update_loop first e dev buf l)) = length l).
        { clear. induction l as [|[cs s] l IH]; intros first buf; [reflexivity|]. cbn [update_loop].
          destruct (feed_stage _ _ _ _ _) as [s1 o1]. specialize (IH false o1).
          destruct (update_loop false e dev o1 l). cbn in *. congruence. }
        unfold m_update in E1. cbn [m_buf m_stages m_client] in E1.
        specialize (Hlen (st0 :: ss) true ([] ++ [e])). destruct (update_loop true e dev ([] ++ [e]) (st0 :: ss)) as [l1 o1'].
        injection E1 as <- _. exact Hlen.
  - destruct (m_set_active_client_contexts l (MS ss cl [])) as [m1 o1] eqn:E1.
    destruct (contexts_last l ss cs s cl m1 o1 E1) as (s1 & oa & s2 & ob & il & Hp & Hil & Hc & Em).
    unfold stage in *. rewrite Em.
    cbn [fst snd m_reuse_buffer m_stages m_client]. split.
    + split; [reflexivity|]. exists (m_stages m1), (cs, s2). split; [reflexivity|]. rewrite app_assoc.
      pose proof (linv_call _ cs s1 (CContexts il) eq_refl (linv_passes _ _ _ _ _ _ _ Hp Hl)) as G.
      rewrite Hc in G. exact G.
    + rewrite !app_length. f_equal. unfold m_set_active_client_contexts in E1. cbn [m_buf m_stages] in E1.
      destruct (contexts_loop l 0 [] ss) as [l1 ol] eqn:El. injection E1 as <- <-. cbn [m_stages].
      apply contexts_loop_length in El. rewrite <- (map_length fst l1), El, map_length. reflexivity.
  - specialize (Hv eq_refl). rewrite app_length in Hv. cbn in Hv. cbn [fst snd]. rewrite app_nil_r.
    unfold m_validate_state. cbn [m_stages m_client m_buf].
    destruct ss as [|[cs0 s0] ss]; [cbn in Hv; lia|]. cbn [app m_stages]. split; [|reflexivity].
    split; [reflexivity|]. exists ((cs0, validate_state f s0) :: ss), (cs, s). split; [reflexivity|exact Hl].
  - cbn [fst snd]. rewrite app_nil_r. unfold m_evaluate_device_filters. cbn [m_stages m_client m_buf].
    rewrite map_app, !app_length, map_length. cbn [map length fst snd]. split; [|reflexivity].
    split; [reflexivity|]. eexists _, _. split; [reflexivity|].
    destruct Hl as (H1 & H2 & H3). split; [|split; [exact H2|exact H3]]. cbn [fst].
    unfold balanced_config, evaluate_device_filters in *. rewrite Forall_map.
    eapply Forall_impl; [|exact H1]. intros c Hc. exact Hc.
Qed.

Lemma tracks_run : forall l T ms,
  (forall c, In c l -> is_mvalidate c = true -> (2 <= length (m_stages ms))%nat) -> tracks T ms ->
  tracks (T ++ snd (mrun l ms)) (fst (mrun l ms)).
Proof.
  induction l as [|c l IH]; intros T ms Hv H; [cbn; rewrite app_nil_r; exact H|].
  cbn [mrun]. destruct (tracks_call T c ms (Hv c (or_introl eq_refl)) H) as [H1 H2].
  destruct (do_mcall c ms) as [m1 o1]. cbn [fst snd] in *.
  specialize (IH _ m1 ltac:(intros c' Hc Hval; rewrite H2; eapply Hv; [right; exact Hc|exact Hval]) H1).
  destruct (mrun l m1) as [m2 o2]. cbn [fst snd] in *. rewrite app_assoc. exact IH.
Qed.

Lemma tracks_init : forall cfg, cfg <> [] -> Forall balanced_config cfg -> tracks [] (new_multi_stage cfg).
Proof.
  intros cfg Hne Hb. split; [reflexivity|]. unfold new_multi_stage. cbn [m_stages].
  destruct (exists_last Hne) as (l & cs & ->). rewrite map_app. cbn [map].
  eexists _, _. split; [reflexivity|]. apply Forall_app in Hb. destruct Hb as [_ Hb]. inversion_clear Hb.
  split; [|split; [reflexivity|]]; cbn [fst snd].
  - unfold balanced_config, new_stage in *. rewrite Forall_map. eapply Forall_impl; [|exact H].
    intros c [Hc1 Hc2]. cbn [sort_context cx_outputs cx_commands]. split; [exact Hc1|].
    destruct (sort_commands_spec (cx_commands c)) as [_ Hp].
    rewrite Forall_forall in *. intros x Hx. apply Hc2. eapply Permutation.Permutation_in; [|exact Hx].
    apply Permutation.Permutation_sym. exact Hp.
  - exists []. split; [|intros k _; reflexivity]. split; [split; [constructor|cbn; discriminate]|constructor].
Qed.

Lemma tracks_held : forall T ms k, tracks T ms -> plain_key k -> is_down_after T k = true ->
  In k (m_output_keys_down ms).
Proof.
  intros T ms k (_ & ss & [cs s] & Hst & (_ & Hbuf & D & [[_ Hh] _] & Ha)) Hk Hd.
  unfold m_output_keys_down. rewrite Hst, back_snoc. cbn [snd fst] in *.
  rewrite Hbuf, app_nil_r in Hh. rewrite (Ha k Hk) in Hd.
  destruct (Hh k (proj1 (plain_key_server k Hk)) Hd) as (o & Hi & E1 & E2). unfold get_output_keys_down.
  apply filter_In. split; [|exact Hk]. apply in_map_iff. exists o. auto.
Qed.

Theorem multi_held : forall cfg l k, cfg <> [] -> Forall balanced_config cfg ->
  (forall c, In c l -> is_mvalidate c = true -> (2 <= length cfg)%nat) -> plain_key k ->
  is_down_after (snd (mrun l (new_multi_stage cfg))) k = true ->
  In k (m_output_keys_down (fst (mrun l (new_multi_stage cfg)))).
Proof.
  intros cfg l k Hne Hb Hv Hk Hd.
  assert (Hlen : length (m_stages (new_multi_stage cfg)) = length cfg) by (unfold new_multi_stage; cbn; apply map_length).
  eapply tracks_held; [|exact Hk|exact Hd].
  change (snd (mrun l (new_multi_stage cfg))) with ([] ++ snd (mrun l (new_multi_stage cfg))).
  apply tracks_run; [rewrite Hlen; exact Hv|]. apply tracks_init; assumption.
Qed.

(** * The keys which can be output *)

Section Keys.
Variable K : key -> Prop.
Hypothesis K_timeout : K k_timeout.

Definition kinv (st : stage) : Prop := wf_outputs K (fst st) /\ shp K (snd st).

Lemma ok_out_seq : forall e, ok_out K e -> is_server_event e = false -> ok_seq K e.
Proof.
  intros e (Hk & _ & Hv) Hn. split; [exact Hk|]. intros _. destruct Hv as [Hv|[Hv|[Hv _]]]; auto.
  unfold is_server_event in Hn. rewrite Hv in Hn. discriminate.
Qed.

Lemma kinv_stage : forall dev cs e so, ok_seq K e -> kinv (cs, fst so) /\ Forall (ok_out K) (snd so) ->
  kinv (cs, fst (update_stage dev cs e so)) /\ Forall (ok_out K) (snd (update_stage dev cs e so)).
Proof.
  intros dev cs e [s o] He [[H1 H2] H3]. cbn [fst snd] in *. unfold update_stage. cbn [fst snd].
  destruct (update_shape K K_timeout cs H1 e dev s He H2) as [S1 S2].
  destruct (update cs e dev s) as [s' o']. cbn [fst snd] in *.
  split; [split; assumption|]. apply Forall_app. auto.
Qed.

Lemma kinv_feed : forall dev cs l so, Forall (ok_out K) l ->
  kinv (cs, fst so) /\ Forall (ok_out K) (snd so) ->
  kinv (cs, fst (feed_stage true dev cs l so)) /\ Forall (ok_out K) (snd (feed_stage true dev cs l so)).
Proof.
  intros dev cs. induction l as [|e l IH]; intros so Hl H; [exact H|]. inversion_clear Hl.
  cbn [feed_stage]. apply IH; [assumption|]. destruct (is_server_event e) eqn:Es; cbn [andb].
  - cbn [fst snd]. split; [apply H|]. apply Forall_app. split; [apply H|]. constructor; [assumption|constructor].
  - apply kinv_stage; [apply ok_out_seq; assumption|exact H].
Qed.

Lemma kinv_later : forall e dev l buf, ok_seq K e -> Forall kinv l -> Forall (ok_out K) buf ->
  Forall kinv (fst (update_loop false e dev buf l)) /\ Forall (ok_out K) (snd (update_loop false e dev buf l)).
Proof.
  intros e dev. induction l as [|[cs s] l IH]; intros buf He Hl Hb; [split; [constructor|exact Hb]|].
  inversion_clear Hl. cbn [update_loop negb]. rewrite andb_true_r. cbn [andb].
  set (so1 := if ek e =? k_timeout then _ else _).
  assert (H1 : kinv (cs, fst so1) /\ Forall (ok_out K) (snd so1)).
  { unfold so1. destruct (ek e =? k_timeout); [apply kinv_stage; [exact He|]|]; (split; [exact H|constructor]). }
  clearbody so1. set (so2 := if is_virtual_key (ek e) then _ else _).
  assert (H2 : kinv (cs, fst so2) /\ Forall (ok_out K) (snd so2)).
  { unfold so2. destruct (is_virtual_key (ek e)); [apply kinv_stage; [exact He|]|]; exact H1. }
  clearbody so2. destruct (kinv_feed dev cs buf so2 Hb H2) as [F1 F2].
  destruct (feed_stage true dev cs buf so2) as [s3 o3]. cbn [fst snd] in *.
  destruct (IH o3 He H0 F2) as [I1 I2]. destruct (update_loop false e dev o3 l) as [l' o'].
  split; [constructor; assumption|exact I2].
Qed.

Definition kminv (ms : mstage) : Prop := m_buf ms = [] /\ Forall kinv (m_stages ms).

Lemma kinv_contexts_loop : forall idx l off buf, Forall kinv l -> Forall (ok_out K) buf ->
  Forall kinv (fst (contexts_loop idx off buf l)) /\ Forall (ok_out K) (snd (contexts_loop idx off buf l)).
Proof.
  intros idx. induction l as [|[cs s] l IH]; intros off buf Hl Hb; [split; [constructor|exact Hb]|].
  inversion_clear Hl. cbn [contexts_loop].
  destruct (kinv_feed no_device cs buf (s, []) Hb (conj H (Forall_nil _))) as [F1 F2].
  unfold sequence in *. destruct (feed_stage true no_device cs buf (s, [])) as [s1 o1]. cbn [fst snd] in *.
  destruct F1 as [F0 F1]. cbn [fst snd] in *.
  destruct (set_contexts_shape K cs F0 (stage_indices off (off + Z.of_nat (length cs)) idx) s1 F1) as [G1 G2].
  destruct (set_active_client_contexts _ _ s1) as [s2 o2]. cbn [fst snd] in *.
  destruct (IH (off + Z.of_nat (length cs))%Z (o1 ++ o2) H0) as [I1 I2]; [apply Forall_app; auto|].
  destruct (contexts_loop idx _ (o1 ++ o2) l) as [l' o']. cbn [fst snd] in *.
  split; [constructor; [split; assumption|assumption]|assumption].
Qed.

Lemma kminv_call : forall c ms, match c with MInput e _ => ok_seq K e | _ => True end -> kminv ms ->
  kminv (fst (do_mcall c ms)) /\ Forall (fun e => K (ek e)) (snd (do_mcall c ms)).
Proof.
  assert (OK : forall o, Forall (ok_out K) o -> Forall (fun e => K (ek e)) o).
  { intros o. apply Forall_impl. intros e (He & _). exact He. }
  intros [e dev|l|f|ds] [st c b] He [Hb Hst]; cbn [m_buf m_stages] in *; subst b; cbn [do_mcall].
  - unfold m_update. cbn [m_buf m_stages m_client app]. destruct st as [|[cs s] r].
    + cbn. split; [split; [reflexivity|constructor]|constructor; [apply He|constructor]].
    + inversion_clear Hst. cbn [update_loop negb]. rewrite andb_false_r. cbn [andb feed_stage].
      destruct (kinv_stage dev cs e (s, []) He (conj H (Forall_nil _))) as [S1 S2].
      unfold sequence in *. destruct (update_stage dev cs e (s, [])) as [s1 o1]. cbn [fst snd] in *.
      destruct (kinv_later e dev r o1 He H0 S2) as [L1 L2].
      destruct (update_loop false e dev o1 r) as [r' o']. cbn [fst snd] in *.
      split; [split; [reflexivity|constructor; assumption]|apply OK; exact L2].
  - unfold m_set_active_client_contexts. cbn [m_buf m_stages].
    destruct (kinv_contexts_loop l st 0 [] Hst (Forall_nil _)) as [L1 L2].
    destruct (contexts_loop l 0 [] st) as [l' o']. cbn [fst snd] in *.
    split; [split; [reflexivity|assumption]|apply OK; exact L2].
  - split; [|constructor]. cbn [fst]. unfold m_validate_state. cbn [m_stages].
    destruct st as [|[cs s] r]; [split; auto|]. inversion_clear Hst. split; [reflexivity|].
    constructor; [|assumption]. split; [apply H|]. cbn [snd]. apply validate_shape. apply H.
  - split; [|constructor]. split; [reflexivity|]. cbn [fst m_evaluate_device_filters m_stages].
    rewrite Forall_map. eapply Forall_impl; [|exact Hst]. intros [cs s] [H1 H2]. split; [|exact H2]. cbn [fst].
    unfold wf_outputs, evaluate_device_filters in *. cbn [fst] in H1. rewrite Forall_map.
    eapply Forall_impl; [|exact H1]. intros c0 Hc. exact Hc.
Qed.

Lemma kminv_run : forall l ms, Forall (fun c => match c with MInput e _ => ok_seq K e | _ => True end) l ->
  kminv ms -> Forall (fun e => K (ek e)) (snd (mrun l ms)).
Proof.
  induction l as [|c l IH]; intros ms Hl H; [constructor|]. inversion_clear Hl. cbn [mrun].
  destruct (kminv_call c ms H0 H) as [H2 H3]. destruct (do_mcall c ms) as [m1 o1]. cbn [fst snd] in *.
  specialize (IH m1 H1 H2). destruct (mrun l m1) as [m2 o2]. cbn [snd] in *. apply Forall_app. auto.
Qed.

Lemma wf_outputs_new : forall cs, wf_outputs K cs -> wf_outputs K (new_stage cs).
Proof.
  intros cs H2. unfold wf_outputs, new_stage in *. rewrite Forall_map. eapply Forall_impl; [|exact H2].
  intros c [Hc1 Hc2]. cbn [sort_context cx_outputs cx_commands]. split; [exact Hc1|].
  destruct (sort_commands_spec (cx_commands c)) as [_ Hp].
  rewrite Forall_forall in *. intros x Hx. apply Hc2. eapply Permutation.Permutation_in; [|exact Hx].
  apply Permutation.Permutation_sym. exact Hp.
Qed.

End Keys.

(** Keys named in the outputs of a configuration. *)
Definition named (cfg : list (list context)) (k : key) : Prop :=
  exists cs c e, In cs cfg /\ In c cs /\ ek e = k /\ es e <> OutputOnRelease /\
    ((exists o, In o (cx_outputs c) /\ In e o) \/ (exists m, In m (cx_commands c) /\ In e (cm_out m))).
Definition values_ok (cs : list context) : Prop := wf_outputs (fun _ => True) cs.

Theorem multi_keys : forall cfg l, Forall values_ok cfg -> Forall wf_mcall l ->
  Forall (fun e => ek e = k_timeout \/ named cfg (ek e) \/
                   exists i dev, In (MInput i dev) l /\ ek i = ek e)
         (snd (mrun l (new_multi_stage cfg))).
Proof.
  intros cfg l Hc Hl.
  set (K := fun k => k = k_timeout \/ named cfg k \/ exists i dev, In (MInput i dev) l /\ ek i = k).
  change (Forall (fun e => K (ek e)) (snd (mrun l (new_multi_stage cfg)))).
  apply kminv_run.
  - left. reflexivity.
  - rewrite Forall_forall in Hl |- *. intros [e dev| | |] Hin; try exact I.
    destruct (Hl _ Hin) as [He _]. split.
    + right. right. eauto.
    + apply (wf_event_ok_seq e He).
  - split; [reflexivity|]. unfold new_multi_stage. cbn [m_stages]. rewrite Forall_map.
    rewrite Forall_forall in Hc |- *. intros cs Hcs. split; [|apply init_shape]. cbn [fst].
    apply wf_outputs_new. specialize (Hc cs Hcs). unfold values_ok, wf_outputs in *.
    rewrite Forall_forall in Hc |- *. intros c Hic. destruct (Hc c Hic) as [H1 H2]. split.
    + rewrite Forall_forall in H1 |- *. intros o Ho. specialize (H1 o Ho). rewrite Forall_forall in H1 |- *.
      intros e He. destruct (H1 e He) as [_ Hv]. split; [|exact Hv].
      destruct (kstate_eqb (es e) OutputOnRelease) eqn:Eo; [right; right; now destruct (es e)|].
      left. right. left. exists cs, c, e. split; [exact Hcs|]. split; [exact Hic|].
      split; [reflexivity|]. split; [now destruct (es e)|]. left. eauto.
    + rewrite Forall_forall in H2 |- *. intros m Hm. specialize (H2 m Hm). rewrite Forall_forall in H2 |- *.
      intros e He. destruct (H2 e He) as [_ Hv]. split; [|exact Hv].
      destruct (kstate_eqb (es e) OutputOnRelease) eqn:Eo; [right; right; now destruct (es e)|].
      left. right. left. exists cs, c, e. split; [exact Hcs|]. split; [exact Hic|].
      split; [reflexivity|]. split; [now destruct (es e)|]. right. eauto.
Qed.
