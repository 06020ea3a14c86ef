(** What several stages hold down was triggered by keys which are still pressed. *)
From Coq Require Import List Arith NArith ZArith Bool Lia.
From Verif Require Import Base Key Match MatchProofs Stage StageSpec StageFrame StageOut StageShape StageSafe StageRel StageRoute.
From Verif Require Import MultiStage MultiSpec MultiProofs StuckSpec StuckMatch StageStuck StuckStagesSpec.
Import ListNotations.
Local Open Scope N_scope.

Lemma server_event_key : forall e, is_server_event e = server_key (ek e).
Proof. reflexivity. Qed.
Lemma down_other : forall l e k, ek e <> k -> is_down_after (l ++ [e]) k = is_down_after l k.
Proof. intros. now apply down_after_app_other. Qed.
Lemma down_this : forall l e, is_down_after (l ++ [e]) (ek e) = kstate_eqb (es e) Down.
Proof. intros. rewrite down_after_snoc, N.eqb_refl. reflexivity. Qed.

(** The events passed to a later stage. *)
Definition passed_on (l : sequence) : sequence := List.filter (fun e => negb (is_server_event e)) l.
Lemma passed_down : forall l h T, (forall k, server_key k = false -> is_down_after h k = is_down_after T k) ->
  forall k, server_key k = false -> is_down_after (h ++ passed_on l) k = is_down_after (T ++ l) k.
Proof.
  induction l as [|e l IH] using rev_ind; intros h T H k Hk; [cbn; rewrite !app_nil_r; auto|].
  unfold passed_on. rewrite filter_app. cbn [List.filter]. rewrite !app_assoc. fold (passed_on l).
  rewrite server_event_key. destruct (server_key (ek e)) eqn:E; cbn [negb].
  - rewrite app_nil_r, down_other by congruence. auto.
  - rewrite !down_after_snoc. destruct (ek e =? k); [reflexivity|]. auto.
Qed.
Lemma passed_server : forall l h k, server_key k = true -> is_down_after (h ++ passed_on l) k = is_down_after h k.
Proof.
  induction l as [|e l IH] using rev_ind; intros h k Hk; [cbn; rewrite !app_nil_r; auto|].
  unfold passed_on. rewrite filter_app. cbn [List.filter]. rewrite !app_assoc. fold (passed_on l).
  rewrite server_event_key. destruct (server_key (ek e)) eqn:E; cbn [negb].
  - rewrite app_nil_r. auto.
  - rewrite down_other by congruence. auto.
Qed.

Section One.
Variable K : key -> Prop.
Hypothesis K_time : K k_timeout.

(** One stage which was fed [h] and has output [T]. *)
Record sok (h T : sequence) (st : stage) : Prop := {
  sk_un : unstuck K (fst st);
  sk_rest : rest (fst st) h (snd st);
  sk_quiet : quiet (snd st);
  sk_keys : Forall (fun e => K (ek e)) h;
  sk_time : is_down_after h k_timeout = false;
  sk_shape : kinv (adds K (fst st)) st;
  sk_buf : s_buf (snd st) = [];
  sk_out : exists D, oi D (snd st) /\ forall k, server_key k = false -> is_down_after T k = is_down_after D k
}.

Lemma own_key : forall cs h, unstuck K cs -> Forall (fun e => K (ek e)) h -> no_own_key cs h.
Proof.
  intros cs h U H c i o Hc Hg. destruct (un_own _ _ U c i o Hc Hg) as [H1 H2]. split; [exact H1|].
  destruct H2 as [H2|H2]; [left; exact H2|right]. intros k Hk. apply H2. rewrite Forall_forall in H.
  exact (H _ Hk).
Qed.
Lemma adds_none : forall cs k, unstuck K cs -> adds K cs k -> k <> k_none.
Proof.
  intros cs k U [H|H]; [exact (proj1 (un_feed _ _ U k H))|]. pose proof (un_values _ _ U) as V.
  destruct H as (cs' & c & e & [<-|[]] & Hc & <- & He & H). unfold wf_outputs in V. rewrite Forall_forall in V.
  destruct (V c Hc) as [V1 V2].
  assert (W : wf_out no_none_key e).
  { destruct H as [(o & Ho & Hi)|(m & Hm & Hi)].
    - rewrite Forall_forall in V1. specialize (V1 o Ho). rewrite Forall_forall in V1. auto.
    - rewrite Forall_forall in V2. specialize (V2 m Hm). rewrite Forall_forall in V2. auto. }
  destruct W as [[W|[W|W]] _]; [exact W|rewrite W; discriminate|contradiction].
Qed.
Lemma adds_outputs : forall cs, wf_outputs no_none_key cs -> wf_outputs (adds K cs) cs.
Proof.
  intros cs V. unfold wf_outputs in *. rewrite Forall_forall in *. intros c Hc. destruct (V c Hc) as [V1 V2].
  assert (G : forall e, wf_out no_none_key e ->
    ((exists o, In o (cx_outputs c) /\ In e o) \/ (exists m, In m (cx_commands c) /\ In e (cm_out m))) -> wf_out (adds K cs) e).
  { intros e [W1 W2] H. split; [|exact W2]. destruct W1 as [W1|[W1|W1]]; auto.
    destruct (es e) eqn:E; try (left; right; exists cs, c, e; cbn [In]; rewrite E; repeat split; auto; discriminate).
    auto. }
  split; apply Forall_forall; intros o Ho; apply Forall_forall; intros e He.
  - rewrite Forall_forall in V1. specialize (V1 o Ho). rewrite Forall_forall in V1. apply G; eauto.
  - rewrite Forall_forall in V2. specialize (V2 o Ho). rewrite Forall_forall in V2. apply G; eauto.
Qed.
Lemma ok_seq_adds : forall cs e, wf_event e -> K (ek e) -> ok_seq (adds K cs) e.
Proof.
  intros cs e H HK. split; [left; exact HK|]. intros E. destruct H as [_ [(_ & _ & H)|[H _]]]; [exact H|congruence].
Qed.

Lemma sok_call : forall h T cs s c,
  match c with CInput e _ => wf_event e /\ K (ek e) | CContexts _ => True | CValidate _ => False end ->
  sok h T (cs, s) ->
  sok (h ++ inputs [c]) (T ++ snd (do_call cs c s)) (cs, fst (do_call cs c s)) /\
  Forall (ok_out (adds K cs)) (snd (do_call cs c s)).
Proof.
  intros h T cs s c Hc [U R Q HK HT [S1 S2] B (D & O1 & O2)]. cbn [fst snd] in *.
  assert (V : is_validate c = false) by (destruct c; [reflexivity|reflexivity|contradiction]).
  assert (O : exists D, oi D (fst (do_call cs c s)) /\
    forall k, server_key k = false -> is_down_after (T ++ snd (do_call cs c s)) k = is_down_after D k).
  { exists (D ++ snd (do_call cs c s)). split; [apply (do_call_oi cs (un_balanced _ _ U) D c s V O1)|].
    intros k Hk. rewrite !down_after_app. destruct (find_last _ _); auto. }
  assert (B' : s_buf (fst (do_call cs c s)) = []) by (destruct c; [reflexivity|reflexivity|contradiction]).
  assert (KT : adds K cs k_timeout) by (left; exact K_time).
  destruct c as [e dev|il|f]; [| |contradiction].
  - destruct Hc as [He Hke]. cbn [inputs flat_map app].
    destruct (update_shape (adds K cs) KT cs S1 e dev s (ok_seq_adds cs e He Hke) S2) as [P1 P2].
    destruct (un_feed _ _ U _ Hke) as (F1 & F2 & F3 & F4).
    assert (HK' : Forall (fun e => K (ek e)) (h ++ [e])) by (apply Forall_app; auto).
    destruct (update_rest cs (un_plain _ _ U) h e dev s He F2 F3 F4 (own_key cs _ U HK')) as [R' Q']; auto.
    + unfold no_none. apply Forall_forall. intros x Hx.
      apply (adds_none cs); [exact U|]. exact (proj1 (proj1 (Forall_forall _ _) (p_seq _ _ S2) x Hx)).
    + unfold no_none. apply Forall_forall. intros x Hx.
      apply (adds_none cs); [exact U|]. exact (proj1 (Forall_forall _ _) (p_hist _ _ S2) x Hx).
    + split; [|exact P2]. constructor; cbn [fst snd]; auto; [|split; auto].
      destruct (N.eqb_spec (ek e) k_timeout) as [E|E]; [|now rewrite down_other].
      rewrite <- E, down_this. destruct He as [_ [(_ & X & _)|[-> _]]]; [contradiction|reflexivity].
  - cbn [inputs flat_map]. rewrite app_nil_r. destruct (set_contexts_shape (adds K cs) cs S1 il s S2) as [P1 P2].
    destruct (contexts_rest cs h il s R Q) as [R' Q'].
    split; [|exact P2]. constructor; cbn [fst snd]; auto. split; auto.
Qed.
Lemma sok_server : forall h T e st, is_server_event e = true -> sok h T st -> sok h (T ++ [e]) st.
Proof.
  intros h T e st He [U R Q HK HT S B (D & O1 & O2)]. constructor; auto. exists D. split; [exact O1|].
  intros k Hk. rewrite down_other; [auto|]. rewrite server_event_key in He. congruence.
Qed.

Lemma sok_feed : forall dev cs l h T so, Forall (ok_out K) l ->
  sok h T (cs, fst so) -> Forall (ok_out (adds K cs)) (snd so) ->
  let so' := feed_stage true dev cs l so in
  exists new, snd so' = snd so ++ new /\ sok (h ++ passed_on l) (T ++ new) (cs, fst so') /\ Forall (ok_out (adds K cs)) (snd so').
Proof.
  intros dev cs. induction l as [|e l IH]; intros h T so Hl H Ho; cbn zeta; cbn [feed_stage].
  { exists []. cbn. rewrite !app_nil_r. auto. }
  pose proof (Forall_inv Hl) as He. apply Forall_inv_tail in Hl. cbn [passed_on List.filter].
  destruct (is_server_event e) eqn:E; cbn [andb negb].
  - destruct (IH h (T ++ [e]) (fst so, snd so ++ [e]) Hl) as (new & N1 & N2 & N3).
    + apply sok_server; assumption.
    + cbn [snd]. apply Forall_app. split; [exact Ho|]. constructor; [|constructor].
      destruct He as [H1 H2]. split; [left; exact H1|exact H2].
    + exists (e :: new). unfold sequence in *. cbn [fst snd] in *. rewrite N1, <- app_assoc. split; [reflexivity|].
      rewrite <- app_assoc in N2. cbn [app] in N2. split; [exact N2|]. rewrite N1 in N3. rewrite <- app_assoc in N3. exact N3.
  - assert (W : wf_event e /\ K (ek e)).
    { split; [|apply He]. apply ok_out_input; [|exact E]. destruct He as [H1 H2].
      split; [|exact H2]. exact (proj1 (un_feed _ _ (sk_un _ _ _ H) _ H1)). }
    destruct (sok_call h T cs (fst so) (CInput e dev) W H) as [C1 C2]. cbn [do_call inputs flat_map app] in C1, C2.
    unfold update_stage. unfold sequence in *. destruct (update cs e dev (fst so)) as [s1 o1]. cbn [fst snd] in *.
    destruct (IH (h ++ [e]) (T ++ o1) (s1, snd so ++ o1) Hl C1) as (new & N1 & N2 & N3).
    { cbn [snd]. apply Forall_app. auto. }
    exists (o1 ++ new). unfold sequence in *. cbn [fst snd] in *. rewrite N1, <- app_assoc. split; [reflexivity|].
    rewrite <- !app_assoc in N2. cbn [app] in N2. split; [exact N2|]. rewrite N1 in N3. rewrite <- app_assoc in N3. exact N3.
Qed.

Lemma sok_held : forall h T st k, sok h T st -> server_key k = false -> is_down_after T k = true ->
  exists j, is_down_after h j = true.
Proof.
  intros h T [cs s] k [U R Q HK HT S B (D & [[O1 O2] _] & O3)] Hk Hd. cbn [fst snd] in *.
  rewrite O3 in Hd by exact Hk. rewrite B, app_nil_r in O2.
  assert (Kt : k <> k_timeout) by (intros ->; discriminate Hk).
  destruct (O2 k Kt Hd) as (o & Ho & _ & _). destruct R as [_ R _].
  set (tk := get_trigger_key (od_trigger o)). exists tk. destruct (is_down_after h tk) eqn:E; [reflexivity|exfalso].
  assert (F : trig_free tk s).
  { apply R. intros [H|[_ H]]; [congruence|]. apply H, (un_ctx _ _ U). }
  exact (proj1 (Forall_forall _ _) F o Ho eq_refl).
Qed.
End One.

(** Device filters do not change what matters. *)
Lemma evaluate_in : forall ds cs c, In c (evaluate_device_filters ds cs) ->
  exists c', In c' cs /\ cx_inputs c = cx_inputs c' /\ cx_outputs c = cx_outputs c' /\ cx_commands c = cx_commands c'.
Proof.
  intros ds cs c H. unfold evaluate_device_filters in H. apply in_map_iff in H as (c' & <- & H). exists c'. auto.
Qed.
Lemma in_evaluate : forall ds cs c, In c cs ->
  exists c', In c' (evaluate_device_filters ds cs) /\ cx_inputs c = cx_inputs c' /\ cx_outputs c = cx_outputs c' /\ cx_commands c = cx_commands c'.
Proof.
  intros ds cs c H. eexists. split; [unfold evaluate_device_filters; apply in_map; exact H|]. auto.
Qed.

(** The same mappings. *)
Definition covers (cs cs' : list context) : Prop :=
  forall c, In c cs' -> exists c', In c' cs /\ cx_inputs c = cx_inputs c' /\ cx_outputs c = cx_outputs c' /\
    (forall m, In m (cx_commands c) <-> In m (cx_commands c')).
Definition same_mappings (cs cs' : list context) : Prop := covers cs cs' /\ covers cs' cs.
Lemma same_evaluate : forall ds cs, same_mappings cs (evaluate_device_filters ds cs).
Proof.
  intros ds cs. split; intros c H.
  - destruct (evaluate_in ds cs c H) as (c' & H1 & H2 & H3 & H4). exists c'. rewrite H4. tauto.
  - destruct (in_evaluate ds cs c H) as (c' & H1 & H2 & H3 & H4). exists c'. rewrite H4. tauto.
Qed.
Lemma same_new : forall cs, same_mappings cs (new_stage cs).
Proof.
  assert (P : forall c m, In m (sort_commands (cx_commands c)) <-> In m (cx_commands c)).
  { intros c m. destruct (sort_commands_spec (cx_commands c)) as [_ Hp].
    split; apply Permutation.Permutation_in; [apply Permutation.Permutation_sym|]; exact Hp. }
  intros cs. split; intros c H.
  - unfold new_stage in H. apply in_map_iff in H as (c' & <- & H). exists c'. cbn [sort_context cx_inputs cx_outputs cx_commands].
    repeat split; auto; apply P.
  - exists (sort_context c). split; [unfold new_stage; now apply in_map|]. cbn [sort_context cx_inputs cx_outputs cx_commands].
    repeat split; auto; apply P.
Qed.
Lemma same_inputs : forall P cs cs', covers cs cs' -> all_inputs P cs -> all_inputs P cs'.
Proof.
  intros P cs cs' H A. unfold all_inputs in *. apply Forall_forall. intros c Hc. destruct (H c Hc) as (c' & H1 & -> & _).
  rewrite Forall_forall in A. auto.
Qed.
Lemma same_named : forall cs cs' k, covers cs cs' -> named [cs'] k -> named [cs] k.
Proof.
  intros cs cs' k H (x & c & e & [<-|[]] & Hc & E1 & E2 & H0). destruct (H c Hc) as (c' & H1 & H2 & H3 & H4).
  exists cs, c', e. split; [left; reflexivity|]. repeat (split; [assumption|]).
  destruct H0 as [(o & Ho)|(m & Hm & Hi)]; [left; exists o; rewrite <- H3; exact Ho|right; exists m; split; [apply H4; exact Hm|exact Hi]].
Qed.
Lemma same_outputs : forall K cs cs', covers cs cs' -> wf_outputs K cs -> wf_outputs K cs'.
Proof.
  intros K cs cs' H W. unfold wf_outputs in *. rewrite Forall_forall in *. intros c Hc.
  destruct (H c Hc) as (c' & H1 & _ & -> & H4). destruct (W c' H1) as [W1 W2]. split; [exact W1|].
  rewrite Forall_forall in *. intros m Hm. apply W2, H4, Hm.
Qed.
Lemma same_balanced : forall cs cs', covers cs cs' -> balanced_config cs -> balanced_config cs'.
Proof.
  intros cs cs' H W. unfold balanced_config in *. rewrite Forall_forall in *. intros c Hc.
  destruct (H c Hc) as (c' & H1 & _ & -> & H4). destruct (W c' H1) as [W1 W2]. split; [exact W1|].
  rewrite Forall_forall in *. intros m Hm. apply W2, H4, Hm.
Qed.
Lemma same_unstuck : forall K cs cs', same_mappings cs cs' -> unstuck K cs -> unstuck K cs'.
Proof.
  intros K cs cs' [H H'] [U1 U2 U3 U4 U5 U6]. constructor; auto.
  - eapply same_outputs; eauto.
  - eapply same_balanced; eauto.
  - eapply same_inputs; eauto.
  - eapply same_inputs; eauto.
  - intros c i o Hc [Hi Hg]. destruct (H c Hc) as (c' & H1 & H2 & H3 & H4).
    destruct (U6 c' i o H1) as [G1 G2].
    + split; [rewrite <- H2; exact Hi|]. destruct Hg as [Hg|(Hg & c2 & m & M1 & M2 & M3)]; [left; rewrite <- H3; exact Hg|right].
      split; [exact Hg|]. destruct (H c2 M1) as (c3 & X1 & _ & _ & X4). exists c3, m. split; [exact X1|]. split; [now apply X4|exact M3].
    + split; [exact G1|]. destruct G2 as [G2|G2]; [left|auto]. eapply same_inputs; eauto.
Qed.
Lemma unstuck_mono : forall (K K' : key -> Prop) cs, (forall k, K' k -> K k) -> unstuck K cs -> unstuck K' cs.
Proof.
  intros K K' cs H [U1 U2 U3 U4 U5 U6]. constructor; auto. intros c i o Hc Hg. destruct (U6 c i o Hc Hg) as [G1 G2].
  split; [exact G1|]. destruct G2; auto.
Qed.
Lemma same_rest : forall cs cs' h s, same_mappings cs cs' -> rest cs h s -> rest cs' h s.
Proof.
  intros cs cs' h s [H H'] [R1 R2 R3]. constructor; [exact R1| |].
  - eapply trigs_mono; [|exact R2]. cbn beta. intros k [G|[G1 G2]]; [left; exact G|right]. split; [exact G1|].
    intros A. apply G2. eapply same_inputs; eauto.
  - intros A. apply R3. eapply same_inputs; eauto.
Qed.

(** * The stages *)

(** The keys fed to a stage behind one which has output [T], when [I] was input. *)
Definition linked (I T h : sequence) : Prop :=
  (forall k, server_key k = false -> is_down_after h k = is_down_after T k) /\
  (forall k, server_key k = true -> is_down_after h k = true -> is_down_after I k = true).
Fixpoint chain (K : key -> Prop) (I T : sequence) (l : list stage) (out : sequence) : Prop :=
  match l with
  | [] => out = T
  | st :: r => exists h T', linked I T h /\ sok K h T' st /\ chain (adds K (fst st)) I T' r out
  end.

Lemma chain_held : forall l K I T out k, chain K I T l out -> server_key k = false -> is_down_after out k = true ->
  (exists j, is_down_after I j = true) \/ (exists j, server_key j = false /\ is_down_after T j = true).
Proof.
  induction l as [|st l IH]; intros K I T out k H Hk Hd; cbn [chain] in H; [subst out; eauto|].
  destruct H as (h & T' & [L1 L2] & S & H).
  destruct (IH _ _ _ _ _ H Hk Hd) as [G|(j & J1 & J2)]; [left; exact G|].
  destruct (sok_held _ _ _ _ _ S J1 J2) as (i & Hi). destruct (server_key i) eqn:E; [left; eauto|right].
  exists i. rewrite <- L1 by exact E. auto.
Qed.

Lemma linked_step : forall I T h e l, linked I T h -> is_action_key (ek e) = false ->
  linked (I ++ [e]) (T ++ l) (h ++ seen_by_all e ++ passed_on l).
Proof.
  intros I T h e l [L1 L2] Ha. unfold seen_by_all.
  assert (C : (ek e =? k_timeout) || is_virtual_key (ek e) = server_key (ek e)).
  { unfold server_key. rewrite Ha, orb_false_r. reflexivity. }
  rewrite C, app_assoc. split.
  - intros k Hk. apply passed_down; [|exact Hk]. intros j Hj. destruct (server_key (ek e)) eqn:E.
    + rewrite down_other by congruence. auto.
    + rewrite app_nil_r. auto.
  - intros k Hk. rewrite passed_server by exact Hk. destruct (server_key (ek e)) eqn:E.
    + rewrite !down_after_snoc. destruct (ek e =? k); auto.
    + rewrite app_nil_r, (down_other I) by congruence. auto.
Qed.
Lemma linked_pass : forall I T h l, linked I T h -> linked I (T ++ l) (h ++ passed_on l).
Proof.
  intros I T h l [L1 L2]. split; intros k Hk; [now apply passed_down|]. rewrite passed_server by exact Hk. auto.
Qed.

Lemma ok_out_mono : forall (K K' : key -> Prop) l, (forall k, K k -> K' k) -> Forall (ok_out K) l -> Forall (ok_out K') l.
Proof. intros K K' l H. apply Forall_impl. intros e (H1 & H2). split; auto. Qed.

Lemma chain_later : forall e dev l (K : key -> Prop) I T out buf, wf_event e -> K k_timeout -> K (ek e) -> is_action_key (ek e) = false ->
  chain K I T l out -> Forall (ok_out K) buf ->
  let r := update_loop false e dev buf l in
  chain K (I ++ [e]) (T ++ buf) (fst r) (out ++ snd r) /\ Forall (ok_out (fun _ => True)) (snd r).
Proof.
  intros e dev. induction l as [|[cs s] l IH]; intros K I T out buf He KT HK Ha H Hb; cbn zeta.
  { cbn [update_loop fst snd chain] in *. subst out. split; [reflexivity|]. eapply ok_out_mono; [|exact Hb]. auto. }
  cbn [chain] in H. destruct H as (h & T' & L & S & H). cbn [fst] in H.
  cbn [update_loop negb]. rewrite andb_true_r. cbn [andb]. unfold sequence in *.
  assert (G : exists o0, Forall (ok_out (adds K cs)) o0 /\
    (let so := if is_virtual_key (ek e) then update_stage dev cs e (if ek e =? k_timeout then update_stage dev cs e (s, []) else (s, []))
              else if ek e =? k_timeout then update_stage dev cs e (s, []) else (s, []) in
     snd so = o0 /\ sok K (h ++ seen_by_all e) (T' ++ o0) (cs, fst so))).
  { unfold seen_by_all. destruct (sok_call K KT h T' cs s (CInput e dev) (conj He HK) S) as [C1 C2].
    cbn [do_call inputs flat_map app] in C1, C2.
    destruct (is_virtual_key (ek e)) eqn:V; destruct (N.eqb_spec (ek e) k_timeout) as [E|E]; cbn [orb]; cbn zeta.
    - exfalso. rewrite E in V. discriminate V.
    - exists (snd (update cs e dev s)). split; [exact C2|]. unfold update_stage. cbn [fst snd app].
      destruct (update cs e dev s) as [s1 o1]. cbn [fst snd app] in *. auto.
    - exists (snd (update cs e dev s)). split; [exact C2|]. unfold update_stage. cbn [fst snd app].
      destruct (update cs e dev s) as [s1 o1]. cbn [fst snd app] in *. auto.
    - exists []. split; [constructor|]. cbn [fst snd]. rewrite !app_nil_r. auto. }
  destruct G as (o0 & G1 & G2). cbn zeta in G2. unfold sequence in *.
  match goal with |- context [feed_stage true dev cs buf ?x] => set (so := x) in * end.
  destruct G2 as [G2 G3]. clearbody so.
  destruct (sok_feed K KT dev cs buf _ _ so Hb G3) as (new & N1 & N2 & N3); [rewrite G2; exact G1|].
  unfold sequence in *. destruct (feed_stage true dev cs buf so) as [s3 o3]. cbn [fst snd] in *. rewrite G2 in N1. subst o3.
  rewrite <- app_assoc in N2.
  destruct (IH (adds K cs) I T' out (o0 ++ new) He (or_introl KT) (or_introl HK) Ha H N3) as [I1 I2].
  destruct (update_loop false e dev (o0 ++ new) l) as [l' o']. cbn [fst snd chain] in *.
  split; [|exact I2]. exists (h ++ seen_by_all e ++ passed_on buf), (T' ++ o0 ++ new).
  split; [apply linked_step; assumption|]. split; [rewrite !app_assoc in *; exact N2|exact I1].
Qed.

Lemma chain_contexts : forall idx l off (K : key -> Prop) I T out buf, K k_timeout ->
  chain K I T l out -> Forall (ok_out K) buf ->
  let r := contexts_loop idx off buf l in
  chain K I (T ++ buf) (fst r) (out ++ snd r) /\ Forall (ok_out (fun _ => True)) (snd r).
Proof.
  intros idx. induction l as [|[cs s] l IH]; intros off K I T out buf KT H Hb; cbn zeta.
  { cbn [contexts_loop fst snd chain] in *. subst out. split; [reflexivity|]. eapply ok_out_mono; [|exact Hb]. auto. }
  cbn [chain] in H. destruct H as (h & T' & L & S & H). cbn [fst] in H. cbn [contexts_loop]. unfold sequence in *.
  destruct (sok_feed K KT no_device cs buf h T' (s, []) Hb S (Forall_nil _)) as (new & N1 & N2 & N3).
  unfold sequence in *. destruct (feed_stage true no_device cs buf (s, [])) as [s1 o1]. cbn [fst snd app] in *. subst o1.
  destruct (sok_call K KT _ _ cs s1 (CContexts (stage_indices off (off + Z.of_nat (length cs)) idx)) Logic.I N2) as [C1 C2].
  cbn [do_call inputs flat_map] in C1, C2. rewrite app_nil_r in C1.
  destruct (set_active_client_contexts _ _ s1) as [s2 o2]. cbn [fst snd] in *.
  destruct (IH (off + Z.of_nat (length cs))%Z (adds K cs) I T' out (new ++ o2) (or_introl KT) H) as [I1 I2].
  { apply Forall_app. auto. }
  destruct (contexts_loop idx _ (new ++ o2) l) as [l' o']. cbn [fst snd chain] in *.
  split; [|exact I2]. exists (h ++ passed_on buf), (T' ++ new ++ o2). split; [now apply linked_pass|].
  split; [rewrite app_assoc; exact C1|exact I1].
Qed.

Lemma adds_mono : forall (K K' : key -> Prop) cs k, (forall k, K k -> K' k) -> adds K cs k -> adds K' cs k.
Proof. intros K K' cs k H [G|G]; [left|right]; auto. Qed.

(** The whole: [D] tells which keys were input as pressed. *)
Definition mchain (K : key -> Prop) (I : sequence) (m : mstage) (out : sequence) : Prop :=
  m_buf m = [] /\ chain K I I (m_stages m) out.

Lemma mchain_update : forall (K : key -> Prop) e dev I m out, (forall k, K k -> feedable k) -> wf_event e -> K k_timeout -> K (ek e) -> is_action_key (ek e) = false ->
  mchain K I m out ->
  mchain K (I ++ [e]) (m_reuse_buffer (fst (m_update e dev m))) (out ++ snd (m_update e dev m)) /\
  Forall (ok_out (fun _ => True)) (snd (m_update e dev m)).
Proof.
  intros K e dev I [st c b] out KF He KT HK Ha [Hb H]. cbn [m_buf m_stages] in *. subst b.
  unfold m_update, mchain. cbn [m_buf m_stages m_client app]. destruct st as [|[cs s] r].
  { cbn [update_loop fst snd m_reuse_buffer m_stages m_buf chain] in *. subst out. split; [auto|]. constructor; [|constructor].
    split; [exact Logic.I|]. destruct He as [H1 [(H2 & H3 & H4)|(H2 & H4)]].
    - split; [auto|]. destruct H4; auto.
    - split; [auto|]. destruct H4 as [H4|[H4|H4]]; auto. exfalso. destruct (KF _ HK) as (_ & _ & _ & W). congruence. }
  cbn [chain] in H. destruct H as (h & T' & L & S & H). cbn [fst] in H.
  cbn [update_loop negb]. rewrite andb_false_r. cbn [andb feed_stage].
  destruct (sok_call K KT h T' cs s (CInput e dev) (conj He HK) S) as [C1 C2].
  cbn [do_call inputs flat_map app] in C1, C2. unfold update_stage. cbn [fst snd app]. unfold sequence in *.
  destruct (update cs e dev s) as [s1 o1]. cbn [fst snd app] in *.
  destruct (chain_later e dev r (adds K cs) I T' out o1 He (or_introl KT) (or_introl HK) Ha H C2) as [I1 I2].
  destruct (update_loop false e dev o1 r) as [r' o']. cbn [fst snd m_reuse_buffer m_stages m_buf chain] in *.
  split; [|exact I2]. split; [reflexivity|]. exists (h ++ [e]), (T' ++ o1). split; [|auto].
  destruct L as [L1 L2]. split; intros k Hk; rewrite !down_after_snoc; destruct (ek e =? k); auto.
Qed.

Section Same.
Variables K K' : key -> Prop.
Hypothesis HK : forall k, K k -> K' k.
Lemma wf_out_mono : forall e, wf_out K e -> wf_out K' e.
Proof. intros e [[H|H] H']; split; auto. Qed.
Lemma shp_mono : forall s, shp K s -> shp K' s.
Proof.
  intros s [P1 P2 P3 P4 P5 P6]. constructor.
  - now apply (ok_out_mono K).
  - eapply Forall_impl; [|exact P2]. auto.
  - eapply Forall_impl; [|exact P3]. auto.
  - eapply Forall_impl; [|exact P4]. intros o. apply Forall_impl, wf_out_mono.
  - eapply Forall_impl; [|exact P5]. intros e [H1 H2]. split; auto.
  - eapply Forall_impl; [|exact P6]. auto.
Qed.
Lemma wf_outputs_mono : forall cs, wf_outputs K cs -> wf_outputs K' cs.
Proof.
  intros cs. unfold wf_outputs. apply Forall_impl. intros c [H1 H2]. split; [eapply Forall_impl; [|exact H1]|eapply Forall_impl; [|exact H2]];
    intros x; apply Forall_impl, wf_out_mono.
Qed.
End Same.

Lemma sok_same : forall (K K' : key -> Prop) h T cs cs' s, (forall k, K k <-> K' k) -> same_mappings cs cs' ->
  sok K h T (cs, s) -> sok K' h T (cs', s).
Proof.
  intros K K' h T cs cs' s HK HS [U R Q H1 H2 [H3 H4] H5 H6]. cbn [fst snd] in *.
  assert (HA : forall k, adds K cs k -> adds K' cs' k).
  { intros k [H|H]; [left; now apply HK|right]. eapply same_named; [apply HS|exact H]. }
  constructor; cbn [fst snd]; auto.
  - apply (same_unstuck K' cs); [exact HS|]. apply (unstuck_mono K); [|exact U]. intros k. apply HK.
  - now apply (same_rest cs).
  - eapply Forall_impl; [|exact H1]. intros e. apply HK.
  - split; cbn [fst snd]; [|now apply (shp_mono (adds K cs))].
    apply (wf_outputs_mono (adds K cs)); [exact HA|]. eapply same_outputs; [apply HS|exact H3].
Qed.
Lemma adds_same : forall (K K' : key -> Prop) cs cs', (forall k, K k <-> K' k) -> same_mappings cs cs' ->
  forall k, adds K cs k <-> adds K' cs' k.
Proof.
  intros K K' cs cs' HK [S1 S2] k. unfold adds. rewrite HK. split; intros [H|H]; auto; right; eapply same_named; eauto.
Qed.
Lemma chain_same : forall l (K K' : key -> Prop) I T out, (forall k, K k <-> K' k) -> chain K I T l out -> chain K' I T l out.
Proof.
  induction l as [|[cs s] l IH]; intros K K' I T out HK H; [exact H|]. cbn [chain] in *.
  destruct H as (h & T' & L & S & H). exists h, T'. split; [exact L|].
  assert (R : same_mappings cs cs) by (split; intros c Hc; exists c; repeat split; auto).
  split; [eapply sok_same; eauto|]. cbn [fst] in *. eapply IH; [|exact H]. now apply adds_same.
Qed.
Lemma chain_devices : forall ds l (K : key -> Prop) I T out, chain K I T l out ->
  chain K I T (map (fun st => (evaluate_device_filters ds (fst st), snd st)) l) out.
Proof.
  intros ds. induction l as [|[cs s] l IH]; intros K I T out H; [exact H|]. cbn [map chain fst snd] in *.
  destruct H as (h & T' & L & S & H). exists h, T'. split; [exact L|].
  split; [eapply sok_same; [reflexivity|apply same_evaluate|exact S]|].
  eapply chain_same; [|apply IH; exact H]. apply adds_same; [reflexivity|apply same_evaluate].
Qed.
Lemma sok_init : forall (K : key -> Prop) cs, unstuck K cs -> sok K [] [] (cs, init_state).
Proof.
  intros K cs U. destruct (init_rest cs) as [R Q]. constructor; cbn [fst snd]; auto.
  - split; [apply adds_outputs, U|apply init_shape].
  - exists []. split; [|reflexivity]. split; [split; [constructor|cbn; discriminate]|constructor].
Qed.
Lemma chain_init : forall cfg (K : key -> Prop), unstuck_stages K cfg ->
  chain K [] [] (map (fun cs => (new_stage cs, init_state)) cfg) [].
Proof.
  induction cfg as [|cs cfg IH]; intros K H; [reflexivity|]. cbn [map chain fst unstuck_stages] in *. destruct H as [U H].
  exists [], []. split; [split; intros; [reflexivity|discriminate]|].
  split; [apply sok_init, (same_unstuck K cs); [apply same_new|exact U]|].
  eapply chain_same; [|apply IH; exact H]. apply adds_same; [reflexivity|apply same_new].
Qed.

Lemma mchain_init : forall K cfg, unstuck_stages K cfg -> mchain K [] (new_multi_stage cfg) [].
Proof. intros K cfg H. split; [reflexivity|]. cbn [new_multi_stage m_stages]. now apply chain_init. Qed.
Lemma mchain_devices : forall K ds I m out, mchain K I m out -> mchain K I (m_evaluate_device_filters ds m) out.
Proof. intros K ds I m out [B H]. split; [exact B|]. now apply chain_devices. Qed.
Lemma mchain_contexts : forall (K : key -> Prop) l I m out, K k_timeout -> mchain K I m out ->
  mchain K I (m_reuse_buffer (fst (m_set_active_client_contexts l m))) (out ++ snd (m_set_active_client_contexts l m)) /\
  Forall (ok_out (fun _ => True)) (snd (m_set_active_client_contexts l m)).
Proof.
  intros K l I [st c b] out KT [Hb H]. cbn [m_buf m_stages] in *. subst b.
  unfold m_set_active_client_contexts, mchain. cbn [m_buf m_stages].
  destruct (chain_contexts l st 0%Z K I I out [] KT H (Forall_nil _)) as [I1 I2].
  destruct (contexts_loop l 0 [] st) as [l' o']. cbn [fst snd m_reuse_buffer m_stages m_buf] in *.
  rewrite app_nil_r in I1. auto.
Qed.
Lemma mchain_held : forall K I m out k, mchain K I m out -> server_key k = false -> is_down_after out k = true ->
  exists j, is_down_after I j = true.
Proof.
  intros K I m out k [_ H] Hk Hd. destruct (chain_held _ _ _ _ _ _ H Hk Hd) as [G|(j & _ & G)]; eauto.
Qed.
