(** C13: when every key is released, nothing stays pressed in the output. *)
From Coq Require Import String List Arith NArith ZArith Bool Lia.
From Verif Require Import Base Key Match Stage Text ParseSeq Config Replay.
From Verif Require Import StageSpec StageSafe StageOut StageRel StageProperties.
From Verif Require Import StuckSpec StuckMatch StageStuck.
Import ListNotations.
Local Open Scope N_scope.

(** The full claim, for arbitrary calls: without validate_state, when all keys fed to
    the stage are up, all keys of the output are up. *)
Definition no_stuck_calls (cs : list context) (l : list call) : Prop :=
  Forall (wf_call cs) l -> wheels_ok l -> Forall (fun c => is_validate c = false) l ->
  (forall k, is_down_after (inputs l) k = false) ->
  forall k, k <> k_timeout -> is_down_after (snd (run cs l init_state)) k = false.

(** Whatever is pressed in the output was triggered by a key which is still pressed
    (or by an active context).  Missing from the full claim: inputs with Any, with `?`,
    or completed by a timeout; mappings which output just the event completing them;
    mouse wheels. *)
Theorem C13_held_by_pressed_partial : forall cs l k,
  wf_config cs -> balanced_config cs -> all_inputs plain_input cs -> no_own_key cs (inputs l) ->
  Forall (wf_call cs) l -> Forall keys_only l -> k <> k_timeout ->
  is_down_after (snd (run cs l init_state)) k = true ->
  exists o, In o (s_down (fst (run cs l init_state))) /\ od_key o = k /\ od_temp o = false /\
    (is_down_after (inputs l) (get_trigger_key (od_trigger o)) = true \/
     (get_trigger_key (od_trigger o) = k_ContextActive /\ ~ all_inputs no_context_active cs)).
Proof. exact held_by_pressed. Qed.
Print Assumptions C13_held_by_pressed_partial.

(** So nothing stays pressed when no key is pressed. *)
Theorem C13_no_stuck_calls_partial : forall cs l,
  wf_config cs -> balanced_config cs -> all_inputs plain_input cs -> all_inputs no_context_active cs ->
  no_own_key cs (inputs l) -> Forall keys_only l -> no_stuck_calls cs l.
Proof.
  intros cs l Hwf Hb Hp Hc Hown Hk Hl _ _ Hup k Ht.
  destruct (is_down_after (snd (run cs l init_state)) k) eqn:E; [exfalso|reflexivity].
  destruct (held_by_pressed cs l k Hwf Hb Hp Hown Hl Hk Ht E) as [o [_ [_ [_ [H|[_ H]]]]]].
  - rewrite Hup in H. discriminate.
  - contradiction.
Qed.
Print Assumptions C13_no_stuck_calls_partial.

(** The claim about histories of strokes with all contexts active. *)
Theorem C13_no_stuck_keys_partial : forall cs l,
  wf_config cs -> balanced_config cs -> all_inputs plain_input cs -> all_inputs no_context_active cs ->
  no_own_key cs l -> Forall (fun e => ek e <> k_none /\ ek e <> k_any /\ ek e <> k_timeout /\
                              ek e <> k_ContextActive /\ is_mouse_wheel (ek e) = false) l ->
  no_stuck_keys cs l.
Proof.
  intros cs l Hwf Hb Hp Hc Hown Hk [Ha Hz] Hup k Ht.
  assert (Ei : inputs (CContexts (seq 0 (length cs)) :: map (fun e => CInput e 0) l) = l).
  { unfold inputs. cbn. clear. induction l as [|e l IH]; [reflexivity|]. cbn. f_equal. exact IH. }
  assert (Hst : forall e, In e l -> es e = Down \/ es e = Up).
  { intros e He. specialize (Ha (ek e)). clear -Ha He. revert Ha. generalize false. revert He.
    induction l as [|x l IH]; intros He b Ha; [contradiction|]. unfold track in Ha. cbn in Ha.
    destruct He as [->|He].
    - unfold has_key in Ha at 1. rewrite N.eqb_refl in Ha. cbn in Ha.
      destruct (es e); cbn in Ha; try contradiction; auto.
    - destruct (has_key (ek e) x); [|eapply IH; eauto].
      cbn in Ha. destruct (es x); cbn in Ha; try contradiction; destruct Ha as [_ Ha]; eapply IH; eauto. }
  apply (C13_no_stuck_calls_partial cs (CContexts (seq 0 (length cs)) :: map (fun e => CInput e 0) l)); auto.
  - rewrite Ei. exact Hown.
  - constructor; [exact Logic.I|]. apply Forall_map. eapply Forall_impl; [|exact Hk]. cbn. tauto.
  - constructor.
    + apply Forall_forall. intros i Hi. apply List.in_seq in Hi. cbn in Hi. lia.
    + apply Forall_map, Forall_forall. intros e He. cbn. split; [|reflexivity].
      assert (K := proj1 (Forall_forall _ _) Hk e He). assert (Z := proj1 (Forall_forall _ _) Hz e He). cbn beta in K, Z.
      split; [tauto|]. destruct (Hst e He); [left|right]; tauto.
  - apply keys_only_wheels. constructor; [exact Logic.I|]. apply Forall_map. eapply Forall_impl; [|exact Hk]. cbn. tauto.
  - constructor; [reflexivity|]. apply Forall_map, Forall_forall. reflexivity.
  - rewrite Ei. exact Hup.
Qed.
Print Assumptions C13_no_stuck_keys_partial.

(** ** Deciding the hypotheses *)

Fixpoint releases_followb (p : list key) (l : sequence) : bool :=
  match l with
  | [] => true
  | e :: r =>
      match es e with
      | Down => releases_followb (ek e :: p) r
      | Up | UpAsync | UpMatched =>
          (existsb (N.eqb (ek e)) p || (ek e =? k_timeout)) && releases_followb p r
      | _ => releases_followb p r
      end
  end.
Lemma releases_follow_dec : forall l p, releases_followb p l = true -> releases_follow p l.
Proof.
  induction l as [|e l IH]; intros p H; cbn in *; [exact Logic.I|].
  destruct (es e); auto; apply andb_prop in H; destruct H as [H1 H2]; (split; [|auto]);
    apply orb_prop in H1; destruct H1 as [H1|H1];
    try (right; apply N.eqb_eq; exact H1); left; apply existsb_exists in H1; destruct H1 as [x [Hx E]];
    apply N.eqb_eq in E; rewrite E; exact Hx.
Qed.
Definition plain_inputb (l : sequence) : bool :=
  forallb (fun e => negb (ek e =? k_any) && negb (kstate_eqb (es e) NoMightMatch)) l &&
  releases_followb [] l &&
  match find_last is_non_optional l with Some e => negb (ek e =? k_timeout) | None => false end.
Lemma plain_input_dec : forall l, plain_inputb l = true -> plain_input l.
Proof.
  intros l H. unfold plain_inputb in H. apply andb_prop in H. destruct H as [H H3].
  apply andb_prop in H. destruct H as [H1 H2]. split; [|split].
  - apply Forall_forall. intros e He. rewrite forallb_forall in H1. specialize (H1 e He).
    apply andb_prop in H1. destruct H1 as [E1 E2]. apply negb_true_iff in E1, E2. split.
    + apply N.eqb_neq; exact E1.
    + intros E. rewrite E in E2. discriminate.
  - apply releases_follow_dec; exact H2.
  - unfold completes. destruct (find_last is_non_optional l) as [e|]; [|discriminate]. exists e.
    split; [reflexivity|]. apply negb_true_iff in H3. apply N.eqb_neq; exact H3.
Qed.
Lemma all_inputs_dec : forall (P : sequence -> Prop) f cs, (forall l, f l = true -> P l) ->
  forallb (fun c => forallb (fun i => f (in_seq i)) (cx_inputs c)) cs = true -> all_inputs P cs.
Proof.
  intros P f cs HP H. apply Forall_forall. intros c Hc. rewrite forallb_forall in H. specialize (H c Hc).
  apply Forall_forall. intros i Hi. rewrite forallb_forall in H. auto.
Qed.
Definition no_context_activeb (l : sequence) : bool :=
  match l with e :: _ => negb (ek e =? k_ContextActive) | [] => true end.
Lemma no_context_active_dec : forall l, no_context_activeb l = true -> no_context_active l.
Proof. intros [|e l] H; [exact Logic.I|]. apply negb_true_iff in H. apply N.eqb_neq; exact H. Qed.

(** All outputs an input may be mapped to. *)
Definition outputs_of (cs : list context) (c : context) (i : input) : list sequence :=
  match nth_error (cx_outputs c) (Z.to_nat (in_out i)) with Some o => [o] | None => [] end ++
  map cm_out (flat_map cx_commands cs).
Definition single (o : sequence) (e : event) : bool :=
  match o with [x] => event_eqb x e | _ => false end.
Definition no_own_keyb (cs : list context) (h : sequence) : bool :=
  forallb (fun c => forallb (fun i => forallb (fun o =>
    match find_last is_non_optional (in_seq i) with Some e => negb (single o e) | None => true end &&
    (forallb (fun c => forallb (fun i => forallb (fun e => negb (ek e =? k_timeout)) (in_seq i)) (cx_inputs c)) cs
     || forallb (fun e => negb (single o (ev0 (ek e) Down))) h))
    (outputs_of cs c i)) (cx_inputs c)) cs.
Lemma no_own_key_dec : forall cs h, no_own_keyb cs h = true -> no_own_key cs h.
Proof.
  intros cs h H c i o Hc [Hi Hg]. unfold no_own_keyb in H. rewrite forallb_forall in H. specialize (H c Hc).
  rewrite forallb_forall in H. specialize (H i Hi). rewrite forallb_forall in H.
  assert (Ho : In o (outputs_of cs c i)).
  { unfold outputs_of. apply in_or_app. destruct Hg as [[_ Hn]|[_ [c' [m [H1 [H2 [_ H3]]]]]]].
    - left. rewrite Hn. left; reflexivity.
    - right. rewrite <- H3. apply in_map. apply in_flat_map. exists c'. auto. }
  specialize (H o Ho). apply andb_prop in H. destruct H as [H1 H2]. 
  assert (Hs : forall e, single [e] e = true) by (intros e; apply MatchProofs.event_eqb_refl).
  split.
  - intros e He Eo. unfold completes in He. rewrite He in H1. rewrite Eo, Hs in H1. discriminate.
  - apply orb_prop in H2. destruct H2 as [H2|H2].
    + left. apply (all_inputs_dec timeless (fun l => forallb (fun e => negb (ek e =? k_timeout)) l)); [|exact H2].
      intros l Hl. apply Forall_forall. intros e He. rewrite forallb_forall in Hl. specialize (Hl e He).
      apply negb_true_iff in Hl. apply N.eqb_neq; exact Hl.
    + right. intros k Hk Eo. rewrite forallb_forall in H2. specialize (H2 _ Hk). cbn [ek ev0] in H2.
      rewrite Eo, Hs in H2. discriminate.
Qed.

Definition wf_callb (n : nat) (c : call) : bool :=
  match c with
  | CInput e dev =>
      negb (ek e =? k_none) && valid_device dev &&
      match es e with
      | Down => negb (ek e =? k_timeout) && (ev e =? 0)
      | Up => (ev e =? 0) || (ek e =? k_timeout)
      | _ => false
      end
  | CContexts l => forallb (fun i => Nat.ltb i n) l
  | CValidate _ => true
  end.
Lemma wf_call_dec : forall cs l, forallb (wf_callb (length cs)) l = true -> Forall (wf_call cs) l.
Proof.
  intros cs l H. apply Forall_forall. intros c Hc. rewrite forallb_forall in H. specialize (H c Hc).
  destruct c as [e dev|il|f]; cbn in *; [| |exact Logic.I].
  - apply andb_prop in H. destruct H as [H H3]. apply andb_prop in H. destruct H as [H1 H2].
    apply negb_true_iff in H1. apply N.eqb_neq in H1. split; [|exact H2]. split; [exact H1|].
    destruct (es e) eqn:Ee; try discriminate H3.
    + right. split; [reflexivity|]. apply orb_prop in H3. destruct H3 as [H3|H3]; apply N.eqb_eq in H3; auto.
    + left. apply andb_prop in H3. destruct H3 as [H3 H4]. apply negb_true_iff in H3. apply N.eqb_neq in H3.
      apply N.eqb_eq in H4. auto.
  - apply Forall_forall. intros i Hi. rewrite forallb_forall in H. apply Nat.ltb_lt. exact (H i Hi).
Qed.

(** ** Cases *)

(** Sequences, chords, releases, groups, commands in two contexts and a timeout. *)
Definition stuck_cfg : list context :=
  load (lines ["A B >> X"; "(C D) E >> Y ^ Z"; "F{G} >> !F (U V)"; "H !H >> cmd"; "K{500ms} L >> X R";
               "cmd >> (M N) O"; "[title=""a""]"; "cmd >> P"; "A >> Q"])%string.
Definition stuck_calls : list call :=
  CContexts [0%nat; 1%nat] ::
  map (fun e => CInput e 0)
    [ev0 30 Down; ev0 46 Down; ev0 32 Down; ev0 30 Up; ev0 18 Down; ev0 33 Down; ev0 34 Down; ev0 37 Down;
     Ev k_timeout Up 500; ev0 38 Down; ev0 35 Down].
Definition stuck_rest : list call :=
  CContexts [0%nat] ::
  map (fun e => CInput e 0)
    [ev0 46 Up; ev0 32 Up; ev0 18 Up; ev0 33 Up; ev0 34 Up; ev0 35 Up; ev0 37 Up; ev0 38 Up].

Lemma stuck_cfg_ok : wf_config stuck_cfg /\ balanced_config stuck_cfg /\
  all_inputs plain_input stuck_cfg /\ all_inputs no_context_active stuck_cfg.
Proof.
  split; [apply wf_config_dec; vm_compute; reflexivity|].
  split; [apply balanced_config_dec; vm_compute; reflexivity|].
  split; [apply (all_inputs_dec _ plain_inputb _ plain_input_dec)|
          apply (all_inputs_dec _ no_context_activeb _ no_context_active_dec)]; vm_compute; reflexivity.
Qed.

Example C13_held_case :
  no_own_key stuck_cfg (inputs stuck_calls) /\ Forall (wf_call stuck_cfg) stuck_calls /\
  Forall keys_only stuck_calls /\ length (flat_map cx_inputs stuck_cfg) = 6%nat /\
  fmt (snd (run stuck_cfg stuck_calls init_state)) =
    "+Q +C +D -Q +Y -Y +U +V -500ms +X -X +R -R"%string.
Proof.
  split; [apply no_own_key_dec; vm_compute; reflexivity|].
  split; [apply wf_call_dec; vm_compute; reflexivity|].
  split; [repeat constructor; discriminate|]. split; vm_compute; reflexivity.
Qed.

Example C13_no_stuck_case :
  let l := stuck_calls ++ stuck_rest in
  no_own_key stuck_cfg (inputs l) /\ Forall (wf_call stuck_cfg) l /\ Forall keys_only l /\
  (forall k, is_down_after (inputs l) k = false) /\
  fmt (snd (run stuck_cfg l init_state)) =
    "+Q +C +D -Q +Y -Y +U +V -500ms +X -X +R -R +H -C -D +Z -Z -V -U -H"%string.
Proof.
  cbn zeta. split; [apply no_own_key_dec; vm_compute; reflexivity|].
  split; [apply wf_call_dec; vm_compute; reflexivity|].
  split; [repeat constructor; discriminate|].
  split; [apply all_up_dec; vm_compute; reflexivity|]. vm_compute; reflexivity.
Qed.

(** Strokes which are held back, overlapping and in two contexts. *)
Example C13_no_stuck_keys_case :
  let l := [ev0 46 Down; ev0 30 Down; ev0 32 Down; ev0 46 Up; ev0 18 Down; ev0 35 Down; ev0 35 Up; ev0 18 Up;
            ev0 33 Down; ev0 34 Down; ev0 33 Up; ev0 30 Up; ev0 32 Up; ev0 34 Up] in
  no_own_key stuck_cfg l /\ wf_history l /\ (forall k, is_down_after l k = false) /\
  Forall (fun e => ek e <> k_none /\ ek e <> k_any /\ ek e <> k_timeout /\
                   ek e <> k_ContextActive /\ is_mouse_wheel (ek e) = false) l.
Proof.
  cbn zeta. split; [apply no_own_key_dec; vm_compute; reflexivity|].
  split; [apply wf_history_dec; [reflexivity|]; cbn [map ek ev0]; intros k Hk;
          repeat (destruct Hk as [<-|Hk]); try contradiction; vm_compute; auto 10|].
  split; [apply all_up_dec; vm_compute; reflexivity|].
  repeat constructor; discriminate.
Qed.

(** A timeout after the strokes: the mapped key was released when it is output, and
    nothing releases it again. *)
Theorem C13_timeout_mapping_refuted : exists t l,
  load t <> [] /\ ~ no_stuck_calls (load t) l.
Proof.
  exists (lines ["A B 500ms >> B"])%string,
    (CContexts [0%nat] :: map (fun e => CInput e 0)
      [ev0 30 Down; ev0 48 Down; ev0 48 Up; ev0 30 Up; Ev k_timeout Up 500]).
  split; [vm_compute; discriminate|]. intros H.
  assert (H1 : Forall (wf_call (load (lines ["A B 500ms >> B"])%string))
    (CContexts [0%nat] :: map (fun e => CInput e 0)
      [ev0 30 Down; ev0 48 Down; ev0 48 Up; ev0 30 Up; Ev k_timeout Up 500]))
    by (apply wf_call_dec; vm_compute; reflexivity).
  specialize (H H1). clear H1.
  assert (H2 : wheels_ok (CContexts [0%nat] :: map (fun e => CInput e 0)
      [ev0 30 Down; ev0 48 Down; ev0 48 Up; ev0 30 Up; Ev k_timeout Up 500]))
    by (apply keys_only_wheels; repeat constructor; discriminate).
  specialize (H H2). clear H2.
  assert (H3 : is_down_after (snd (run (load (lines ["A B 500ms >> B"])%string)
    (CContexts [0%nat] :: map (fun e => CInput e 0)
      [ev0 30 Down; ev0 48 Down; ev0 48 Up; ev0 30 Up; Ev k_timeout Up 500]) init_state)) 48 = false).
  { apply H; [repeat constructor| |discriminate]. apply all_up_dec. vm_compute. reflexivity. }
  vm_compute in H3. discriminate.
Qed.
Print Assumptions C13_timeout_mapping_refuted.
