(** The properties of a stage as theorems, with their assumptions and a non-trivial
    instance beside each. *)
From Coq Require Import String List Arith NArith ZArith Bool Lia.
From Verif Require Import Base Key Match Stage Text ParseSeq Config Replay.
From Verif Require Import MatchProofs StageFrame StageTerm StageSpec StageSafe StageOut StageRel.
Import ListNotations.
Local Open Scope N_scope.

(** The stage of a configuration text, with all contexts active. *)
Definition load (t : string) : list context :=
  match parse_cfg (T t) with
  | POk c => new_stage (map stage_context (cfg_contexts c))
  | _ => []
  end.
Definition nl : string := String (Ascii.ascii_of_nat 10) EmptyString.
Definition lines (l : list string) : string := String.concat nl l.
Definition input_calls (cs : list context) (t : string) : list call :=
  CContexts (seq 0 (length cs)) ::
  match events t with Some l => map (fun e => CInput e 0) l | None => [] end.
Definition played (cs : list context) (t : string) : state * sequence :=
  run cs (input_calls cs t) init_state.

(** ** C09 Every input event is processed in finite time *)
Theorem C09_terminates : forall cs e dev s,
  Forall (fun e => ek e <> k_none) (s_seq s) -> Forall (fun e => ek e <> k_none) (s_hist s) ->
  ek e <> k_none -> s_oof (fst (update cs e dev s)) = s_oof s.
Proof. intros cs e dev s H1 H2 H3. apply (update_terminates cs e dev s H1 H2 H3). Qed.
Print Assumptions C09_terminates.

(** The loop over the buffered events, without fuel, ends after at most twice as many
    rounds as events are buffered. *)
Theorem C09_rounds : forall cs e dev s,
  Forall (fun e => ek e <> k_none) (s_seq s) -> Forall (fun e => ek e <> k_none) (s_hist s) ->
  exists n, (n <= 2 * length (s_seq s))%nat /\
    loop_run cs e dev s n (apply_loop cs (weight (s_seq s)) e dev s).
Proof.
  intros cs e dev s H1 H2. destruct (apply_loop_run cs e dev (weight (s_seq s)) s (le_n _) H1 H2) as (n & Hn & Hr & _).
  exists n. split; [|exact Hr]. pose proof (weight_bound (s_seq s)). lia.
Qed.
Print Assumptions C09_rounds.

Definition cfg1 : list context :=
  load (lines ["A B C >> X"; "A B >> Y"; "? D D >> Z"; "E >> (F G) ^ H"])%string.

Example C09_case :
  let s := fst (played cfg1 "+A -A +B -B") in
  length (s_seq s) = 4%nat /\ Forall (fun e => ek e <> k_none) (s_seq s) /\
  fmt (snd (update cfg1 (ev0 36 Down) 0 s)) = "+Y +J"%string.
Proof.
  split; [vm_compute; reflexivity|]. split; [|vm_compute; reflexivity].
  vm_compute. repeat constructor; discriminate.
Qed.

(** ** C10 No out-of-range access while processing input *)
Theorem C10_no_undefined_behaviour : forall cs l,
  wf_config cs -> Forall (wf_call cs) l -> wheels_ok l -> s_ub (fst (run cs l init_state)) = false.
Proof. intros cs l Hc Hl Hw. destruct (reach_inv cs Hc l Hl Hw) as [m Hi]. apply Hi. Qed.
Print Assumptions C10_no_undefined_behaviour.

(** The condition on wheel steps (the server inserts the press of each step with the
    same value) is necessary: otherwise cleaning up the history erases past its end. *)
Theorem C10_unpaired_wheel_refuted : exists t l,
  wf_config (load t) /\ Forall (wf_call (load t)) l /\ s_ub (fst (run (load t) l init_state)) = true.
Proof.
  exists "? D D >> X"%string,
    (CContexts [0%nat] :: map (fun e => CInput e 0)
       [Ev WheelUp Down 1; Ev WheelUp Up 2; Ev WheelUp Down 2; Ev WheelUp Up 1]).
  split; [split; [vm_compute; repeat constructor; try discriminate|]|].
  - intros i c Hi Hf. vm_compute in Hi. destruct i as [|[|i]]; try discriminate. injection Hi as <-. discriminate.
  - split; [|vm_compute; reflexivity].
    constructor; [vm_compute; repeat constructor|].
    cbn [map]. repeat (constructor; [split; [split; [discriminate|]|reflexivity]|]); [| | | |constructor].
    + left. split; [reflexivity|]. split; [discriminate|right; reflexivity].
    + right. split; [reflexivity|right; right; reflexivity].
    + left. split; [reflexivity|]. split; [discriminate|right; reflexivity].
    + right. split; [reflexivity|right; right; reflexivity].
Qed.
Print Assumptions C10_unpaired_wheel_refuted.

Lemma wf_config_dec : forall cs,
  forallb (fun c => forallb (fun i =>
    match in_seq i with [] => false | _ => true end &&
    ((in_out i <? 0)%Z || Nat.ltb (Z.to_nat (in_out i)) (length (cx_outputs c)))) (cx_inputs c)) cs = true ->
  forallb (fun i => match nth_error cs i with
                    | Some c => negb (cx_fall c) || Nat.ltb (S i) (length cs)
                    | None => true end) (seq 0 (length cs)) = true ->
  wf_config cs.
Proof.
  intros cs H1 H2. split.
  - apply Forall_forall. intros c Hc. rewrite forallb_forall in H1. specialize (H1 c Hc).
    rewrite forallb_forall in H1. apply Forall_forall. intros i Hi. specialize (H1 i Hi).
    apply andb_prop in H1. destruct H1 as [Ha Hb]. split; [intros E; rewrite E in Ha; discriminate|].
    intros H. apply orb_prop in Hb. destruct Hb as [Hb|Hb]; [apply Z.ltb_lt in Hb; lia|].
    apply Nat.ltb_lt in Hb. exact Hb.
  - intros i c Hi Hf. rewrite forallb_forall in H2. specialize (H2 i).
    assert (Hl : (i < length cs)%nat) by (apply nth_error_Some; congruence).
    rewrite Hi, Hf in H2. cbn [negb orb] in H2. apply Nat.ltb_lt. apply H2. apply List.in_seq. lia.
Qed.

Lemma wf_calls_dec : forall cs l,
  forallb (fun c => match c with
    | CInput e dev => negb (ek e =? k_none) && valid_device dev && ((ev e =? 0) || is_mouse_wheel (ek e)) &&
        (kstate_eqb (es e) Up || kstate_eqb (es e) Down && negb (ek e =? k_timeout))
    | CContexts l => forallb (fun i => Nat.ltb i (length cs)) l
    | CValidate _ => true end) l = true ->
  Forall (wf_call cs) l.
Proof.
  intros cs l H. apply Forall_forall. intros c Hc. rewrite forallb_forall in H. specialize (H c Hc).
  destruct c as [e dev|il|f]; cbn [wf_call]; [| |exact I].
  - apply andb_prop in H. destruct H as [H H4]. apply andb_prop in H. destruct H as [H H3].
    apply andb_prop in H. destruct H as [H1 H2]. split; [|exact H2].
    assert (Hv : ev e = 0 \/ is_mouse_wheel (ek e) = true).
    { apply orb_prop in H3. destruct H3 as [H3|H3]; [left; apply N.eqb_eq; exact H3|right; exact H3]. }
    split.
    + intros E. rewrite E in H1. discriminate.
    + apply orb_prop in H4. destruct H4 as [H4|H4].
      * right. apply kstate_eqb_eq in H4. intuition.
      * left. apply andb_prop in H4. destruct H4 as [H4 H5].
        apply kstate_eqb_eq in H4. apply negb_true_iff in H5. apply N.eqb_neq in H5. auto.
  - apply Forall_forall. intros i Hi. rewrite forallb_forall in H. apply Nat.ltb_lt. auto.
Qed.

Example C10_case : wf_config cfg1 /\ length (flat_map cx_inputs cfg1) = 4%nat /\
  let l := input_calls cfg1 "+A -A +B -B +E -E" ++
           [CInput (Ev WheelUp Down 120) 0; CInput (Ev WheelUp Up 120) 0] in
  Forall (wf_call cfg1) l /\ wheels_ok l.
Proof.
  split; [apply wf_config_dec; vm_compute; reflexivity|]. split; [vm_compute; reflexivity|].
  cbn zeta. split; [apply wf_calls_dec; vm_compute; reflexivity|]. left. vm_compute. auto 20.
Qed.

(** ** C13 No stuck keys *)

(** The property: after a history of strokes which leaves every key up, nothing is
    pressed in the output. *)
Definition no_stuck_keys (cs : list context) (l : sequence) : Prop :=
  wf_history l -> (forall k, is_down_after l k = false) ->
  forall k, k <> k_timeout ->
    is_down_after (snd (run cs (CContexts (seq 0 (length cs)) ::
                                map (fun e => CInput e 0) l) init_state)) k = false.

Lemma wf_history_dec : forall l,
  forallb (fun e => (ev e =? 0)) l = true ->
  (forall k, In k (map ek l) -> strokes false (track k l)) -> wf_history l.
Proof.
  intros l Hv H. split.
  - intros k. destruct (in_dec N.eq_dec k (map ek l)) as [Hi|Hi]; [auto|].
    assert (E : track k l = []).
    { unfold track. clear -Hi. induction l as [|e l IH]; [reflexivity|]. cbn.
      unfold has_key at 1. destruct (N.eqb_spec (ek e) k) as [E|E].
      - exfalso. apply Hi. left. exact E.
      - apply IH. intros Hx. apply Hi. right. exact Hx. }
    rewrite E. exact I.
  - apply Forall_forall. intros e He. rewrite forallb_forall in Hv. apply N.eqb_eq. auto.
Qed.
Lemma all_up_dec : forall l, forallb (fun k => negb (is_down_after l k)) (map ek l) = true ->
  forall k, is_down_after l k = false.
Proof.
  intros l H k. destruct (is_down_after l k) eqn:E; [|reflexivity].
  assert (Hi : In k (map ek l)).
  { unfold is_down_after in E. destruct (find_last (has_key k) l) as [e|] eqn:Ef; [|discriminate].
    clear -Ef. revert e Ef. induction l as [|x l IH]; intros e Ef; [discriminate|]. cbn in Ef.
    destruct (find_last (has_key k) l) as [y|]; [right; eapply IH; reflexivity|].
    unfold has_key in Ef. destruct (N.eqb_spec (ek x) k) as [Ek|Ek]; [|discriminate]. left. exact Ek. }
  rewrite forallb_forall in H. specialize (H k Hi). rewrite E in H. discriminate.
Qed.

(** A mapping which outputs only the press of its own trigger: the key stays down when
    it was held back by another mapping until after its release. *)
Theorem C13_trivial_mapping_refuted : exists t l,
  load t <> [] /\ ~ no_stuck_keys (load t) l.
Proof.
  exists (lines ["A B >> X"; "A >> A"])%string, [ev0 30 Down; ev0 30 Up; ev0 46 Down; ev0 46 Up].
  split; [vm_compute; discriminate|]. intros H.
  assert (H1 : wf_history [ev0 30 Down; ev0 30 Up; ev0 46 Down; ev0 46 Up]).
  { apply wf_history_dec; [reflexivity|]. cbn [map ek ev0]. intros k Hk.
    repeat (destruct Hk as [<-|Hk]); try contradiction; vm_compute; auto. }
  match type of H with no_stuck_keys _ ?l => assert (H2 : forall k, is_down_after l k = false) by (apply all_up_dec; reflexivity) end.
  specialize (H H1 H2 30 ltac:(discriminate)). vm_compute in H. discriminate.
Qed.
Print Assumptions C13_trivial_mapping_refuted.

(** A mapping beginning with Any takes the release of another key. *)
Theorem C13_any_mapping_refuted : exists t l,
  load t <> [] /\ ~ no_stuck_keys (load t) l.
Proof.
  exists (lines ["B C F >> Y"; "Any D >> X"])%string,
    [ev0 48 Down; ev0 46 Down; ev0 48 Up; ev0 32 Down; ev0 32 Up; ev0 46 Up].
  split; [vm_compute; discriminate|]. intros H.
  assert (H1 : wf_history [ev0 48 Down; ev0 46 Down; ev0 48 Up; ev0 32 Down; ev0 32 Up; ev0 46 Up]).
  { apply wf_history_dec; [reflexivity|]. cbn [map ek ev0]. intros k Hk.
    repeat (destruct Hk as [<-|Hk]); try contradiction; vm_compute; auto. }
  match type of H with no_stuck_keys _ ?l => assert (H2 : forall k, is_down_after l k = false) by (apply all_up_dec; reflexivity) end.
  specialize (H H1 H2 48 ltac:(discriminate)). vm_compute in H. discriminate.
Qed.
Print Assumptions C13_any_mapping_refuted.

(** ** C14 The engine's idea of pressed output keys covers the consumer's *)
Theorem C14_held_covers_consumer : forall cs l k,
  balanced_config cs -> Forall (fun c => is_validate c = false) l -> k <> k_timeout ->
  is_down_after (snd (run cs l init_state)) k = true -> held (fst (run cs l init_state)) k.
Proof. intros cs l k Hb. exact (held_covers_consumer cs Hb l k). Qed.
Print Assumptions C14_held_covers_consumer.

(** Releasing a key releases everything it triggered. *)
Theorem C14_release_releases : forall cs l k v dev j,
  balanced_config cs -> Forall (fun c => is_validate c = false) l ->
  k <> k_timeout -> k <> k_ContextActive -> j <> k_timeout ->
  is_down_after (snd (run cs (l ++ [CInput (Ev k Up v) dev]) init_state)) j = true ->
  exists o, In o (s_down (fst (run cs (l ++ [CInput (Ev k Up v) dev]) init_state))) /\
            od_key o = j /\ od_temp o = false /\ get_trigger_key (od_trigger o) <> k.
Proof. intros cs l k v dev j Hb. exact (release_releases cs Hb l k v dev j). Qed.
Print Assumptions C14_release_releases.

(** Only validate_state forgets held keys without releasing them. *)
Theorem C14_validate_refuted : exists l k,
  is_down_after (snd (run cfg1 l init_state)) k = true /\ ~ held (fst (run cfg1 l init_state)) k.
Proof.
  exists [CInput (ev0 36 Down) 0; CValidate (fun _ => false)], 36.
  split; [vm_compute; reflexivity|]. intros (o & Hi & _). vm_compute in Hi. exact Hi.
Qed.
Print Assumptions C14_validate_refuted.

Fixpoint balancedb (p : list key) (l : sequence) : bool :=
  match l with
  | [] => true
  | e :: r => match es e with
              | Down => balancedb (ek e :: p) r
              | Up => existsb (N.eqb (ek e)) p && balancedb p r
              | OutputOnRelease => balancedb [] r
              | _ => balancedb p r
              end
  end.
Lemma balanced_dec : forall l p, balancedb p l = true -> balanced p l.
Proof.
  induction l as [|e l IH]; intros p H; [exact I|]. cbn in *.
  destruct (es e); auto. apply andb_prop in H. destruct H as [H1 H2]. split; [|auto].
  apply existsb_exists in H1. destruct H1 as [x [Hx E]]. apply N.eqb_eq in E. rewrite E; exact Hx.
Qed.
Lemma balanced_config_dec : forall cs,
  forallb (fun c => forallb (balancedb []) (cx_outputs c) &&
                    forallb (fun m => balancedb [] (cm_out m)) (cx_commands c)) cs = true ->
  balanced_config cs.
Proof.
  intros cs H. apply Forall_forall. intros c Hc. rewrite forallb_forall in H. specialize (H c Hc).
  apply andb_prop in H. destruct H as [H1 H2]. rewrite forallb_forall in H1, H2.
  split; apply Forall_forall; intros x Hx; apply balanced_dec; auto.
Qed.

Example C14_case :
  balanced_config cfg1 /\
  is_down_after (snd (played cfg1 "+A -A +B -B +J")) 21 = true /\
  held (fst (played cfg1 "+A -A +B -B +J")) 21 /\
  is_down_after (snd (played cfg1 "+A -A +B -B +J -J")) 21 = false.
Proof.
  split; [apply balanced_config_dec; vm_compute; reflexivity|].
  split; [vm_compute; reflexivity|]. split; [|vm_compute; reflexivity].
  eexists. split; [vm_compute; left; reflexivity|]. split; reflexivity.
Qed.

(** ** C17 Output after ^ is sent exactly once, on release *)

(** The press outputs only the first half; the second one becomes pending. *)
Theorem C17_held_back : forall x y t ci s,
  Forall (fun e => es e <> OutputOnRelease) x -> es (get_trigger_event t) = Down ->
  apply_output (x ++ ev0 k_none OutputOnRelease :: y) t ci s =
  let s1 := apply_output x t ci s in
  set_onrel (s_onrel s1 ++ [OnRel (ek (get_trigger_event t)) y ci]) s1.
Proof. exact output_split. Qed.
Print Assumptions C17_held_back.

(** While an output is pending, repeats of the key are ignored. *)
Theorem C17_repeats_ignored : forall cs k v dev s o,
  k <> k_ContextActive -> In o (s_onrel s) -> or_trigger o = k ->
  snd (update cs (Ev k Down v) dev s) = s_buf s /\
  fst (update cs (Ev k Down v) dev s) =
    set_buf [] (set_exit (advance_exit (Ev k Down v) (s_exit s)) s).
Proof. exact repeat_ignored. Qed.
Print Assumptions C17_repeats_ignored.

(** Every event but the release of the key leaves it pending. *)
Theorem C17_only_release_takes : forall cs k e dev s,
  k <> k_ContextActive -> ek e <> k \/ es e = Down ->
  exists more, pending k (fst (update cs e dev s)) = pending k s ++ more.
Proof. exact pending_stays. Qed.
Print Assumptions C17_only_release_takes.

(** The release outputs it and removes it, so that it is output once. *)
Theorem C17_release_partial : forall k v ks ci a b s,
  k <> k_ContextActive -> Forall (fun o => or_trigger o <> k) (a ++ b) ->
  s_onrel s = a ++ OnRel k (strokes_of ks) ci :: b ->
  Forall (fun k => k <> k_timeout /\ k <> k_any /\
                   Forall (fun o => od_key o <> k /\ od_temp o = false) (s_down s)) ks ->
  continue_output_on_release (Ev k Up v) None s =
  (set_onrel (a ++ b) (set_buf (s_buf s ++ strokes_of ks) s), true).
Proof. exact release_outputs. Qed.
Print Assumptions C17_release_partial.

(** Leaving the context cancels it. *)
Theorem C17_leaving_cancels : forall cs l s o,
  In o (s_onrel (fst (set_active_client_contexts cs l s))) ->
  is_context_active cs (fst (set_active_client_contexts cs l s)) (or_ctx o) = true.
Proof. exact leaving_cancels. Qed.
Print Assumptions C17_leaving_cancels.

Definition cfg2 : list context := load (lines ["A B >> Z"; "A >> X ^ Y"; "C >> D ^ E"])%string.

Example C17_case :
  fmt (snd (played cfg2 "+C")) = "+D -D"%string /\
  fmt (snd (played cfg2 "+C +C +C")) = "+D -D"%string /\
  fmt (snd (played cfg2 "+C +C +C -C")) = "+D -D +E -E"%string /\
  pending 46 (fst (played cfg2 "+C")) = [OnRel 46 (strokes_of [18]) (Some 0%nat)].
Proof. repeat split; vm_compute; reflexivity. Qed.

(** The full statement is false: two outputs can become pending on the release of one
    key; the release then outputs only one of them, the next press of the key is
    ignored and its release outputs the other one. *)
Theorem C17_two_pending_refuted :
  length (pending 46 (fst (played cfg2 "+A -A +C"))) = 2%nat /\
  fmt (snd (played cfg2 "+A -A +C -C")) = "+X -X +D -D +Y -Y"%string /\
  fmt (snd (played cfg2 "+A -A +C -C +C")) = "+X -X +D -D +Y -Y"%string /\
  fmt (snd (played cfg2 "+A -A +C -C +C -C")) = "+X -X +D -D +Y -Y +E -E"%string.
Proof. repeat split; vm_compute; reflexivity. Qed.
Print Assumptions C17_two_pending_refuted.

(** ** C20 The history for ?-mappings stays well-formed *)
Theorem C20_history_well_formed : forall cs l,
  wf_config cs -> Forall (wf_call cs) l -> wheels_ok l ->
  let h := s_hist (fst (run cs l init_state)) in
  alternates h /\ match h with [] => True | e :: _ => es e = Down end.
Proof.
  intros cs l Hc Hl Hw h.
  destruct (reach_inv cs Hc l Hl Hw) as [m Hi]. assert (Ha := hist_inv_alternates _ _ _ (inv_hist _ _ _ Hi)).
  fold h in Ha. split; [exact Ha|]. destruct h as [|e h]; [exact I|].
  specialize (Ha (ek e)). rewrite track_cons, N.eqb_refl in Ha.
  destruct (es e); cbn in Ha; intuition; discriminate.
Qed.
Print Assumptions C20_history_well_formed.

(** A mapping of an active context which begins with `?` may still match the history. *)
Definition optional_might_match (cs : list context) (s : state) : Prop :=
  exists ci c i e r, In ci (s_active s) /\ nth_error cs ci = Some c /\ In i (cx_inputs c) /\
    in_seq i = e :: r /\ es e = NoMightMatch /\ exists x y, match_keys r (s_hist s) = Some (MightMatch, x, y).
Lemma optional_might_match_is cs s : history_might_match cs s = true <-> optional_might_match cs s.
Proof.
  unfold history_might_match, optional_might_match. rewrite existsb_exists. split.
  - intros (ci & H1 & H2). destruct (nth_error cs ci) as [c|] eqn:E; [|discriminate].
    apply existsb_exists in H2. destruct H2 as (i & H2 & H3). apply andb_true_iff in H3. destruct H3 as [H3 H4].
    unfold is_nmm_mapping in H3. destruct (in_seq i) as [|e r] eqn:Ei; [discriminate|]. cbn [tl] in H4.
    exists ci, c, i, e, r. split; [exact H1|]. split; [exact E|]. split; [exact H2|]. split; [exact Ei|].
    split; [destruct (es e); try discriminate H3; reflexivity|].
    destruct (match_keys r (s_hist s)) as [[[[] x] y]|]; try discriminate H4. exists x, y. reflexivity.
  - intros (ci & c & i & e & r & H1 & H2 & H3 & H4 & H5 & x & y & H6). exists ci. split; [exact H1|].
    rewrite H2. apply existsb_exists. exists i. split; [exact H3|]. rewrite H4. cbn [is_nmm_mapping tl].
    rewrite H5, H6. reflexivity.
Qed.
(** After a release, the oldest key of the history is still held or some `?`-mapping
    may still match it; so it is empty when neither is the case. *)
Theorem C20_history_cleaned : forall cs l e dev,
  wf_config cs -> Forall (wf_call cs) (l ++ [CInput e dev]) -> wheels_ok (l ++ [CInput e dev]) ->
  es e = Up -> ek e <> k_timeout ->
  let s := fst (run cs (l ++ [CInput e dev]) init_state) in
  match s_hist s with
  | [] => True
  | x :: _ => es x = Down /\
      (~ In (Ev (ek x) Up (ev x)) (s_hist s) \/ optional_might_match cs s)
  end.
Proof.
  intros cs l e dev Hc Hl Hw Hu Ht.
  cbn zeta. rewrite run_snoc. cbn [fst do_call].
  apply Forall_app in Hl. destruct Hl as [Hl He]. apply Forall_inv in He. destruct He as [Hwe Hd].
  destruct (wheels_steps _ Hw) as (m & m' & Hm). apply mode_steps_app in Hm.
  destruct Hm as (m1 & Hm1 & (m2 & Hm2 & _)).
  assert (Hi := run_inv cs Hc l m m1 init_state Hl Hm1 (init_inv cs m)).
  destruct (update_inv cs Hc m1 m2 e dev _ Hwe Hd Hm2 Hi) as [Hinv H]. specialize (H Hu Ht).
  unfold history_clean in H. destruct (s_hist _); [exact I|]. destruct H as [H1 [H2|H2]]; (split; [exact H1|]).
  - left. exact H2.
  - right. apply optional_might_match_is. exact H2.
Qed.
Print Assumptions C20_history_cleaned.

(** Behind another stage the press of a wheel step arrives with a value, its release
    without one.  Then the step is never removed, though nothing is held any more and
    no `?`-mapping may match; so the history grows with every further step. *)
Theorem C20_second_stage_wheel_refuted : exists t l,
  wf_config (load t) /\ Forall (wf_call (load t)) l /\ wheels_ok l /\
  let s := fst (run (load t) l init_state) in
  length (s_hist s) = 6%nat /\ ~ optional_might_match (load t) s /\
  (forall k, is_down_after (flat_map (fun c => match c with CInput e _ => [e] | _ => [] end) l) k = false).
Proof.
  exists "? D D >> X"%string,
    (CContexts [0%nat] :: map (fun e => CInput e 0)
       [Ev WheelUp Down 120; ev0 WheelUp Up; Ev WheelUp Down 120; ev0 WheelUp Up;
        Ev WheelUp Down 120; ev0 WheelUp Up]).
  split; [apply wf_config_dec; vm_compute; reflexivity|].
  split; [apply wf_calls_dec; vm_compute; reflexivity|].
  split; [right; unfold zero_ups; repeat (constructor; [try exact I; intros; try reflexivity; discriminate|]); constructor|].
  split; [vm_compute; reflexivity|].
  split; [rewrite <- optional_might_match_is; intros X; vm_compute in X; discriminate X|].
  intros k. unfold is_down_after. cbn -[WheelUp N.eqb]. unfold has_key. cbn -[WheelUp N.eqb].
  destruct (WheelUp =? k); reflexivity.
Qed.
Print Assumptions C20_second_stage_wheel_refuted.

Example C20_case :
  wf_config cfg1 /\
  fmt (s_hist (fst (played cfg1 "+D -D"))) = "+D -D"%string /\
  fmt (s_hist (fst (played cfg1 "+D +B -B"))) = "+D +B -B"%string /\
  fmt (s_hist (fst (played cfg1 "+B +C -C -B"))) = ""%string.
Proof. split; [apply wf_config_dec; vm_compute; reflexivity|]. repeat split; vm_compute; reflexivity. Qed.

(** ** C51 A wheel step is over once it was processed *)

(** The wheel step is forwarded at the key which does not continue the sequence;
    nevertheless the sequence is output when its second key follows later.  (The
    release is looked for without the value of the wheel step, Stage.cpp:763 and 903,
    so the press remains buffered.)  The same with a key in place of the wheel. *)
Theorem C51_wheel_step_lingers_refuted : exists t,
  wf_config (load t) /\
  let wheel := [CInput (Ev WheelUp Down 120) 0; CInput (Ev WheelUp Up 120) 0] in
  let b := [CInput (ev0 48 Down) 0; CInput (ev0 48 Up) 0] in
  let a := [CInput (ev0 30 Down) 0; CInput (ev0 30 Up) 0] in
  Forall (wf_call (load t)) (CContexts [0%nat] :: wheel ++ b ++ a) /\
  wheels_ok (CContexts [0%nat] :: wheel ++ b ++ a) /\
  fmt (snd (run (load t) (CContexts [0%nat] :: wheel ++ b ++ a) init_state))
    = "+WheelUp -WheelUp +B -B +X -X"%string /\
  exists t', fmt (snd (run (load t') (CContexts [0%nat] ::
    [CInput (ev0 31 Down) 0; CInput (ev0 31 Up) 0] ++ b ++ a) init_state))
    = "+S -S +B -B +A -A"%string.
Proof.
  exists "WheelUp A >> X"%string. split; [apply wf_config_dec; vm_compute; reflexivity|].
  split; [apply wf_calls_dec; vm_compute; reflexivity|].
  split; [left; vm_compute; auto 20|].
  split; [vm_compute; reflexivity|]. exists "S A >> X"%string. vm_compute. reflexivity.
Qed.
Print Assumptions C51_wheel_step_lingers_refuted.
