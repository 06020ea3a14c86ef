(** C72: a key which no mapping mentions is output as it is pressed and released.
    C73: a key which is held back is output later. *)
From Coq Require Import String List Arith NArith ZArith Bool Lia.
From Verif Require Import Base Key Match Stage Text ParseSeq Config Replay.
From Verif Require Import StageSpec StageSafe StageOut StageProperties.
From Verif Require Import StageRel StuckSpec StageStuck StuckProperties UntouchedSpec StageUntouched StageHeld.
Import ListNotations.
Local Open Scope N_scope.

(** The full claim: whatever else is pressed, the output contains the presses and the
    releases of the key, no more and no less.  As it holds for every list of calls,
    nothing of the key is held back either. *)
Definition passes_through (cs : list context) : Prop :=
  forall k l, device_button k -> unmentioned k cs -> Forall (wf_call cs) l ->
  Forall (fun c => is_validate c = false) l -> strokes false (track k (inputs l)) ->
  List.filter (has_key k) (snd (run cs l init_state)) = List.filter (has_key k) (inputs l).

(** Missing from the full claim: configurations which use ^ (false for them, see
    below).  A question mark may stand in front of inputs (nowhere else does the parser
    accept one). *)
Theorem C72_passes_through_partial : forall cs,
  question_first cs -> no_output_on_release cs -> passes_through cs.
Proof.
  intros cs Hh Ho k l Hk Hu Hl Hv Hs.
  eapply kouts_strokes; [apply untouched_outs; auto|exact Hs|].
  eapply Forall_impl; [|exact (inputs_states cs l Hl)]. intros e He Ek.
  destruct Hk as [_ [_ [Ht [_ [_ Hw]]]]]. destruct He as [_ [[_ [_ [H|H]]]|[_ [H|[H|H]]]]]; congruence.
Qed.
Print Assumptions C72_passes_through_partial.

(** Each press and release is output by the very call which gets it, and no other call
    outputs events of the key. *)
Theorem C72_immediately_partial : forall cs k l c,
  question_first cs -> no_output_on_release cs -> device_button k -> unmentioned k cs ->
  Forall (wf_call cs) (l ++ [c]) -> Forall (fun c => is_validate c = false) (l ++ [c]) ->
  strokes false (track k (inputs (l ++ [c]))) ->
  List.filter (has_key k) (snd (do_call cs c (fst (run cs l init_state)))) = List.filter (has_key k) (inputs [c]).
Proof.
  intros cs k l c Hh Ho Hk Hu Hl Hv Hs.
  pose proof (C72_passes_through_partial cs Hh Ho k (l ++ [c]) Hk Hu Hl Hv Hs) as H2.
  apply Forall_app in Hl. destruct Hl as [Hl _]. apply Forall_app in Hv. destruct Hv as [Hv _].
  rewrite inputs_snoc in Hs, H2. rewrite run_snoc in H2. cbn [snd] in H2.
  rewrite !List.filter_app in H2.
  assert (Hs' : strokes false (track k (inputs l))).
  { unfold track in *. rewrite List.filter_app, map_app in Hs. clear -Hs. revert Hs. generalize false.
    induction (map es (List.filter (has_key k) (inputs l))) as [|x r IH]; intros b H; [exact Logic.I|].
    destruct x; cbn in *; try contradiction; (split; [tauto|apply IH; tauto]). }
  rewrite (C72_passes_through_partial cs Hh Ho k l Hk Hu Hl Hv Hs') in H2.
  apply app_inv_head in H2. exact H2.
Qed.
Print Assumptions C72_immediately_partial.

(** Also with repeated presses and with releases of keys which are not pressed, the key
    is down in the output exactly when it is down on the device. *)
Theorem C72_down_partial : forall cs k l,
  question_first cs -> no_output_on_release cs -> device_button k -> unmentioned k cs ->
  Forall (wf_call cs) l -> Forall (fun c => is_validate c = false) l ->
  is_down_after (snd (run cs l init_state)) k = is_down_after (inputs l) k.
Proof.
  intros cs k l Hh Ho Hk Hu Hl Hv.
  assert (H : after false (List.filter (has_key k) (snd (run cs l init_state))) k = after false (inputs l) k).
  { apply kouts_after; [apply untouched_outs; auto|].
    eapply Forall_impl; [|exact (inputs_states cs l Hl)]. intros e [_ [[H _]|[H _]]]; auto. }
  unfold is_down_after. unfold after in H. rewrite <- H. clear.
  assert (E : find_last (has_key k) (List.filter (has_key k) (snd (run cs l init_state))) =
              find_last (has_key k) (snd (run cs l init_state))).
  { induction (snd (run cs l init_state)) as [|x r IH]; [reflexivity|]. cbn.
    destruct (has_key k x) eqn:E; cbn; rewrite ?E, IH; [reflexivity|].
    destruct (find_last (has_key k) r); reflexivity. }
  rewrite E. reflexivity.
Qed.
Print Assumptions C72_down_partial.

(** ** Deciding the hypotheses *)

Definition device_buttonb (k : key) : bool :=
  negb (k =? k_none) && negb (k =? k_any) && negb (k =? k_timeout) && negb (k =? k_ContextActive)
  && negb (is_virtual_key k) && negb (is_mouse_wheel k).
Lemma device_button_dec : forall k, device_buttonb k = true -> device_button k.
Proof.
  intros k H. unfold device_buttonb in H. repeat (apply andb_prop in H; destruct H as [H ?]).
  repeat match goal with X : negb _ = true |- _ => apply negb_true_iff in X end.
  repeat match goal with X : (_ =? _) = false |- _ => apply N.eqb_neq in X end.
  unfold device_button. auto 10.
Qed.

Definition all_eventsb (f g : event -> bool) (cs : list context) : bool :=
  forallb (fun c => forallb (fun i => forallb f (in_seq i)) (cx_inputs c)
                    && forallb (forallb g) (context_outputs c)) cs.
Lemma all_events_dec : forall f g cs, all_eventsb f g cs = true ->
  forall c, In c cs -> (forall i e, In i (cx_inputs c) -> In e (in_seq i) -> f e = true) /\
                       (forall o e, In o (context_outputs c) -> In e o -> g e = true).
Proof.
  intros f g cs H c Hc. unfold all_eventsb in H. rewrite forallb_forall in H. specialize (H c Hc).
  apply andb_prop in H. destruct H as [H1 H2]. rewrite forallb_forall in H1, H2. split.
  - intros i e Hi He. specialize (H1 i Hi). rewrite forallb_forall in H1. auto.
  - intros o e Ho He. specialize (H2 o Ho). rewrite forallb_forall in H2. auto.
Qed.

Definition unmentionedb (k : key) (cs : list context) : bool :=
  all_eventsb (fun e => negb (ek e =? k) && negb (ek e =? k_any))
              (fun e => negb (ek e =? k) && negb (ek e =? k_any)) cs.
Lemma unmentioned_dec : forall k cs, unmentionedb k cs = true -> unmentioned k cs.
Proof.
  intros k cs H c Hc. destruct (all_events_dec _ _ _ H c Hc) as [H1 H2].
  split; [intros i e Hi He; specialize (H1 i e Hi He)|intros o e Hi He; specialize (H2 o e Hi He)].
  - apply andb_prop in H1. destruct H1 as [A B]. apply negb_true_iff in A, B. split; apply N.eqb_neq; auto.
  - apply andb_prop in H2. destruct H2 as [A B]. apply negb_true_iff in A, B. split; apply N.eqb_neq; auto.
Qed.
Lemma no_history_input_dec : forall cs,
  all_eventsb (fun e => negb (kstate_eqb (es e) NoMightMatch)) (fun _ => true) cs = true -> no_history_input cs.
Proof.
  intros cs H c i e Hc Hi He E. destruct (all_events_dec _ _ _ H c Hc) as [H1 _]. specialize (H1 i e Hi He).
  rewrite E in H1. discriminate.
Qed.
Lemma question_first_dec : forall cs,
  forallb (fun c => forallb (fun i =>
    forallb (fun e => negb (kstate_eqb (es e) NoMightMatch))
      (match in_seq i with q :: r => if event_eqb q (ev0 k_none NoMightMatch) then r else q :: r | [] => [] end))
    (cx_inputs c)) cs = true -> question_first cs.
Proof.
  intros cs H c i Hc Hi. rewrite forallb_forall in H. specialize (H c Hc). rewrite forallb_forall in H. specialize (H i Hi).
  assert (G : forall l, forallb (fun e => negb (kstate_eqb (es e) NoMightMatch)) l = true ->
    Forall (fun e => es e <> NoMightMatch) l).
  { intros l Hl. apply Forall_forall. intros e He E. rewrite forallb_forall in Hl. specialize (Hl e He).
    rewrite E in Hl. discriminate Hl. }
  destruct (in_seq i) as [|q r]; [left; constructor|].
  destruct (event_eqb q (ev0 k_none NoMightMatch)) eqn:E; [right|left; apply G; exact H].
  apply MatchProofs.event_eqb_eq in E. subst q. exists r. auto.
Qed.
Lemma no_output_on_release_dec : forall cs,
  all_eventsb (fun _ => true) (fun e => negb (kstate_eqb (es e) OutputOnRelease)) cs = true -> no_output_on_release cs.
Proof.
  intros cs H c o e Hc Hi He E. destruct (all_events_dec _ _ _ H c Hc) as [_ H1]. specialize (H1 o e Hi He).
  rewrite E in H1. discriminate.
Qed.

(** ** A case: keys held back, timeouts, contexts, and the key pressed in between. *)

Definition untouched_cfg : list context :=
  load (lines ["A B C >> X"; "A B >> Shift{Y}"; "D{500ms} >> Z"; "E{!300ms} >> (V W)";
               "Shift{G} >> !Shift H"; "[modifier = ""Virtual1""]"; "R >> Virtual2 U"; "A >> Virtual1"])%string.
Definition untouched_calls : list call :=
  [CContexts [0%nat; 1%nat];
   CInput (ev0 30 Down) 0; CInput (ev0 37 Down) 0; CInput (ev0 48 Down) 0; CInput (ev0 37 Up) 0;
   CInput (ev0 30 Up) 0; CInput (ev0 48 Up) 0; CInput (ev0 32 Down) 0; CInput (ev0 37 Down) 0;
   CInput (Ev k_timeout Up 500) 0; CInput (ev0 37 Up) 0; CInput (ev0 32 Up) 0;
   CInput (ev0 18 Down) 0; CInput (ev0 37 Down) 0; CInput (ev0 18 Up) 0; CContexts [];
   CInput (ev0 37 Up) 0].

Example C72_case :
  device_button 37 /\ unmentioned 37 untouched_cfg /\ question_first untouched_cfg /\
  no_output_on_release untouched_cfg /\ Forall (wf_call untouched_cfg) untouched_calls /\
  Forall (fun c => is_validate c = false) untouched_calls /\
  strokes false (track 37 (inputs untouched_calls)) /\ length (List.filter (has_key 37) (inputs untouched_calls)) = 6%nat.
Proof.
  split; [apply device_button_dec; vm_compute; reflexivity|].
  split; [apply unmentioned_dec; vm_compute; reflexivity|].
  split; [apply question_first_dec; vm_compute; reflexivity|].
  split; [apply no_output_on_release_dec; vm_compute; reflexivity|].
  split; [apply wf_call_dec; vm_compute; reflexivity|].
  split; [repeat constructor|]. split; [vm_compute; auto 10|vm_compute; reflexivity].
Qed.
Example C72_case_output : fmt (snd (run untouched_cfg untouched_calls init_state)) =
  "+A +K +ShiftLeft +Y -Y -ShiftLeft -K -A -500ms +D +K +Z -K -Z -D ?300ms +E +K -E -K"%string.
Proof. vm_compute. reflexivity. Qed.

(** A case with question marks: K is released between the first A and B, which match
    nevertheless, the second stroke of K comes between A and B and keeps them from matching,
    and K is still down when they match again. *)
Definition question_cfg : list context :=
  load (lines ["? A B >> X"; "? (C D) >> Y"; "A C >> Z"])%string.
Definition question_calls : list call :=
  CContexts [0%nat] :: map (fun e => CInput e 0)
    [ev0 37 Down; ev0 30 Down; ev0 37 Up; ev0 48 Down; ev0 48 Up; ev0 30 Up;
     ev0 30 Down; ev0 37 Down; ev0 48 Down; ev0 48 Up; ev0 30 Up;
     ev0 30 Down; ev0 30 Up; ev0 48 Down; ev0 37 Up; ev0 48 Up].
Example C72_case_question :
  device_button 37 /\ unmentioned 37 question_cfg /\ question_first question_cfg /\
  has_nmm_mapping question_cfg = true /\
  no_output_on_release question_cfg /\ Forall (wf_call question_cfg) question_calls /\
  Forall (fun c => is_validate c = false) question_calls /\
  strokes false (track 37 (inputs question_calls)).
Proof.
  split; [apply device_button_dec; vm_compute; reflexivity|].
  split; [apply unmentioned_dec; vm_compute; reflexivity|].
  split; [apply question_first_dec; vm_compute; reflexivity|].
  split; [vm_compute; reflexivity|].
  split; [apply no_output_on_release_dec; vm_compute; reflexivity|].
  split; [apply wf_call_dec; vm_compute; reflexivity|].
  split; [repeat constructor|]. vm_compute; auto 10.
Qed.
Example C72_case_question_output : fmt (snd (run question_cfg question_calls init_state)) =
  "+K +A -K +X -X -A +A +K +B -B -A +X -K -X"%string.
Proof. vm_compute. reflexivity. Qed.

(** ** What waits for a release swallows strokes of keys which no mapping mentions *)

(** With `A A A B >> X` and `A >> Z ^ W`, two strokes of A are output when K is
    pressed, and both wait for the release of K.  The release of K ends one of them, so
    the next press of K is swallowed. *)
Definition swallow_cfg : list context := load (lines ["A A A B >> X"; "A >> Z ^ W"])%string.
Definition swallow_calls : list call :=
  CContexts [0%nat] :: map (fun e => CInput e 0)
    [ev0 30 Down; ev0 30 Up; ev0 30 Down; ev0 30 Up; ev0 37 Down; ev0 37 Up; ev0 37 Down; ev0 37 Up].

Theorem C72_on_release_refuted : exists t, load t <> [] /\ ~ passes_through (load t).
Proof.
  exists (lines ["A A A B >> X"; "A >> Z ^ W"])%string. split; [vm_compute; discriminate|]. intros H.
  assert (H1 := H 37 swallow_calls). clear H.
  assert (H2 : List.filter (has_key 37) (snd (run swallow_cfg swallow_calls init_state)) =
               List.filter (has_key 37) (inputs swallow_calls)).
  { apply H1.
    - apply device_button_dec. vm_compute. reflexivity.
    - apply unmentioned_dec. vm_compute. reflexivity.
    - apply wf_call_dec. vm_compute. reflexivity.
    - repeat constructor.
    - vm_compute. auto 10. }
  vm_compute in H2. discriminate.
Qed.
Print Assumptions C72_on_release_refuted.

(** * C73 *)

(** The full claim: strokes of a key all whose mappings need another key, which is not
    pressed, are output - at the latest when nothing is held back any more. *)
Definition not_lost (cs : list context) : Prop :=
  forall k j l, device_button k -> device_button j -> incomplete k j cs ->
  Forall (wf_call cs) l -> Forall (fun c => is_validate c = false) l ->
  (forall e, In e (inputs l) -> ek e <> j) -> wf_history (List.filter (fun e => negb (ek e =? k_timeout)) (inputs l)) ->
  s_seq (fst (run cs l init_state)) = [] ->
  List.filter (has_key k) (snd (run cs l init_state)) = List.filter (has_key k) (inputs l).

(** With `A{500ms} >> X` and `B C >> Y`: B is pressed after the timeout has elapsed and
    while A is still held.  Releasing A marks the press of B as handled. *)
Definition lost_cfg : list context := load (lines ["A{500ms} >> X"; "B C >> Y"])%string.
Definition lost_calls : list call :=
  CContexts [0%nat] :: map (fun e => CInput e 0)
    [ev0 30 Down; Ev k_timeout Up 500; ev0 48 Down; ev0 30 Up; ev0 48 Up; ev0 32 Down; ev0 32 Up].

Example C73_lost : fmt (snd (run lost_cfg lost_calls init_state)) = "-500ms +X +X -X +D -D"%string.
Proof. vm_compute. reflexivity. Qed.

Fixpoint needsb (j : key) (l : sequence) : bool :=
  match l with
  | [] => false
  | x :: r => ((ek x =? j) && kstate_eqb (es x) Down) || (negb ((ek x =? j) && kstate_eqb (es x) UpAsync) && needsb j r)
  end.
Lemma needs_dec : forall j l, needsb j l = true -> needs j l.
Proof.
  intros j. induction l as [|x l IH]; intros H; [discriminate|]. cbn [needsb] in H. apply orb_prop in H.
  destruct H as [H|H]; apply andb_prop in H; destruct H as [H1 H2].
  - exists [], x, l. split; [reflexivity|]. split; [apply N.eqb_eq; exact H1|].
    split; [apply MatchProofs.kstate_eqb_eq; exact H2|]. intros e [].
  - destruct (IH H2) as [a [y [b [E1 [E2 [E3 E4]]]]]]. exists (x :: a), y, b. split; [cbn; congruence|].
    split; [exact E2|]. split; [exact E3|]. intros e [<-|He] Ee; [|auto]. intros E5. rewrite Ee, E5, N.eqb_refl in H1.
    discriminate.
Qed.
Definition incompleteb (k j : key) (cs : list context) : bool :=
  forallb (fun c =>
    forallb (fun i => forallb (fun e => negb (ek e =? k_any)) (in_seq i)
                      && (forallb (fun e => negb (ek e =? k)) (in_seq i) || needsb j (in_seq i))) (cx_inputs c)
    && forallb (forallb (fun e => negb (ek e =? k) && negb (ek e =? k_any))) (context_outputs c)) cs.
Lemma incomplete_dec : forall k j cs, incompleteb k j cs = true -> incomplete k j cs.
Proof.
  intros k j cs H c Hc. unfold incompleteb in H. rewrite forallb_forall in H. specialize (H c Hc).
  apply andb_prop in H. destruct H as [H1 H2]. rewrite forallb_forall in H1, H2. split.
  - intros i e Hi He. specialize (H1 i Hi). apply andb_prop in H1. destruct H1 as [H0 H1].
    rewrite forallb_forall in H0. specialize (H0 e He). apply negb_true_iff, N.eqb_neq in H0. split; [exact H0|].
    intros Ek. apply orb_prop in H1. destruct H1 as [H1|H1]; [|apply needs_dec; exact H1].
    exfalso. rewrite forallb_forall in H1. specialize (H1 e He). apply negb_true_iff, N.eqb_neq in H1. contradiction.
  - intros o e Ho He. specialize (H2 o Ho). rewrite forallb_forall in H2. specialize (H2 e He).
    apply andb_prop in H2. destruct H2 as [A B]. apply negb_true_iff in A, B. apply N.eqb_neq in A, B. tauto.
Qed.

Theorem C73_timeout_refuted : exists t, load t <> [] /\ ~ not_lost (load t).
Proof.
  exists (lines ["A{500ms} >> X"; "B C >> Y"])%string. split; [vm_compute; discriminate|]. intros H.
  assert (H1 := H 48 46 lost_calls). clear H.
  assert (H2 : List.filter (has_key 48) (snd (run lost_cfg lost_calls init_state)) =
               List.filter (has_key 48) (inputs lost_calls)).
  { apply H1.
    - apply device_button_dec. vm_compute. reflexivity.
    - apply device_button_dec. vm_compute. reflexivity.
    - apply incomplete_dec. vm_compute. reflexivity.
    - apply wf_call_dec. vm_compute. reflexivity.
    - repeat constructor.
    - cbn. intros e He. repeat (destruct He as [<-|He]; [discriminate|]). contradiction.
    - apply wf_history_dec; [reflexivity|]. cbn [map ek ev0 List.filter lost_calls inputs flat_map app]. vm_compute.
      intros k Hk. repeat (destruct Hk as [<-|Hk]); try contradiction; vm_compute; auto 10.
    - vm_compute. reflexivity. }
  vm_compute in H2. discriminate.
Qed.
Print Assumptions C73_timeout_refuted.

(** Pressing a virtual key has the same effect: everything which is held back counts as
    handled, if the virtual key completes no mapping. *)
Definition virtual_calls : list call :=
  CContexts [0%nat] :: map (fun e => CInput e 0)
    [ev0 48 Down; ev0 first_virtual Down; ev0 48 Up; ev0 32 Down; ev0 32 Up; ev0 first_virtual Up].
Definition virtual_cfg : list context := load (lines ["B C >> Y"])%string.

Example C73_virtual_lost : fmt (snd (run virtual_cfg virtual_calls init_state)) = "+D -D"%string.
Proof. vm_compute. reflexivity. Qed.

Theorem C73_virtual_refuted : exists t, load t <> [] /\ ~ not_lost (load t).
Proof.
  exists (lines ["B C >> Y"])%string. split; [vm_compute; discriminate|]. intros H.
  assert (H1 := H 48 46 virtual_calls). clear H.
  assert (H2 : List.filter (has_key 48) (snd (run virtual_cfg virtual_calls init_state)) =
               List.filter (has_key 48) (inputs virtual_calls)).
  { apply H1.
    - apply device_button_dec. vm_compute. reflexivity.
    - apply device_button_dec. vm_compute. reflexivity.
    - apply incomplete_dec. vm_compute. reflexivity.
    - apply wf_call_dec. vm_compute. reflexivity.
    - repeat constructor.
    - cbn. intros e He. repeat (destruct He as [<-|He]; [discriminate|]). contradiction.
    - apply wf_history_dec; [reflexivity|]. cbn [map ek ev0 List.filter lost_calls inputs flat_map app]. vm_compute.
      intros k Hk. repeat (destruct Hk as [<-|Hk]); try contradiction; vm_compute; auto 10.
    - vm_compute. reflexivity. }
  vm_compute in H2. discriminate.
Qed.
Print Assumptions C73_virtual_refuted.

(** ** What holds *)

Lemma held_back : forall cs k j l,
  no_history_input cs -> no_output_on_release cs -> device_button k -> device_button j -> incomplete k j cs ->
  Forall (wf_call cs) l -> Forall (fun c => is_validate c = false) l ->
  Forall (fun e => device_event e /\ ek e <> j) (inputs l) -> strokes false (track k (inputs l)) ->
  exists D b p, held k j D b p (fst (run cs l init_state)) /\
    List.filter (has_key k) (snd (run cs l init_state)) ++ p = List.filter (has_key k) (inputs l).
Proof.
  intros cs k j l Hh Ho Hk Hj Hinc Hl Hv Hp Hs.
  assert (Hp' : Forall (plain_event j) (inputs l)).
  { pose proof (inputs_states cs l Hl) as Hw. apply Forall_forall. intros e He.
    destruct (proj1 (Forall_forall _ _) Hp e He) as [[H1 [H2 H3]] H4].
    split; [exact (proj1 (Forall_forall _ _) Hw e He)|auto]. }
  refine (held_run k Hk j _ cs _ _ l false false [] init_state Hv Hp' (held_init k j) eq_refl eq_refl Hs).
  - unfold device_button in Hj. tauto.
  - intros c i Hc Hi. destruct (Hinc c Hc) as [H _]. split.
    { apply Forall_forall. intros e He. split; [exact (proj1 (H i e Hi He))|eapply Hh; eauto]. }
    destruct (existsb (fun e => ek e =? k) (in_seq i)) eqn:E.
    + right. apply existsb_exists in E. destruct E as [e [He E]]. apply N.eqb_eq in E.
      destruct (proj2 (H i e Hi He) E) as [a [x [b [X1 [X2 [X3 X4]]]]]]. exists a, x, b.
      split; [exact X1|]. split; [apply Forall_forall; exact X4|auto].
    + left. apply Forall_forall. intros e He. split; [|split; [exact (proj1 (H i e Hi He))|eapply Hh; eauto]].
      intros Ek. assert (X : existsb (fun e => ek e =? k) (in_seq i) = true).
      { apply existsb_exists. exists e. split; [exact He|]. apply N.eqb_eq. exact Ek. }
      congruence.
  - intros c o Hc Hi. apply Forall_forall. intros e He. destruct (Hinc c Hc) as [_ H].
    destruct (H o e Hi He) as [H1 H2]. split; [exact H1|]. split; [exact H2|]. eapply Ho; eauto.
Qed.

Lemma nothing_waits : forall k b l, Forall (fun x => ek x = k -> es x = DownMatched) l -> wait k b l = [].
Proof.
  intros k b l H. assert (E : q k l = []).
  { induction H as [|x l Hx H IH]; [reflexivity|]. rewrite q_cons; [exact IH|]. unfold waits.
    destruct (N.eqb_spec (ek x) k) as [E|E]; [|reflexivity]. rewrite (Hx E). reflexivity. }
  unfold wait. rewrite E. destruct b; reflexivity.
Qed.

(** Missing from the full claim: timeouts and virtual keys (false for them, see above),
    configurations which use ^ in outputs, ? in inputs or Any.

    What is output of the key is always the beginning of what was pressed and released;
    all of it is output once nothing of the key is held back. *)
Theorem C73_held_back_partial : forall cs k j l,
  no_history_input cs -> no_output_on_release cs -> device_button k -> device_button j -> incomplete k j cs ->
  Forall (wf_call cs) l -> Forall (fun c => is_validate c = false) l ->
  Forall (fun e => device_event e /\ ek e <> j) (inputs l) -> strokes false (track k (inputs l)) ->
  exists p, List.filter (has_key k) (inputs l) = List.filter (has_key k) (snd (run cs l init_state)) ++ p /\
    (Forall (fun x => ek x = k -> es x = DownMatched) (s_seq (fst (run cs l init_state))) -> p = []).
Proof.
  intros cs k j l Hh Ho Hk Hj Hinc Hl Hv Hp Hs.
  destruct (held_back cs k j l Hh Ho Hk Hj Hinc Hl Hv Hp Hs) as [D [b [p [R1 R2]]]].
  exists p. split; [symmetry; exact R2|]. intros Hd. rewrite <- (he_wait _ _ _ _ _ _ R1). apply nothing_waits. exact Hd.
Qed.
Print Assumptions C73_held_back_partial.

(** Pressing a key which no mapping mentions ends the holding back. *)
Theorem C73_released_partial : forall cs k j m l dev,
  no_history_input cs -> no_output_on_release cs -> device_button k -> device_button j -> incomplete k j cs ->
  device_button m -> unmentioned m cs -> is_down_after (inputs l) m = false ->
  let l' := l ++ [CInput (ev0 m Down) dev] in
  Forall (wf_call cs) l' -> Forall (fun c => is_validate c = false) l' ->
  Forall (fun e => device_event e /\ ek e <> j) (inputs l') -> strokes false (track k (inputs l')) ->
  List.filter (has_key k) (snd (run cs l' init_state)) = List.filter (has_key k) (inputs l').
Proof.
  intros cs k j m l dev Hh Ho Hk Hj Hinc Hm Hu Hd l' Hl Hv Hp Hs.
  destruct (C73_held_back_partial cs k j l' Hh Ho Hk Hj Hinc Hl Hv Hp Hs) as [p [P1 P2]].
  rewrite P1, P2; [rewrite app_nil_r; reflexivity|]. clear P1 P2 p.
  unfold l' in *. rewrite run_snoc. cbn [fst do_call].
  assert (Hin : forall c i, In c cs -> In i (cx_inputs c) -> input_k m (in_seq i)).
  { intros c i Hc Hi. left. apply Forall_forall. intros e He. destruct (Hu c Hc) as [H1 _].
    destruct (H1 i e Hi He) as [H2 H3]. split; [exact H2|]. split; [exact H3|]. eapply Hh; eauto. }
  assert (Hout : forall c o, In c cs -> In o (context_outputs c) -> Forall (outer m) o).
  { intros c o Hc Hi. apply Forall_forall. intros e He. destruct (Hu c Hc) as [_ H1].
    destruct (H1 o e Hi He) as [H2 H3]. split; [exact H2|]. split; [exact H3|]. eapply Ho; eauto. }
  apply Forall_app in Hl. destruct Hl as [Hl _]. apply Forall_app in Hv. destruct Hv as [Hv _].
  destruct (run_krest m Hm notkind not_kind cs Hin Hout timing_not l false init_state Hl Hv (init_k m _ _) eq_refl) as [R _].
  assert (E : fold_left (knext m) (inputs l) false = is_down_after (inputs l) m).
  { clear. change (is_down_after (inputs l) m) with (after false (inputs l) m). generalize false.
    induction (inputs l) as [|e r IH]; intros D; [reflexivity|]. cbn [fold_left]. rewrite IH.
    change (e :: r) with ([e] ++ r). rewrite after_app.
    assert (X : after D [e] m = knext m D e) by (unfold knext, after; cbn; unfold has_key; destruct (ek e =? m); reflexivity).
    rewrite X. reflexivity. }
  rewrite E, Hd in R.
  pose proof (flush_update m Hm cs Hin Hout dev _ R) as F. eapply Forall_impl; [|exact F]. intros x Hx _. exact Hx.
Qed.
Print Assumptions C73_released_partial.

(** ** A case: A B is pressed, but C is not; meanwhile other mappings match. *)

Definition held_cfg : list context :=
  load (lines ["A B C >> X"; "(A C) >> Y"; "B D >> Z"; "D >> V"; "E{500ms} >> W"; "[modifier=""B""]"; "A C >> Q"])%string.
Definition held_calls : list call :=
  CContexts [0%nat; 1%nat] :: map (fun e => CInput e 0)
    [ev0 30 Down; ev0 48 Down; ev0 30 Up; ev0 32 Down; ev0 30 Down; ev0 32 Up; ev0 18 Down; ev0 48 Up;
     ev0 30 Up; ev0 30 Down; ev0 48 Down; ev0 30 Up].

Example C73_case :
  device_button 30 /\ device_button 46 /\ incomplete 30 46 held_cfg /\ no_history_input held_cfg /\
  no_output_on_release held_cfg /\ device_button 37 /\ unmentioned 37 held_cfg /\
  is_down_after (inputs held_calls) 37 = false /\
  Forall (wf_call held_cfg) (held_calls ++ [CInput (ev0 37 Down) 0]) /\
  Forall (fun c => is_validate c = false) (held_calls ++ [CInput (ev0 37 Down) 0]) /\
  Forall (fun e => device_event e /\ ek e <> 46) (inputs (held_calls ++ [CInput (ev0 37 Down) 0])) /\
  strokes false (track 30 (inputs (held_calls ++ [CInput (ev0 37 Down) 0]))) /\
  length (List.filter (has_key 30) (inputs held_calls)) = 6%nat /\
  s_seq (fst (run held_cfg held_calls init_state)) <> [].
Proof.
  split; [apply device_button_dec; vm_compute; reflexivity|].
  split; [apply device_button_dec; vm_compute; reflexivity|].
  split; [apply incomplete_dec; vm_compute; reflexivity|].
  split; [apply no_history_input_dec; vm_compute; reflexivity|].
  split; [apply no_output_on_release_dec; vm_compute; reflexivity|].
  split; [apply device_button_dec; vm_compute; reflexivity|].
  split; [apply unmentioned_dec; vm_compute; reflexivity|].
  split; [vm_compute; reflexivity|].
  split; [apply wf_call_dec; vm_compute; reflexivity|].
  split; [repeat constructor|].
  split; [vm_compute; repeat constructor; discriminate|].
  split; [vm_compute; auto 20|]. split; [vm_compute; reflexivity|]. vm_compute. discriminate.
Qed.
Example C73_case_before : fmt (snd (run held_cfg held_calls init_state)) =
  "+A +B -A +Z +A -Z -500ms +E -B -A"%string.
Proof. vm_compute. reflexivity. Qed.
Example C73_case_after : fmt (snd (run held_cfg (held_calls ++ [CInput (ev0 37 Down) 0]) init_state)) =
  "+A +B -A +Z +A -Z -500ms +E -B -A +A +B -A +K"%string.
Proof. vm_compute. reflexivity. Qed.
