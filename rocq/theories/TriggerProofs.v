(** Proofs about events which complete a mapping (C113). *)
From Coq Require Import List Arith NArith ZArith Bool Lia.
From Verif Require Import Base Key Match MatchLang Stage StageSpec StageOut StagePass StageRoute StageUntouched TriggerSpec.
Import ListNotations.
Local Open Scope N_scope.

Section Trigger.
Variable cs : list context.
Hypothesis Hsteady : steady cs.

Inductive shape (cl act : list nat) (sq : sequence) (might : bool) (d : list out_down) (buf : sequence) : state -> Prop :=
| Shape : forall x p r any ub oof, shape cl act sq might d buf (St cl act x sq might p r [] [] d None buf false any ub oof).

Lemma shape_any cl act q b d buf s x a : shape cl act q b d buf s -> shape cl act q b d buf (ub_unless x (set_any a s)).
Proof. intros []. unfold ub_unless. destruct x; constructor. Qed.

(** * Matching *)
Lemma nth_nmm ci c : nth_error cs ci = Some c -> Forall (fun i => is_nmm_mapping (in_seq i) = false) (cx_inputs c).
Proof. intro H. destruct Hsteady as [_ F]. rewrite Forall_forall in F. apply F. exact (nth_error_In _ _ H). Qed.

Definition verdict (sq : sequence) (ci : nat) (i : input) (c : context) (act : list nat) (x : option min_result) : Prop :=
  (exists anys, match_keys (in_seq i) sq = Some (MightMatch, anys, None) /\ x = Some (RMight (in_seq i) ci)) \/
  (exists anys t r o, match_keys (in_seq i) sq = Some (Matched, anys, t) /\
     find_output cs act ci c (in_out i) = LFound r o /\ x = Some (RMatch r o (in_seq i) ci)).

Lemma inputs_decided cl act sq q b d buf dev u ci c x res : forall l s, shape cl act q b d buf s ->
  Forall (fun i => is_nmm_mapping (in_seq i) = false) l ->
  match find (fun x => negb (rejects sq x)) (map (fun i => (ci, c, i)) l) with
  | Some y => y = (ci, c, x) /\ verdict sq ci x c act res
  | None => res = None
  end ->
  exists s', match_inputs cs true sq dev u ci c l s = (s', res) /\ shape cl act q b d buf s'.
Proof.
  induction l as [|i l IH]; intros s SH NM H; cbn [map find match_inputs] in *.
  - subst res. exists s. auto.
  - pose proof (Forall_inv NM) as N1. apply Forall_inv_tail in NM. rewrite N1. cbn [andb].
    unfold rejects at 1 in H. cbn [snd] in H.
    destruct (match_keys (in_seq i) sq) as [[[r anys] t]|] eqn:M; cbn [negb] in H.
    + destruct r; cbn [negb andb] in *.
      * apply (IH _ (shape_any _ _ _ _ _ _ _ _ _ SH) NM H).
      * destruct H as [E V]. injection E as <-.
        destruct V as [(a & Q & ->)|(a & t' & r & o & Q & F & ->)]; rewrite M in Q; [|discriminate Q].
        injection Q as -> ->. cbn [on_might_match]. eexists. split; [reflexivity|]. apply shape_any. exact SH.
      * destruct H as [E V]. injection E as <-.
        destruct V as [(a & Q & _)|(a & t' & r & o & Q & F & ->)]; rewrite M in Q; [discriminate Q|].
        replace (s_active (ub_unless _ (set_any anys s))) with act
          by (destruct SH; unfold ub_unless; destruct (in_seq i); reflexivity).
        rewrite F. eexists. split; [reflexivity|]. apply shape_any. exact SH.
    + destruct H as [E V]. injection E as <-. destruct V as [(a & Q & _)|(a & t' & r & o & Q & _)]; rewrite M in Q; discriminate Q.
Qed.

Lemma find_app {A} (f : A -> bool) a b : find f (a ++ b) = match find f a with Some x => Some x | None => find f b end.
Proof. induction a as [|x a IH]; [reflexivity|]. cbn [app find]. destruct (f x); [reflexivity|exact IH]. Qed.

Lemma contexts_decided cl act sq q b d buf dev u ci c x res : forall a s, shape cl act q b d buf s ->
  Forall (fun i => (i < length cs)%nat) a ->
  find (fun x => negb (rejects sq x)) (candidates cs a dev) = Some (ci, c, x) -> verdict sq ci x c act (Some res) ->
  exists s', match_contexts cs true sq dev u a s = (s', res) /\ shape cl act q b d buf s'.
Proof.
  induction a as [|j a IH]; intros s SH BO H V; [discriminate H|]. cbn [candidates flat_map match_contexts] in *.
  pose proof (Forall_inv BO) as B1. cbn beta in B1. apply Forall_inv_tail in BO.
  destruct (nth_error cs j) as [cj|] eqn:NJ; [|apply nth_error_None in NJ; lia].
  destruct (device_matches_filter cj dev).
  - rewrite find_app in H. destruct (find _ (map _ _)) as [y|] eqn:FM.
    + injection H as ->.
      assert (J : ci = j /\ c = cj).
      { apply find_some in FM. destruct FM as [FM _]. apply in_map_iff in FM. destruct FM as (i & Q & _). injection Q. auto. }
      destruct J as [-> ->].
      destruct (inputs_decided cl act sq q b d buf dev u j cj x (Some res) (cx_inputs cj) s SH (nth_nmm _ _ NJ)) as (s' & Q & SH').
      { rewrite FM. auto. }
      exists s'. rewrite Q. auto.
    + destruct (inputs_decided cl act sq q b d buf dev u j cj x None (cx_inputs cj) s SH (nth_nmm _ _ NJ)) as (s' & Q & SH').
      { rewrite FM. reflexivity. }
      rewrite Q. apply IH; assumption.
  - apply IH; assumption.
Qed.

Lemma input_decided cl act sq q b d buf dev u ci c x res s : shape cl act q b d buf s ->
  Forall (fun i => (i < length cs)%nat) act -> decider cs act dev sq = Some (ci, c, x) -> verdict sq ci x c act (Some res) ->
  exists s', match_input cs true sq dev u s = (s', res) /\ shape cl act q b d buf s'.
Proof.
  intros SH BO D V. unfold match_input.
  assert (A : s_active s = act) by (destruct SH; reflexivity). rewrite A.
  eapply contexts_decided; eauto. destruct SH. unfold ub_unless. destruct (valid_device dev); constructor.
Qed.

(** * Contexts stay as they are *)
Lemma active_same cl act sq b d buf s : eval_active cs [] cl [] = Some act -> shape cl act sq b d buf s ->
  update_active_contexts cs s = s.
Proof.
  intros A [x p r any ub oof]. unfold update_active_contexts. cbn [s_seq s_client s_active].
  rewrite (eval_active_ext cs [] sq cl []).
  - rewrite A. cbn zeta. rewrite !toggled_same. reflexivity.
  - intros c Hc. destruct Hsteady as [F _]. rewrite Forall_forall in F. rewrite (F c Hc). reflexivity.
Qed.
Lemma no_history : has_nmm_mapping cs = false.
Proof.
  destruct Hsteady as [_ F]. unfold has_nmm_mapping. apply not_true_is_false. intro H. apply existsb_exists in H.
  destruct H as (c & Hc & H). apply existsb_exists in H. destruct H as (i & Hi & H).
  rewrite Forall_forall in F. specialize (F c Hc). rewrite Forall_forall in F. rewrite (F i Hi) in H. discriminate H.
Qed.

(** * Keys are pressed by turns *)
Lemma last_default {A} (l : list A) a b : l <> [] -> last l a = last l b.
Proof. induction l as [|x l IH]; intro H; [contradiction|]. destruct l as [|y l]; [reflexivity|]. apply IH. discriminate. Qed.
Lemma strokes_last l : forall d s, strokes d (l ++ [s]) -> s = Up \/ s = Down /\ last l (if d then Down else Up) = Up.
Proof.
  induction l as [|x l IH]; intros d s H; cbn [app strokes] in *.
  - destruct s; try contradiction; destruct H as [-> _]; auto.
  - assert (Q : s = Up \/ s = Down /\ last l x = Up).
    { destruct x; try contradiction; destruct H as [_ H]; apply IH in H; exact H. }
    destruct Q as [Q|[Q L]]; [left; exact Q|right]. split; [exact Q|]. destruct l as [|y l]; [exact L|].
    transitivity (last (y :: l) x); [|exact L]. change (last (y :: l) (if d then Down else Up) = last (y :: l) x).
    apply last_default. discriminate.
Qed.
Lemma track_app k a b : track k (a ++ b) = track k a ++ track k b.
Proof. unfold track. rewrite filter_app, map_app. reflexivity. Qed.
Lemma strokes_prefix a b : forall d, strokes d (a ++ b) -> strokes d a.
Proof.
  induction a as [|s a IH]; intros d H; [exact Logic.I|]. cbn [app strokes] in *.
  destruct s; try contradiction; destruct H as [H1 H2]; split; auto.
Qed.
Lemma alternates_prefix a b : alternates (a ++ b) -> alternates a.
Proof. intros H k. specialize (H k). rewrite track_app in H. exact (strokes_prefix _ _ _ H). Qed.
Lemma next_state sq e : alternates (sq ++ [e]) ->
  es e = Up /\ sq <> [] \/
  es e = Down /\ match rfind_key sq (ek e) with
                 | Some i => match nth_error sq i with Some x => negb (kstate_eqb (es x) Up) | None => false end
                 | None => false
                 end = false.
Proof.
  intro H. specialize (H (ek e)). rewrite track_app in H.
  assert (T : track (ek e) [e] = [es e]) by (unfold track, has_key; cbn [filter]; rewrite N.eqb_refl; reflexivity).
  rewrite T in H. destruct (strokes_last _ _ _ H) as [Q|[Q L]].
  - left. split; [exact Q|]. intros ->. rewrite Q in H. destruct H as [H _]. discriminate H.
  - right. split; [exact Q|]. pose proof (StageSafe.rfind_key_track (ek e) sq) as R.
    destruct (rfind_key sq (ek e)) as [i|]; [|reflexivity]. destruct R as (x & -> & _ & E & NE).
    rewrite E. change (last (track (ek e) sq) Up = Up) in L. rewrite L. reflexivity.
Qed.

Definition updown (l : sequence) : Prop := Forall (fun e => es e = Up \/ es e = Down) l.
Lemma alternates_updown l : alternates l -> updown l.
Proof.
  induction l as [|e l IH] using rev_ind; intro H; [constructor|]. apply Forall_app. split.
  - apply IH. exact (alternates_prefix _ _ H).
  - constructor; [|constructor]. destruct (next_state _ _ H) as [[Q _]|[Q _]]; auto.
Qed.
Lemma updown_needed l : updown l -> l <> [] -> has_non_optional l = true.
Proof. intros [|e r [H|H] _] NE; [contradiction| |]; unfold has_non_optional; cbn [existsb]; unfold is_non_optional; rewrite H; reflexivity. Qed.
Lemma updown_drop l : updown l -> drop_up_matched l = l.
Proof. intros [|e r [H|H] _]; cbn [drop_up_matched]; rewrite ?H; reflexivity. Qed.
Lemma updown_weight l : updown l -> l <> [] -> exists n, weight l = S n.
Proof.
  intros [|e r [H|H] _] NE; [contradiction| |]; unfold weight; cbn [fold_right]; unfold is_non_optional at 1; rewrite H;
    eexists; reflexivity.
Qed.
Lemma finished l : updown l -> Forall (fun e => ek e <> k_timeout) l -> has_non_optional (finish_loop (length l) l) = false.
Proof.
  intros U T. induction l as [|e l IH]; [reflexivity|]. specialize (IH (Forall_inv_tail U) (Forall_inv_tail T)).
  cbn [length finish_loop]. destruct (Forall_inv U) as [H|H]; rewrite H.
  - pose proof (Forall_inv T) as Q. cbn beta in Q. apply N.eqb_neq in Q. rewrite Q. exact IH.
  - destruct (contains_ev (e :: l) (ev0 (ek e) Up)); [exact IH|]. exact IH.
Qed.

(** * Up to the matching *)
Lemma before_loop cl act sq b e dev s : eval_active cs [] cl [] = Some act -> shape cl act sq b [] [] s ->
  b = match sq with [] => false | _ => true end -> alternates (sq ++ [e]) ->
  exists s0, shape cl act (sq ++ [e]) b [] [] s0 /\
    apply_input cs e dev s = finish_input cs e (apply_loop cs (weight (sq ++ [e])) e dev s0).
Proof.
  intros A SH B AL. unfold apply_input. destruct SH as [x p r any ub oof].
  unfold continue_output_on_release. cbn [s_onrel find_index negb]. unfold suppress_not_timeout. cbn [s_timeout negb].
  assert (M : exists p' r', merge_repeat e dev (St cl act x sq b p r [] [] [] None [] false any ub oof) =
              (St cl act x sq b p' r' [] [] [] None [] false any ub oof, true)).
  { unfold merge_repeat. cbn [s_seq s_rdev]. destruct (next_state _ _ AL) as [[Q _]|[Q R]]; rewrite Q.
    - destruct (dev =? r)%Z; eexists; eexists; reflexivity.
    - destruct (rfind_key sq (ek e)) as [i|].
      + rewrite R. destruct (dev =? no_device)%Z; [eexists; eexists; reflexivity|].
        destruct (dev =? r)%Z; eexists; eexists; reflexivity.
      + destruct (dev =? no_device)%Z; [eexists; eexists; reflexivity|].
        destruct (dev =? r)%Z; eexists; eexists; reflexivity. }
  destruct M as (p' & r' & ->). cbn [negb]. unfold process_input. cbn [s_seq].
  change (set_seq (sq ++ [e]) (St cl act x sq b p' r' [] [] [] None [] false any ub oof))
    with (St cl act x (sq ++ [e]) b p' r' [] [] [] None [] false any ub oof).
  unfold add_to_history. rewrite no_history. cbn [andb].
  rewrite (active_same cl act (sq ++ [e]) b [] []) by (exact A || constructor).
  assert (P : prepare_up e (St cl act x (sq ++ [e]) b p' r' [] [] [] None [] false any ub oof) =
              St cl act x (sq ++ [e]) b p' r' [] [] [] None [] false any ub oof).
  { unfold prepare_up. destruct (next_state _ _ AL) as [[Q NE]|[Q _]]; rewrite Q; cbn [kstate_eqb]; [|reflexivity].
    cbn [s_timeout s_might]. subst b. destruct sq; [contradiction|reflexivity]. }
  rewrite P. unfold unsuppress. cbn [s_down map]. eexists. split; [|reflexivity]. constructor.
Qed.
Lemma after_loop cl act sq b d buf e s : eval_active cs [] cl [] = Some act -> shape cl act sq b d buf s ->
  d = [] \/ es e = Down -> shape cl act (drop_up_matched sq) b d buf (finish_input cs e s).
Proof.
  intros A SH D. unfold finish_input.
  assert (R : (if kstate_eqb (es e) Up then release_triggered (ek e) None s else s) = s).
  { destruct D as [-> | ->]; [|reflexivity]. destruct (kstate_eqb (es e) Up); [|reflexivity].
    destruct SH. unfold release_triggered. cbn. rewrite app_nil_r. reflexivity. }
  rewrite R. rewrite (active_same cl act sq b d buf s A SH). destruct SH as [x p r any ub oof].
  cbn [set_seq s_seq]. destruct (drop_up_matched sq); constructor.
Qed.

(** * An event which leaves the mapping waiting *)
Lemma held_step cl act sq b e dev s : eval_active cs [] cl [] = Some act -> Forall (fun i => (i < length cs)%nat) act ->
  shape cl act sq b [] [] s -> b = match sq with [] => false | _ => true end ->
  typing_keys (sq ++ [e]) -> waits cs act dev (sq ++ [e]) ->
  shape cl act (sq ++ [e]) true [] [] (fst (update cs e dev s)) /\ snd (update cs e dev s) = [].
Proof.
  intros A BO SH B [AL KE] (y & anys & D & M).
  assert (SH1 : shape cl act sq b [] [] (set_exit (advance_exit e (s_exit s)) s)) by (destruct SH; constructor).
  assert (G : shape cl act (sq ++ [e]) true [] [] (apply_input cs e dev (set_exit (advance_exit e (s_exit s)) s))).
  { destruct (before_loop cl act sq b e dev _ A SH1 B AL) as (s0 & S0 & ->).
    pose proof (alternates_updown _ AL) as UD.
    assert (NE : sq ++ [e] <> []) by (destruct sq; discriminate).
    destruct (updown_weight _ UD NE) as [n ->].
    assert (L : shape cl act (sq ++ [e]) true [] [] (apply_loop cs (S n) e dev s0)).
    { cbn [apply_loop]. replace (s_seq s0) with (sq ++ [e]) by (destruct S0; reflexivity).
      rewrite (updown_needed _ UD NE). unfold apply_round. replace (s_seq s0) with (sq ++ [e]) by (destruct S0; reflexivity).
      destruct y as [[ci c] i]. cbn [snd] in M.
      destruct (input_decided cl act (sq ++ [e]) (sq ++ [e]) b [] [] dev (kstate_eqb (es e) Up && negb (ek e =? k_timeout)) ci c i
                  (RMight (in_seq i) ci) s0 S0 BO D) as (s1 & -> & S1).
      { left. exists anys. auto. }
      apply Forall_app in KE. destruct KE as [_ KE]. apply Forall_inv in KE. destruct KE as [_ KV]. rewrite KV.
      cbn [andb negb]. destruct S1. constructor. }
    pose proof (after_loop cl act _ true [] [] e _ A L (or_introl eq_refl)) as F.
    rewrite (updown_drop _ UD) in F. exact F. }
  unfold update. cbv zeta. destruct G. split; [constructor|reflexivity].
Qed.
Lemma held_back cl act dev post : forall sq b s, eval_active cs [] cl [] = Some act -> Forall (fun i => (i < length cs)%nat) act ->
  shape cl act sq b [] [] s -> b = match sq with [] => false | _ => true end -> typing_keys (sq ++ post) ->
  (forall p q, post = p ++ q -> p <> [] -> waits cs act dev (sq ++ p)) ->
  exists b', shape cl act (sq ++ post) b' [] [] (fst (run cs (fed dev post) s)) /\ snd (run cs (fed dev post) s) = [] /\
    b' = match sq ++ post with [] => false | _ => true end.
Proof.
  induction post as [|e post IH]; intros sq b s A BO SH B TK W.
  - exists b. rewrite app_nil_r. auto.
  - assert (TK1 : typing_keys (sq ++ [e])).
    { destruct TK as [T1 T2]. replace (sq ++ e :: post) with ((sq ++ [e]) ++ post) in T1, T2 by (rewrite <- app_assoc; reflexivity).
      split; [exact (alternates_prefix _ _ T1)|]. apply Forall_app in T2. apply T2. }
    destruct (held_step cl act sq b e dev s A BO SH B TK1 (W [e] post eq_refl ltac:(discriminate))) as [S1 O1].
    cbn [fed map run do_call]. destruct (update cs e dev s) as [s1 o1]. cbn [fst snd] in S1, O1. subst o1.
    destruct (IH (sq ++ [e]) true s1 A BO S1) as (b' & S2 & O2 & B2).
    + destruct sq; reflexivity.
    + rewrite <- app_assoc. exact TK.
    + intros p q -> NE. rewrite <- app_assoc. apply (W (e :: p) q eq_refl). discriminate.
    + exists b'. fold (fed dev post). destruct (run cs (fed dev post) s1) as [s2 o2]. cbn [fst snd] in *.
      rewrite <- app_assoc in S2, B2. auto.
Qed.

(** * Putting out *)
Lemma NoDup_snoc' {A} (l : list A) x : NoDup l -> ~ In x l -> NoDup (l ++ [x]).
Proof. intros N H. apply NoDup_rev in N. rewrite <- (rev_involutive (l ++ [x])). apply NoDup_rev. rewrite rev_app_distr. cbn [rev app]. constructor; [|exact N]. rewrite <- in_rev. exact H. Qed.
Definition turn (down : bool) (e : event) : Prop := es e = if down then Up else Down.
Definition own (t : trigger) (ci : option nat) (d : list out_down) : Prop :=
  Forall (fun o => o = OD (od_key o) t false false false ci) d /\ NoDup (map od_key d).
Definition pressed (d : list out_down) (k : key) : bool := existsb (fun o => od_key o =? k) d.
Lemma pressed_in d k : pressed d k = true <-> In k (map od_key d).
Proof.
  unfold pressed. rewrite existsb_exists, in_map_iff. split; intros (o & X & Y).
  - apply N.eqb_eq in Y. eauto.
  - exists o. split; [exact Y|]. apply N.eqb_eq. exact X.
Qed.
Lemma put_event cl act sq b d buf s e t ci : shape cl act sq b d buf s -> own t ci d -> ek e <> k_timeout ->
  turn (pressed d (ek e)) e ->
  exists d', shape cl act sq b d' (buf ++ [e]) (update_output e t ci s) /\ own t ci d' /\
    forall k, pressed d' k = if k =? ek e then kstate_eqb (es e) Down else pressed d k.
Proof.
  intros SH [O N] NT TU. unfold turn in TU. destruct (pressed d (ek e)) eqn:P.
  - unfold update_output. replace (s_down s) with d by (destruct SH; reflexivity). rewrite TU.
    destruct (find_index (fun o => od_key o =? ek e) d) as [i|] eqn:F.
    + destruct (find_index_split _ _ _ _ F) as (a & o & c & E & Q & FA & NT' & RM & _).
      rewrite NT'. apply N.eqb_eq in Q. pose proof O as O'. rewrite E in O'. apply Forall_app in O'. destruct O' as [Oa Oc].
      pose proof (Forall_inv Oc) as Oo. cbn beta in Oo. apply Forall_inv_tail in Oc.
      assert (OT : od_twice o = false) by (rewrite Oo; reflexivity). rewrite OT. cbn [andb].
      assert (TG : od_trigger o = t) by (rewrite Oo; reflexivity). rewrite TG, N.eqb_refl. rewrite RM.
      exists (a ++ c). split; [destruct SH; constructor|].
      rewrite E, map_app in N. cbn [map] in N. apply NoDup_remove in N. destruct N as [N1 N2]. rewrite <- map_app in N1, N2.
      split; [split; [apply Forall_app; auto|exact N1]|].
      intro k. destruct (N.eqb_spec k (ek e)) as [-> |NK].
      * cbn [kstate_eqb]. apply not_true_is_false. intro X. apply pressed_in in X. rewrite Q in N2. contradiction.
      * rewrite E. unfold pressed. rewrite !existsb_app. cbn [existsb]. rewrite Q.
        destruct (N.eqb_spec (ek e) k); [congruence|reflexivity].
    + exfalso. apply find_index_none in F. apply existsb_exists in P. destruct P as (o & X & Y).
      rewrite Forall_forall in F. rewrite (F o X) in Y. discriminate Y.
  - unfold update_output. replace (s_down s) with d by (destruct SH; reflexivity). rewrite TU.
    rewrite reapply_regular by (eapply Forall_impl; [|exact O]; cbn beta; intros o ->; split; reflexivity).
    assert (F : find_index (fun o => od_key o =? ek e) d = None).
    { apply MatchLang.find_index_none_ex. intros o Ho. apply not_true_is_false. intro X.
      assert (pressed d (ek e) = true) by (apply existsb_exists; eauto). congruence. }
    rewrite F. apply N.eqb_neq in NT. rewrite NT.
    exists (d ++ [OD (ek e) t false false false ci]). split; [destruct SH; constructor|]. split.
    + split; [apply Forall_app; split; [exact O|repeat constructor]|].
      rewrite map_app. cbn [map od_key]. apply NoDup_snoc'; [exact N|]. intro X. apply pressed_in in X. congruence.
    + intro k. unfold pressed. rewrite existsb_app. cbn [existsb od_key]. rewrite orb_false_r, (N.eqb_sym k).
      fold (pressed d k). destruct (N.eqb_spec (ek e) k) as [<-|]; [rewrite orb_true_r; reflexivity|apply orb_false_r].
Qed.

Lemma put_output cl act sq b t ci o : forall d buf s, shape cl act sq b d buf s -> own t ci d ->
  (forall k, strokes (pressed d k) (track k o)) -> Forall (fun e => ek e <> k_any /\ ek e <> k_timeout) o ->
  exists d', shape cl act sq b d' (buf ++ o) (apply_output o t ci s) /\ own t ci d'.
Proof.
  induction o as [|e o IH]; intros d buf s SH OW ST KE.
  - exists d. rewrite app_nil_r. auto.
  - destruct (Forall_inv KE) as [NA NT]. apply Forall_inv_tail in KE.
    assert (TR : track (ek e) (e :: o) = es e :: track (ek e) o).
    { unfold track, has_key. cbn [filter]. rewrite N.eqb_refl. reflexivity. }
    pose proof (ST (ek e)) as H. rewrite TR in H.
    assert (TU : turn (pressed d (ek e)) e).
    { unfold turn. cbn [strokes] in H. destruct (es e); try contradiction; destruct H as [-> _]; reflexivity. }
    destruct (put_event cl act sq b d buf s e t ci SH OW NT TU) as (d' & S1 & O1 & P1).
    destruct (IH d' (buf ++ [e]) _ S1 O1) as (d2 & S2 & O2).
    + intro k. rewrite P1. specialize (ST k). destruct (N.eqb_spec k (ek e)) as [-> |NK].
      * rewrite TR in ST. cbn [strokes] in ST. destruct (es e); try contradiction; exact (proj2 ST).
      * replace (track k o) with (track k (e :: o)); [exact ST|]. unfold track, has_key. cbn [filter].
        destruct (N.eqb_spec (ek e) k); [congruence|reflexivity].
    + exact KE.
    + exists d2. split; [|exact O2]. rewrite <- app_assoc in S2. cbn [app] in S2.
      assert (Q : apply_output (e :: o) t ci s = apply_output o t ci (update_output e t ci s)).
      { cbn [apply_output]. apply N.eqb_neq in NA. rewrite NA. unfold turn in TU. rewrite TU.
        destruct (pressed d (ek e)); reflexivity. }
      rewrite Q. exact S2.
Qed.
Lemma put_plain cl act sq b t ci o s : shape cl act sq b [] [] s -> plain_output o ->
  exists d, shape cl act sq b d (shown o) (apply_output o t ci s).
Proof.
  intros SH [AL KE].
  assert (G : exists d, shape cl act sq b d (shown o) (apply_output (shown o) t ci s)).
  { destruct (put_output cl act sq b t ci (shown o) [] [] s SH) as (d & S1 & _); [split; constructor|exact AL|exact KE|].
    exists d. exact S1. }
  destruct o as [|e o]; [exact G|]. cbn [shown] in *. destruct ((ek e =? k_any) && kstate_eqb (es e) Not) eqn:Q; [|exact G].
  apply andb_prop in Q. destruct Q as [Q1 Q2]. cbn [apply_output]. rewrite Q1.
  destruct (es e); try discriminate Q2. replace (s_down s) with (@nil out_down) by (destruct SH; reflexivity). exact G.
Qed.

(** * The event which completes the mapping *)
Lemma fired cl act sq b e dev s o : eval_active cs [] cl [] = Some act -> Forall (fun i => (i < length cs)%nat) act ->
  shape cl act sq b [] [] s -> b = match sq with [] => false | _ => true end -> typing_keys (sq ++ [e]) -> es e = Down ->
  fires cs act dev (sq ++ [e]) o -> plain_output o -> snd (update cs e dev s) = shown o.
Proof.
  intros A BO SH B [AL KE] DE (ci & c & i & anys & tt & r & D & M & FO) PO.
  assert (SH1 : shape cl act sq b [] [] (set_exit (advance_exit e (s_exit s)) s)) by (destruct SH; constructor).
  assert (G : s_buf (apply_input cs e dev (set_exit (advance_exit e (s_exit s)) s)) = shown o).
  { destruct (before_loop cl act sq b e dev _ A SH1 B AL) as (s0 & S0 & ->).
    pose proof (alternates_updown _ AL) as UD.
    assert (NE : sq ++ [e] <> []) by (destruct sq; discriminate).
    assert (KT : Forall (fun e => ek e <> k_timeout) (sq ++ [e])) by (eapply Forall_impl; [|exact KE]; intros x [X _]; exact X).
    destruct (updown_weight _ UD NE) as [n ->].
    assert (L : exists q d, shape cl act q false d (shown o) (apply_loop cs (S n) e dev s0)).
    { cbn [apply_loop]. replace (s_seq s0) with (sq ++ [e]) by (destruct S0; reflexivity).
      rewrite (updown_needed _ UD NE). unfold apply_round. replace (s_seq s0) with (sq ++ [e]) by (destruct S0; reflexivity).
      destruct (input_decided cl act (sq ++ [e]) (sq ++ [e]) b [] [] dev (kstate_eqb (es e) Up && negb (ek e =? k_timeout)) ci c i
                  (RMatch r o (in_seq i) ci) s0 S0 BO D) as (s1 & -> & S1).
      { right. exists anys, tt, r, o. auto. }
      rewrite andb_false_r. cbn [negb andb].
      unfold timeout_after_match. replace (s_timeout s1) with (@None cur_timeout) by (destruct S1; reflexivity).
      unfold not_timeout_after_match. replace (s_timeout s1) with (@None cur_timeout) by (destruct S1; reflexivity).
      destruct (put_plain cl act (sq ++ [e]) b (select_trigger e (in_seq i) o s1) (Some ci) o s1 S1 PO) as (d & S2).
      exists (finish_loop (length (sq ++ [e])) (sq ++ [e])), d.
      assert (S3 : shape cl act (finish_loop (length (sq ++ [e])) (sq ++ [e])) false d (shown o)
                (set_might false (finish_sequence (length (sq ++ [e]))
                  (apply_output o (select_trigger e (in_seq i) o s1) (Some ci) s1)))) by (destruct S2; constructor).
      set (z := set_might false _) in *.
      assert (Q : has_non_optional (s_seq z) = false).
      { replace (s_seq z) with (finish_loop (length (sq ++ [e])) (sq ++ [e])) by (destruct S3; reflexivity).
        apply finished; assumption. }
      assert (LP : apply_loop cs n e dev z = z) by (destruct n; cbn [apply_loop]; rewrite Q; reflexivity).
      rewrite LP. exact S3. }
    destruct L as (q & d & L). pose proof (after_loop cl act _ false d _ e _ A L (or_intror DE)) as F. destruct F. reflexivity. }
  unfold update. cbv zeta. exact G.
Qed.

Theorem replaced s dev pre e o : at_rest cs s -> typing_keys (pre ++ [e]) -> es e = Down ->
  (forall p q, pre = p ++ q -> p <> [] -> waits cs (s_active s) dev p) ->
  fires cs (s_active s) dev (pre ++ [e]) o -> plain_output o ->
  snd (run cs (fed dev pre) s) = [] /\ snd (run cs (fed dev (pre ++ [e])) s) = shown o.
Proof.
  intros [A1 A2 A3 A4 A5 A6 A7 A8 A9 A10] TK DE W FI PO.
  assert (SH : shape (s_client s) (s_active s) [] false [] [] s).
  { destruct s. cbn in *. subst. constructor. }
  assert (TK1 : typing_keys pre).
  { destruct TK as [T1 T2]. split; [exact (alternates_prefix _ _ T1)|]. apply Forall_app in T2. apply T2. }
  destruct (held_back _ _ dev pre [] false s A9 A10 SH eq_refl TK1 W) as (b & S1 & O1 & B1). cbn [app] in S1, B1.
  split; [exact O1|]. pose proof (fired _ _ pre b e dev _ o A9 A10 S1 B1 TK DE FI PO) as F.
  assert (R : forall l1 l2 s, snd (run cs (l1 ++ l2) s) = snd (run cs l1 s) ++ snd (run cs l2 (fst (run cs l1 s)))).
  { clear. induction l1 as [|x l1 IH]; intros l2 s; [reflexivity|]. cbn [app run]. destruct (do_call cs x s) as [s1 o1].
    specialize (IH l2 s1). destruct (run cs (l1 ++ l2) s1) as [s3 o3], (run cs l1 s1) as [s2 o2]. cbn [fst snd] in *. rewrite IH.
    destruct (run cs l2 s2) as [s4 o4]. cbn [snd]. rewrite app_assoc. reflexivity. }
  unfold fed in *. rewrite map_app, R, O1. cbn [app map run do_call].
  destruct (update cs e dev _) as [s2 o2]. cbn [snd] in *. rewrite app_nil_r. exact F.
Qed.
End Trigger.

(** * The strokes of a string *)
From Verif Require Import MatchSpec ParseSeq Config StuckSpec StageStuck StringInputSpec StringInputProofs.

Section Typed.
Variable mk : key.
Definition holds_key (h : bool) (p : list key) (k : key) : bool := if k =? mk then h else existsb (N.eqb k) p.
Lemma track_cons k e l : track k (e :: l) = if ek e =? k then es e :: track k l else track k l.
Proof. unfold track, has_key. cbn [List.filter]. destruct (ek e =? k); reflexivity. Qed.
Lemma strokes_ext a b l : a = b -> strokes a l -> strokes b l.
Proof. intros ->. auto. Qed.
Lemma typed_strokes u r h p l sq : types mk u r h p l sq -> Forall (fun x => st_key x <> mk) l -> NoDup p -> ~ In mk p ->
  forall k, strokes (holds_key h p k) (track k sq).
Proof.
  intros TY. induction TY as [u r h p|u r h p q k l sq TY IH|u r h p x l sq NX NI TY IH|u p x l sq NX U TY IH
                             |u p x l sq NX TY IH|u p x l sq NX TY IH]; intros LK ND NM k'.
  - exact Logic.I.
  - apply NoDup_remove in ND. destruct ND as [ND NK].
    assert (NM' : ~ In mk (p ++ q)) by (intro X; apply NM; apply in_app_or in X; apply in_or_app; cbn; tauto).
    specialize (IH LK ND NM' k'). rewrite track_cons. cbn [ek es ev0]. unfold holds_key in *.
    destruct (N.eqb_spec k k') as [<- |NE].
    + destruct (N.eqb_spec k mk) as [-> |_]; [exfalso; apply NM; apply in_or_app; cbn; tauto|]. split.
      * apply existsb_exists. exists k. split; [apply in_or_app; cbn; tauto|apply N.eqb_refl].
      * eapply strokes_ext; [|exact IH]. apply not_true_is_false. intro X. apply existsb_exists in X.
        destruct X as (y & X & Y). apply N.eqb_eq in Y. subst y. contradiction.
    + eapply strokes_ext; [|exact IH]. destruct (k' =? mk); [reflexivity|]. rewrite !existsb_app. cbn [existsb].
      destruct (N.eqb_spec k' k); [congruence|reflexivity].
  - pose proof (Forall_inv LK) as KX. cbn beta in KX. apply Forall_inv_tail in LK.
    assert (NM' : ~ In mk (st_key x :: p)) by (intros [X|X]; [congruence|contradiction]).
    specialize (IH LK (NoDup_cons _ NI ND) NM' k'). rewrite track_cons. cbn [ek es ev0]. unfold holds_key in *.
    destruct (N.eqb_spec (st_key x) k') as [<- |NE].
    + destruct (N.eqb_spec (st_key x) mk) as [Q|_]; [contradiction|]. split.
      * apply not_true_is_false. intro X. apply existsb_exists in X. destruct X as (y & X & Y). apply N.eqb_eq in Y. subst y. contradiction.
      * eapply strokes_ext; [|exact IH]. cbn [existsb]. rewrite N.eqb_refl. reflexivity.
    + eapply strokes_ext; [|exact IH]. destruct (k' =? mk); [reflexivity|]. cbn [existsb].
      destruct (N.eqb_spec k' (st_key x)); [congruence|reflexivity].
  - specialize (IH LK ND NM k'). rewrite track_cons. cbn [ek es ev0]. unfold holds_key in *. rewrite (N.eqb_sym k') in *.
    destruct (mk =? k'); [split; [reflexivity|exact IH]|exact IH].
  - specialize (IH LK ND NM k'). rewrite track_cons. cbn [ek es ev0]. unfold holds_key in *. rewrite (N.eqb_sym k') in *.
    destruct (mk =? k'); [split; [reflexivity|exact IH]|exact IH].
  - specialize (IH LK ND NM k'). rewrite !track_cons. cbn [ek es ev0]. unfold holds_key in *. rewrite (N.eqb_sym k') in *.
    destruct (mk =? k'); [repeat split; exact IH|exact IH].
Qed.
Lemma typed_all (P : key -> Prop) u r h p l sq : types mk u r h p l sq -> P mk -> Forall P p -> Forall (fun x => P (st_key x)) l ->
  Forall (fun e => P (ek e)) sq.
Proof.
  intros TY PM. induction TY as [u r h p|u r h p q k l sq TY IH|u r h p x l sq NX NI TY IH|u p x l sq NX U TY IH
                             |u p x l sq NX TY IH|u p x l sq NX TY IH]; intros FP FL; repeat constructor; cbn [ek ev0]; auto.
  - apply Forall_app in FP. destruct FP as [_ FP]. exact (Forall_inv FP).
  - apply IH; [|exact FL]. apply Forall_app in FP. destruct FP as [F1 F2]. apply Forall_app. split; [exact F1|exact (Forall_inv_tail F2)].
  - exact (Forall_inv FL).
  - apply IH; [constructor; [exact (Forall_inv FL)|exact FP]|exact (Forall_inv_tail FL)].
Qed.
End Typed.
