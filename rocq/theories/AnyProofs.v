(** The proofs of the properties of `Any`. *)
From Coq Require Import List NArith ZArith Bool Lia.
From Verif Require Import Base Key Match Stage AnySpec MatchProofs MatchMore StageSpec.
Import ListNotations.
Local Open Scope N_scope.

(** * The keys reported by the matcher *)

Definition up_entry (e : event) : Prop := es e <> DownAsync /\ es e <> Down /\ es e <> DownMatched.
Record plain_run (m : mstate) : Prop := {
  pr_async : Forall up_entry (ms_async m);
  pr_nmm : ms_nmm m = false
}.

Lemma find_index_some {A} (f : A -> bool) l : forall i,
  find_index f l = Some i -> exists x, nth_error l i = Some x /\ f x = true.
Proof.
  induction l as [|x r IH]; intros i H; [discriminate|].
  cbn [find_index] in H. destruct (f x) eqn:Hf.
  - injection H as <-. exists x. auto.
  - destruct (find_index f r) as [j|]; [|discriminate]. injection H as <-. cbn. auto.
Qed.

Lemma forall_update {A} (P : A -> Prop) g l : forall i,
  Forall P l -> (forall x, nth_error l i = Some x -> P (g x)) -> Forall P (update_at i g l).
Proof.
  induction l as [|x r IH]; intros i HF Hg; destruct i; cbn [update_at]; auto.
  all: inversion HF; subst; constructor; auto.
Qed.

Lemma forall_remove_at {A} (P : A -> Prop) l : forall i, Forall P l -> Forall P (remove_at i l).
Proof.
  induction l as [|x r IH]; intros i HF; destruct i; cbn [remove_at]; auto.
  all: inversion HF; subst; auto.
Qed.

Lemma forall_filter {A} (P : A -> Prop) f l : Forall P l -> Forall P (filter f l).
Proof.
  induction 1; cbn; [constructor|]. destruct (f x); auto.
Qed.

Lemma unif_event_keys a b : unif_event a b = true -> unif_key (ek a) (ek b) = true.
Proof.
  unfold unif_event.
  destruct ((ek a =? k_any) && _); [discriminate|].
  destruct ((ek b =? k_any) && _); [discriminate|].
  destruct (unif_key (ek a) (ek b)); [auto|discriminate].
Qed.

Lemma unif_event_states a b : unif_event a b = true -> ek a <> k_timeout ->
  norm_state (es a) = norm_state (es b).
Proof.
  unfold unif_event, unif_state. intros H Ht.
  destruct ((ek a =? k_any) && _); [discriminate|].
  destruct ((ek b =? k_any) && _); [discriminate|].
  destruct (unif_key (ek a) (ek b)); [|discriminate]. cbn [negb] in H.
  destruct (N.eqb_spec (ek a) k_timeout); [contradiction|].
  apply kstate_eqb_eq in H. exact H.
Qed.

Lemma unif_key_cases a b : a <> k_any -> unif_key a b = true ->
  a = b \/ (b = k_any /\ is_keyboard_key a = true).
Proof.
  unfold unif_key. intros Ha H.
  destruct ((a =? k_none) || (b =? k_none)); [discriminate|].
  destruct (N.eqb_spec a b); [auto|].
  destruct ((a =? k_timeout) || (b =? k_timeout)); [discriminate|].
  destruct (N.eqb_spec a k_any); [contradiction|]. cbn [andb] in H.
  destruct (N.eqb_spec b k_any); [|discriminate]. cbn [andb] in H.
  destruct (is_keyboard_key a); [auto|discriminate].
Qed.

Lemma unif_any_unmatched a b : unif_event a b = true -> ek b = k_any -> es a <> DownMatched.
Proof.
  unfold unif_event. intros H Hb Hd. rewrite Hb, Hd in H.
  destruct ((ek a =? k_any) && _); [discriminate|]. rewrite N.eqb_refl in H. discriminate.
Qed.

Lemma any_is_no_timeout : (k_any =? k_timeout) = false.
Proof. reflexivity. Qed.

(** What a step does with the presses. *)
Definition step_presses (ee se : event) (ae as_ : bool) (any any' : list key) : Prop :=
  (ae = true /\ as_ = true /\
   ((exists k, ek ee = k /\ ek se = k /\ k <> k_timeout /\ es ee = Down
               /\ (es se = Down \/ es se = DownMatched) /\ k <> k_any /\ any' = any) \/
    (ek ee = k_any /\ es ee = Down /\ es se = Down /\ is_keyboard_key (ek se) = true
     /\ any' = any ++ [ek se]))) \/
  (any' = any /\ (ae = true -> asked [ee] = []) /\
   (as_ = true -> pressed [se] = [] \/ es se = DownMatched)).

Lemma asked_none e : es e <> Down \/ ek e = k_timeout -> asked [e] = [].
Proof.
  intros H. unfold asked. cbn [filter].
  destruct H as [H|H].
  - destruct (kstate_eqb_spec (es e) Down); [contradiction|reflexivity].
  - rewrite H, N.eqb_refl, andb_false_r. reflexivity.
Qed.
Lemma pressed_none e : (es e <> Down /\ es e <> DownMatched) \/ ek e = k_timeout -> pressed [e] = [].
Proof.
  intros H. unfold pressed. cbn [filter].
  destruct H as [[H H']|H].
  - destruct (kstate_eqb_spec (es e) Down); [contradiction|].
    destruct (kstate_eqb_spec (es e) DownMatched); [contradiction|reflexivity].
  - rewrite H, N.eqb_refl, andb_false_r. reflexivity.
Qed.

Lemma step_presses_ok ee se b m ae as_ m' :
  ek se <> k_any ->
  es ee <> DownAsync /\ es ee <> DownMatched /\ es ee <> NoMightMatch -> plain_run m ->
  match_step ee se b m = MGo ae as_ m' ->
  plain_run m' /\ step_presses ee se ae as_ (ms_any m) (ms_any m').
Proof.
  intros Hs (E1 & E2 & E3) [Ha Hn] H. unfold match_step in H.
  cbn [ms_any ms_not ms_async ms_nmm ms_e ms_ign ms_down] in H. rewrite Hn in H.
  cbn [andb] in H.
  step_cases H.
  all: cbn [ms_any].
  - (* asynchronous release *)
    apply orb_prop in Heqb1. destruct Heqb1 as [X|X]; apply kstate_eqb_eq in X; [contradiction|].
    split; [split; cbn; [apply Forall_app; split; auto; constructor; auto; unfold up_entry; rewrite X; repeat split; discriminate|auto]|].
    right. repeat split; [|discriminate]. intros _. apply asked_none. left. rewrite X. discriminate.
  - (* not *)
    apply andb_prop in Heqb2. destruct Heqb2 as [X _]. apply kstate_eqb_eq in X.
    split; [split; auto|]. right. repeat split; [|discriminate]. intros _. apply asked_none. left.
    rewrite X. discriminate.
  - (* release of Any *)
    apply andb_prop in Heqb3. destruct Heqb3 as [X X2]. apply andb_prop in X. destruct X as [X _].
    apply andb_prop in X. destruct X as [_ X]. apply kstate_eqb_eq in X. apply kstate_eqb_eq in X2.
    split; [split; auto|]. right. repeat split; intros _.
    + apply asked_none. left. rewrite X. discriminate.
    + left. apply pressed_none. left. rewrite X2. split; discriminate.
  - (* same *)
    split; [split; cbn; auto; apply forall_filter; auto|].
    destruct (N.eqb_spec (ek se) k_timeout) as [T|T].
    + right. pose proof (unif_event_keys _ _ Heqb4) as K.
      apply unif_key_cases in K; [|auto].
      destruct K as [K|[K K']].
      * replace (ek ee =? k_any) with false by (rewrite <- K, T; reflexivity). cbn [andb].
        repeat split; intros _; [apply asked_none; right; congruence|].
        left. apply pressed_none. auto.
      * rewrite T in K'. discriminate.
    + pose proof (unif_event_states _ _ Heqb4 T) as Hst.
      pose proof (unif_event_keys _ _ Heqb4) as K. apply unif_key_cases in K; [|auto].
      destruct K as [K|[K K']].
      * replace (ek ee =? k_any) with false by (symmetry; apply N.eqb_neq; congruence). cbn [andb].
        destruct (kstate_eqb_spec (es ee) Down) as [D|D].
        { left. repeat split. left. exists (ek se). rewrite D in Hst. repeat split; auto.
          destruct (es se); cbn in Hst; try discriminate; auto. }
        right. repeat split; intros _; [apply asked_none; auto|].
        left. apply pressed_none. left.
        destruct (es se), (es ee); cbn in Hst; try discriminate; try contradiction; split; discriminate.
      * rewrite K, N.eqb_refl. cbn [andb].
        pose proof (unif_any_unmatched _ _ Heqb4 K) as Hm.
        destruct (kstate_eqb_spec (es se) Down) as [D|D].
        { left. repeat split. right. rewrite D in Hst. repeat split; auto.
          destruct (es ee); cbn in Hst; try discriminate; auto; contradiction. }
        right. repeat split; intros _.
        { apply asked_none. left. intros D'. rewrite D' in Hst.
          destruct (es se); cbn in Hst; try discriminate; contradiction. }
        left. apply pressed_none. auto.
  - apply kstate_eqb_eq in Heqb6. contradiction.
  - (* asynchronous release happens *)
    apply find_index_some in Heqo. destruct Heqo as (x & Hx & Hf).
    apply andb_prop in Hf. destruct Hf as [Hf _]. apply kstate_eqb_eq in Hf.
    pose proof (proj1 (Forall_forall _ _) Ha x (nth_error_In _ _ Hx)) as (U & _).
    assert (X : es se = Up) by (destruct (es se); auto; contradiction).
    split; [split; cbn; auto|].
    { apply forall_update; auto. intros y _. unfold up_entry. destruct y; cbn. rewrite X.
      repeat split; discriminate. }
    right. repeat split; [discriminate|]. intros _. left. apply pressed_none. left. rewrite X.
    split; discriminate.
  - split; [split; auto|]. right. repeat split; [discriminate|]. intros _.
    apply orb_prop in Heqb7. destruct Heqb7 as [X|X]; apply kstate_eqb_eq in X; auto.
    left. apply pressed_none. left. rewrite X. split; discriminate.
  - split; [split; cbn; auto; apply forall_remove_at; auto|].
    right. repeat split; [|discriminate]. intros _. apply asked_none.
    apply find_index_some in Heqo0. destruct Heqo0 as (x & Hx & Hf).
    pose proof (proj1 (Forall_forall _ _) Ha x (nth_error_In _ _ Hx)) as (U1 & U2 & U3).
    destruct (N.eqb_spec (ek ee) k_timeout) as [T|T]; [auto|]. left. intros D.
    apply unif_event_states in Hf; auto. rewrite D in Hf.
    destruct (es x); cbn in Hf; try discriminate; contradiction.
  - exfalso. apply andb_prop in Heqb8. destruct Heqb8 as [_ X].
    clear - X Ha. revert X. generalize (@None event).
    induction Ha as [|x l Hx Ha IH]; intros p X; cbn in X; [discriminate|].
    destruct (event_eqb x (ev0 (ek ee) DownAsync)) eqn:Q; [|eauto].
    apply event_eqb_eq in Q. subst x. destruct Hx as (Hx & _). apply Hx. reflexivity.
  - split; [split; auto|]. right. repeat split; [discriminate|]. intros _. left.
    apply pressed_none. right. apply andb_prop in Heqb9. destruct Heqb9 as [X _].
    apply andb_prop in X. destruct X as [X _]. apply N.eqb_eq in X. exact X.
Qed.

Lemma asked_cons e l : asked (e :: l) = asked [e] ++ asked l.
Proof. unfold asked. cbn [filter]. destruct (_ && _); reflexivity. Qed.
Lemma pressed_cons e l : pressed (e :: l) = pressed [e] ++ pressed l.
Proof. unfold pressed. cbn [filter]. destruct (_ && _); reflexivity. Qed.

Lemma loop_step f ex sq m : ex <> [] \/ sq <> [] ->
  match_loop (S f) ex sq m =
  match match_step (hd matches_none ex) (hd matches_none sq)
                   (match sq with [] => true | _ => false end) m with
  | MRet r t => Some (r, ms_any m, t)
  | MGo ae as_ m' => match_loop f (tl_if ae ex) (tl_if as_ sq) m'
  end.
Proof. destruct ex, sq; intros [H|H]; try contradiction; reflexivity. Qed.

Lemma forall_tl {A} (P : A -> Prop) b l : Forall P l -> Forall P (tl_if b l).
Proof. destruct b; [|auto]. destruct 1; cbn; auto. Qed.

Lemma step_matched ee se b m r t : plain_run m -> match_step ee se b m = MRet r t -> r <> Matched.
Proof.
  intros _ H. unfold match_step in H. step_cases H; try discriminate.
  destruct b; discriminate.
Qed.

Lemma match_loop_fits fuel : forall ex sq m anys t,
  no_group ex -> Forall (fun e => ek e <> k_any) sq -> plain_run m ->
  match_loop fuel ex sq m = Some (Matched, anys, t) ->
  exists ks, anys = ms_any m ++ ks /\ fits (asked ex) (pressed sq) ks.
Proof.
  induction fuel as [|fuel IH]; intros ex sq m anys t He Hs Hm H.
  - destruct ex, sq; cbn in H; try discriminate. injection H as <- <-.
    exists []. rewrite app_nil_r. split; [auto|constructor].
  - assert (HD : (ex = [] /\ sq = []) \/ (ex <> [] \/ sq <> []))
      by (destruct ex, sq; auto; right; try (left; discriminate); right; discriminate).
    destruct HD as [[-> ->]|HD].
    { injection H as <- <-. exists []. rewrite app_nil_r. split; [auto|constructor]. }
    rewrite loop_step in H by exact HD.
    destruct (match_step _ _ _ _) as [r0 t0|ae as_ m'] eqn:Q.
    { exfalso. injection H as R _ _. eapply step_matched; eauto. }
    assert (Hh : ek (hd matches_none sq) <> k_any).
    { destruct sq; [discriminate|]. inversion Hs; auto. }
    assert (Hx : es (hd matches_none ex) <> DownAsync /\ es (hd matches_none ex) <> DownMatched
                 /\ es (hd matches_none ex) <> NoMightMatch).
    { destruct ex; [repeat split; discriminate|]. inversion He; auto. }
    destruct (step_presses_ok _ _ _ _ _ _ _ Hh Hx Hm Q) as [Hm' Hp].
    apply IH in H; auto using forall_tl.
    2: { apply forall_tl. exact He. }
    destruct H as (ks & -> & HF).
    destruct Hp as [(-> & -> & Hp)|(Eany & Hae & Has)].
    + destruct Hp as [(k & K1 & K2 & K3 & D1 & D2 & K4 & Eany)|(K1 & D1 & D2 & K2 & Eany)].
      * destruct ex as [|[xk xs xv] ex]; [discriminate D1|].
        destruct sq as [|[yk ys yv] sq]; [destruct D2; discriminate|].
        cbn [hd ek es tl_if tl] in *. subst xk yk xs. rewrite Eany. exists ks. split; [auto|].
        rewrite asked_cons, pressed_cons.
        replace (asked [Ev k Down xv]) with [Ev k Down xv].
        2: { unfold asked. cbn. destruct (N.eqb_spec k k_timeout); [contradiction|reflexivity]. }
        replace (pressed [Ev k ys yv]) with [Ev k ys yv].
        2: { unfold pressed. cbn. destruct D2 as [-> | ->]; cbn;
             destruct (N.eqb_spec k k_timeout); try contradiction; reflexivity. }
        cbn [app]. constructor; auto.
      * destruct ex as [|[xk xs xv] ex]; [discriminate D1|].
        destruct sq as [|[yk ys yv] sq]; [discriminate D2|].
        cbn [hd ek es tl_if tl] in *. subst xk xs ys. rewrite Eany. exists (yk :: ks).
        split; [rewrite <- app_assoc; reflexivity|].
        rewrite asked_cons, pressed_cons.
        replace (pressed [Ev yk Down yv]) with [Ev yk Down yv].
        2: { unfold pressed. cbn. destruct (N.eqb_spec yk k_timeout); [|reflexivity].
             subst yk. discriminate K2. }
        cbn [app asked filter es ek kstate_eqb andb]. rewrite any_is_no_timeout. cbn [negb].
        constructor; auto.
    + rewrite Eany. exists ks. split; [auto|].
      assert (A1 : asked ex = asked (tl_if ae ex)).
      { destruct ae; [|reflexivity]. destruct ex as [|x ex]; [reflexivity|].
        rewrite asked_cons. cbn [hd] in Hae. rewrite Hae by auto. reflexivity. }
      rewrite A1.
      destruct as_; [|exact HF]. destruct sq as [|[yk ys yv] sq]; [exact HF|].
      rewrite pressed_cons. cbn [hd es] in Has. destruct (Has eq_refl) as [->|D]; [exact HF|].
      subst ys. unfold pressed at 1. cbn [filter es ek kstate_eqb orb andb].
      destruct (negb (yk =? k_timeout)); [cbn [app]; constructor|]; exact HF.
Qed.

Lemma match_fits ex sq anys t :
  no_group ex -> Forall (fun e => ek e <> k_any) sq ->
  match_keys ex sq = Some (Matched, anys, t) -> fits (asked ex) (pressed sq) anys.
Proof.
  intros He Hs H. unfold match_keys in H.
  apply match_loop_fits in H; auto.
  - destruct H as (ks & -> & HF). exact HF.
  - split; [constructor|reflexivity].
Qed.

(** * The keys written by the stage *)

Lemma update_output_any e t ci s : s_any (update_output e t ci s) = s_any s.
Proof.
  unfold update_output.
  destruct (es e); try reflexivity.
  - destruct (find_index _ _) as [i|]; [|reflexivity].
    destruct (nth_error _ _) as [o|]; [|reflexivity].
    destruct (_ && _); [reflexivity|]. destruct (_ && _); [|reflexivity].
    destruct (rfind_key _ _); reflexivity.
  - destruct (reapply_loop _ _ _ _) as [[[d b] re] ret].
    destruct ret; [reflexivity|]. cbv zeta.
    destruct (find_index _ _) as [i|].
    + destruct re; reflexivity.
    + destruct (ek e =? k_timeout); reflexivity.
  - destruct (find_index _ _) as [i|]; [|reflexivity].
    destruct (_ || _); [reflexivity|].
    destruct (nth_error _ _) as [o|]; [|reflexivity]. destruct (od_temp o); reflexivity.
Qed.

Lemma fold_update_any st t ci ks : forall s,
  s_any (fold_left (fun s k => update_output (ev0 k st) t ci s) ks s) = s_any s.
Proof.
  induction ks as [|k ks IH]; intros s; [reflexivity|]. cbn [fold_left].
  rewrite IH. apply update_output_any.
Qed.

(** Events other than `Any`, `^` and `!Virtual` are passed on one after the other. *)
Lemma apply_keys st t ci ks r : forall s,
  st <> OutputOnRelease -> st <> Not -> Forall (fun k => k <> k_any) ks ->
  apply_output (map (fun k => ev0 k st) ks ++ r) t ci s =
  apply_output r t ci (fold_left (fun s k => update_output (ev0 k st) t ci s) ks s).
Proof.
  intros s Hst Hn HF. revert s. induction HF as [|k ks Hk HF IH]; intros s; [reflexivity|].
  cbn [map app fold_left]. rewrite <- IH. cbn [apply_output ek es ev0].
  destruct (N.eqb_spec k k_any); [contradiction|].
  destruct st; try reflexivity; contradiction.
Qed.

Lemma apply_written t ci ks o : forall s,
  at_once o -> s_any s = ks -> Forall (fun k => k <> k_any) ks ->
  apply_output o t ci s = apply_output (written ks o) t ci s.
Proof.
  intros s Ho. revert s. induction Ho as [|e r [He1 He2] Ho IH]; intros s Hs Hk; [reflexivity|].
  unfold written. cbn [flat_map]. fold (written ks r).
  destruct (N.eqb_spec (ek e) k_any) as [Ka|Ka].
  - rewrite apply_keys; auto.
    cbn [apply_output]. rewrite Ka, N.eqb_refl. rewrite <- IH; auto.
    + rewrite Hs. destruct (es e); try reflexivity. exfalso. auto.
    + rewrite fold_update_any. exact Hs.
  - cbn [app apply_output]. destruct (N.eqb_spec (ek e) k_any); [contradiction|].
    assert (G : forall x, apply_output r t ci (update_output x t ci s)
                = apply_output (written ks r) t ci (update_output x t ci s)).
    { intros x. apply IH; auto. rewrite update_output_any. exact Hs. }
    destruct (es e); try apply G; [|contradiction].
    destruct (is_virtual_key (ek e)); [|apply G].
    destruct (existsb _ _); [apply G|]. apply IH; auto.
Qed.

Section WithContexts.
Variable cs : list context.

Lemma match_inputs_any first sq dev up ci c l : forall s s' r o inp cj,
  match_inputs cs first sq dev up ci c l s = (s', Some (RMatch r o inp cj)) ->
  exists t, match_keys inp (if is_nmm_mapping inp then s_hist s else sq)
            = Some (Matched, s_any s', t).
Proof.
  induction l as [|i l IH]; intros s s' r o inp cj H; [discriminate|].
  cbn [match_inputs] in H. cbv zeta in H.
  destruct (is_nmm_mapping (in_seq i) && _) eqn:B1; [eauto|].
  destruct (is_nmm_mapping (in_seq i) && (dev =? any_device)%Z); [eauto|].
  destruct (match_keys (in_seq i) _) as [[[res anys] t]|] eqn:M; [|discriminate].
  set (s1 := ub_unless (match in_seq i with [] => false | _ => true end) (set_any anys s)) in H.
  assert (Hh : s_hist s1 = s_hist s) by (unfold s1, ub_unless; destruct (in_seq i); reflexivity).
  assert (Ha : s_any s1 = anys) by (unfold s1, ub_unless; destruct (in_seq i); reflexivity).
  destruct res.
  - rewrite <- Hh. eapply IH. exact H.
  - destruct (first && _); [discriminate|]. rewrite <- Hh. eapply IH. exact H.
  - destruct (find_output _ _ _ _) as [ref o'| |].
    + injection H as <- <- <- <- <-. exists t. rewrite Ha. exact M.
    + rewrite <- Hh. eapply IH. exact H.
    + discriminate.
Qed.

Lemma match_inputs_hist first sq dev up ci c l : forall s s',
  match_inputs cs first sq dev up ci c l s = (s', None) -> s_hist s' = s_hist s.
Proof.
  induction l as [|i l IH]; intros s s' H; [injection H as <-; reflexivity|].
  cbn [match_inputs] in H. cbv zeta in H.
  destruct (is_nmm_mapping (in_seq i) && _) eqn:B1; [eauto|].
  destruct (is_nmm_mapping (in_seq i) && (dev =? any_device)%Z); [eauto|].
  destruct (match_keys (in_seq i) _) as [[[res anys] t]|] eqn:M; [|discriminate].
  set (s1 := ub_unless (match in_seq i with [] => false | _ => true end) (set_any anys s)) in H.
  assert (Hh : s_hist s1 = s_hist s) by (unfold s1, ub_unless; destruct (in_seq i); reflexivity).
  rewrite <- Hh.
  destruct res; auto.
  - destruct (first && _); [discriminate|]. auto.
  - destruct (find_output _ _ _ _) as [ref o'| |]; try discriminate. auto.
Qed.

Lemma match_contexts_any first sq dev up act : forall s s' r o inp cj,
  match_contexts cs first sq dev up act s = (s', RMatch r o inp cj) ->
  exists t, match_keys inp (if is_nmm_mapping inp then s_hist s else sq)
            = Some (Matched, s_any s', t).
Proof.
  induction act as [|ci act IH]; intros s s' r o inp cj H; [discriminate|].
  cbn [match_contexts] in H.
  destruct (nth_error cs ci) as [c|]; [|discriminate].
  destruct (device_matches_filter c dev); [|eauto].
  destruct (match_inputs cs first sq dev up ci c (cx_inputs c) s) as [s1 [res|]] eqn:M.
  - injection H as <- ->. eapply match_inputs_any; eauto.
  - apply match_inputs_hist in M. rewrite <- M. eauto.
Qed.

Lemma match_input_any first sq dev up s s' r o inp cj :
  match_input cs first sq dev up s = (s', RMatch r o inp cj) ->
  exists t, match_keys inp (if is_nmm_mapping inp then s_hist s else sq)
            = Some (Matched, s_any s', t).
Proof.
  intros H. unfold match_input in H. apply match_contexts_any in H.
  destruct H as [t H]. exists t. rewrite <- H. destruct (is_nmm_mapping inp); [|reflexivity].
  unfold ub_unless. destruct (valid_device dev); reflexivity.
Qed.

End WithContexts.

(** * One mapping of Any *)

(** A configuration whose only mapping is `Any >> o`. *)
Definition only_any (o : sequence) : list context :=
  [Ctx [Inp [ev0 k_any Down; ev0 k_any UpAsync] 0%Z] [o] [] None None [] all_device_bits false false].

Lemma reapply_none k l buf rea : Forall (fun o => od_temp o = false) l ->
  reapply_loop k l buf rea = (l, buf, rea, false).
Proof.
  intros H. revert buf rea. induction H as [|o l Ho H IH]; intros buf rea; [reflexivity|].
  cbn [reapply_loop]. rewrite Ho. cbn [andb]. rewrite IH. reflexivity.
Qed.

Lemma filter_all {A} (f : A -> bool) l : (forall x, In x l -> f x = true) -> filter f l = l.
Proof.
  induction l as [|x r IH]; intros H; [reflexivity|]. cbn [filter].
  rewrite (H x) by (left; reflexivity). f_equal. apply IH. intros y Hy. apply H. right. exact Hy.
Qed.
Lemma nodup_snoc {A} (l : list A) x : NoDup l -> ~ In x l -> NoDup (l ++ [x]).
Proof.
  induction 1 as [|y r Hy Hn IH]; intros H; cbn [app].
  - repeat constructor. intros [].
  - constructor; [|apply IH; intros Hi; apply H; right; exact Hi].
    intros Hi. apply in_app_or in Hi. destruct Hi as [Hi|[->|[]]]; [contradiction|].
    apply H. left. reflexivity.
Qed.

Definition held_as (t : trigger) (ci : option nat) (ks : list key) : list out_down :=
  map (fun k => OD k t false false false ci) ks.

Lemma held_temp t ci ks : Forall (fun o => od_temp o = false) (held_as t ci ks).
Proof. apply Forall_forall. intros o Ho. apply in_map_iff in Ho. destruct Ho as (k & <- & _). reflexivity. Qed.

Lemma held_find t ci k ks :
  existsb (N.eqb k) ks = false -> find_index (fun o => od_key o =? k) (held_as t ci ks) = None.
Proof.
  induction ks as [|x r IH]; intros H; [reflexivity|]. cbn in H. apply orb_false_iff in H.
  destruct H as [H1 H2]. cbn [held_as map find_index od_key]. fold (held_as t ci r).
  rewrite N.eqb_sym, H1, IH by exact H2. reflexivity.
Qed.

Lemma held_remove t ci k ks : NoDup ks -> existsb (N.eqb k) ks = true ->
  exists i, find_index (fun o => od_key o =? k) (held_as t ci ks) = Some i /\
    nth_error (held_as t ci ks) i = Some (OD k t false false false ci) /\
    remove_at i (held_as t ci ks) = held_as t ci (filter (fun x => negb (x =? k)) ks).
Proof.
  induction 1 as [|x r Hx Hn IH]; intros H; [discriminate|]. cbn in H. cbn [held_as map find_index od_key].
  destruct (N.eqb_spec x k) as [->|Hxk].
  - exists 0%nat. cbn [nth_error remove_at filter]. rewrite N.eqb_refl. cbn [negb].
    repeat split. fold (held_as t ci r). f_equal. symmetry.
    apply filter_all. intros y Hy. apply negb_true_iff, N.eqb_neq. intros ->. contradiction.
  - rewrite (proj2 (N.eqb_neq k x)) in H by congruence. destruct (IH H) as (i & F & Nn & R).
    fold (held_as t ci r). rewrite F. exists (S i). cbn [nth_error remove_at filter].
    rewrite (proj2 (N.eqb_neq x k)) by congruence. cbn [negb]. repeat split; auto.
    rewrite R. reflexivity.
Qed.

Lemma existsb_notin k ks : existsb (N.eqb k) ks = false -> ~ In k ks.
Proof.
  intros H Hi. assert (existsb (N.eqb k) ks = true); [|congruence].
  apply existsb_exists. exists k. split; auto. apply N.eqb_refl.
Qed.

(** An output is put out as it is when it presses and releases its keys properly. *)
Lemma apply_plays t ci o : forall s ks held,
  plays ks o = Some held -> Forall (fun e => ek e <> k_any) o -> NoDup ks ->
  s_down s = held_as t ci ks -> s_reapplied s = false ->
  apply_output o t ci s = set_down (held_as t ci held) (set_buf (s_buf s ++ o) s) /\ NoDup held.
Proof.
  induction o as [|e r IH]; intros s ks held H Ha Hn Hd Hr; cbn [plays] in H.
  - injection H as <-. rewrite app_nil_r. split; [|exact Hn]. rewrite <- Hd. destruct s; reflexivity.
  - inversion Ha as [|? ? Hea Har]; subst. cbn [apply_output].
    destruct (N.eqb_spec (ek e) k_any); [contradiction|].
    destruct (N.eqb_spec (ek e) k_timeout) as [|Ht]; [discriminate|].
    destruct e as [k st v]. cbn [ek es] in *.
    destruct st; try discriminate.
    + destruct (existsb (N.eqb k) ks) eqn:Q; [|discriminate].
      destruct (held_remove t ci k ks Hn Q) as (i & F & Nn & R).
      unfold update_output. cbn [es ek]. rewrite Hd, F, Nn. cbn [od_twice andb od_trigger].
      rewrite N.eqb_refl, R.
      edestruct (IH (emit (Ev k Up v) (set_down (held_as t ci (filter (fun x => negb (x =? k)) ks)) s)))
        as [E1 E2]; [exact H|exact Har|apply NoDup_filter; exact Hn|reflexivity|exact Hr|].
      rewrite E1. split; [|exact E2]. destruct s. unfold emit, set_down, set_buf. cbn.
      rewrite <- app_assoc. reflexivity.
    + destruct (existsb (N.eqb k) ks) eqn:Q; [discriminate|].
      unfold update_output. cbn [es ek]. rewrite Hd, held_find by exact Q.
      rewrite reapply_none by apply held_temp.
      destruct (N.eqb_spec k k_timeout); [contradiction|].
      edestruct (IH (emit (Ev k Down v)
        (set_down (held_as t ci ks ++ [OD k t false false false ci]) s))) as [E1 E2];
        [exact H|exact Har| | |exact Hr|].
      * apply nodup_snoc; [exact Hn|]. apply existsb_notin, Q.
      * unfold held_as. rewrite map_app. reflexivity.
      * split; [|exact E2].
        replace (emit (Ev k Down v) _) with (emit (Ev k Down v)
          (set_down (held_as t ci ks ++ [OD k t false false false ci]) s)).
        { rewrite E1. destruct s. unfold emit, set_down, set_buf. cbn. rewrite <- app_assoc. reflexivity. }
        destruct s. cbn in Hr, Hd. subst. reflexivity.
Qed.

Section OnlyAny.
Variable o : sequence.
Let cs := only_any o.

Lemma only_active s : s_client s = [0%nat] -> s_active s = [0%nat] -> update_active_contexts cs s = s.
Proof.
  intros H1 H2. destruct s. cbn in H1, H2. subst. reflexivity.
Qed.

Lemma only_device c dev : cx_bits c = all_device_bits -> valid_device dev = true ->
  device_matches_filter c dev = true.
Proof.
  intros Hc H. unfold device_matches_filter, valid_device in *. rewrite Hc.
  apply andb_prop in H. destruct H as [H1 H2]. apply Z.leb_le in H1. apply Z.ltb_lt in H2.
  destruct (Z.eqb_spec dev any_device); [reflexivity|].
  destruct (Z.eqb_spec dev no_device); [apply N.eqb_refl|].
  unfold any_device, no_device in *. assert (Hd : (0 <= dev < 64)%Z) by lia. clear - Hd.
  change all_device_bits with (N.ones 64). apply N.ones_spec_low. lia.
Qed.

Lemma only_match k v dev s :
  is_keyboard_key k = true -> valid_device dev = true -> s_active s = [0%nat] ->
  match_input cs true [Ev k Down v] dev false s
  = (set_any [k] s, RMatch (ODirect 0 0) o [ev0 k_any Down; ev0 k_any UpAsync] 0).
Proof.
  intros Hk Hd Hs. unfold match_input. rewrite Hd, Hs. unfold ub_unless. cbn [match_contexts nth_error].
  cbn [cs only_any nth_error]. rewrite only_device by auto.
  cbn [cx_inputs match_inputs in_seq is_nmm_mapping].
  change (kstate_eqb (es (ev0 k_any Down)) NoMightMatch) with false. cbn [andb].
  replace (match_keys [ev0 k_any Down; ev0 k_any UpAsync] [Ev k Down v])
    with (Some (Matched, [k], @None event)).
  2: { symmetry. rewrite match_any_press, Hk; auto; intros ->; discriminate. }
  reflexivity.
Qed.

Lemma select_any e inp s : get_trigger_key (TSeq inp) = k_any ->
  is_physically_pressed s (ek e) = true -> ek e <> k_timeout -> select_trigger e inp o s = TEvent e.
Proof.
  intros H Hp Ht. unfold select_trigger. cbv zeta. rewrite H, N.eqb_refl. cbn [orb].
  change (get_trigger_key (TEvent e)) with (ek e).
  destruct (N.eqb_spec (ek e) k_timeout); [contradiction|].
  change (get_trigger_key (TEvent e)) with (ek e). rewrite Hp. reflexivity.
Qed.

(** Nothing is pressed. *)
Definition idle x pd rd a ub oof : state :=
  St [0%nat] [0%nat] x [] false pd rd [] [] [] None [] false a ub oof.
(** [k] was pressed and [held] are the keys held by the output. *)
Definition holds k v dn x pd rd a ub oof : state :=
  St [0%nat] [0%nat] x [Ev k DownMatched v] false pd rd [] [] dn None [] false a ub oof.

Lemma keyboard_real k : is_keyboard_key k = true ->
  k <> k_any /\ k <> k_none /\ k <> k_timeout /\ is_virtual_key k = false.
Proof.
  intros H. repeat split; try (intros ->; discriminate).
  unfold is_keyboard_key, is_virtual_key, in_range in *.
  apply andb_prop in H. destruct H as [H _]. apply andb_prop in H. destruct H as [H _].
  apply andb_prop in H. destruct H as [_ H]. apply N.leb_le in H.
  apply andb_false_intro1. apply N.leb_gt. unfold last_keyboard_key, first_virtual in *. lia.
Qed.

Lemma contains_one k st v e : es e <> st -> contains_ev [Ev k st v] e = false.
Proof.
  intros H. unfold contains_ev. cbn [existsb]. rewrite orb_false_r.
  destruct (event_eqb e (Ev k st v)) eqn:Q; [|reflexivity]. apply event_eqb_eq in Q. subst e.
  cbn in H. contradiction.
Qed.

Lemma press_any k v dev x pd rd a ub oof held :
  is_keyboard_key k = true -> valid_device dev = true ->
  at_once o -> plays [] (written [k] o) = Some held ->
  exists x' pd' rd',
    update cs (Ev k Down v) dev (idle x pd rd a ub oof) =
    (holds k v (held_as (TEvent (Ev k Down v)) (Some 0%nat) held) x' pd' rd' [k] ub oof,
     written [k] o).
Proof.
  intros Hk Hd Ho Hp. destruct (keyboard_real k Hk) as (K1 & K2 & K3 & K4).
  unfold update. cbv zeta. unfold apply_input.
  set (s0 := set_exit _ _).
  replace (continue_output_on_release (Ev k Down v) None s0) with (s0, true) by reflexivity.
  cbn [negb].
  replace (suppress_not_timeout (Ev k Down v) s0) with (s0, true) by reflexivity.
  cbn [negb].
  assert (E1 : exists x' pd' rd', merge_repeat (Ev k Down v) dev s0 = (idle x' pd' rd' a ub oof, true)).
  { unfold merge_repeat. cbn [es]. change (rfind_key (s_seq s0) (ek (Ev k Down v))) with (@None nat).
    cbv iota. destruct (dev =? no_device)%Z; [do 3 eexists; reflexivity|].
    destruct (dev =? s_rdev s0)%Z; do 3 eexists; reflexivity. }
  destruct E1 as (x' & pd' & rd' & ->). cbn [negb]. exists x', pd', rd'.
  unfold process_input. cbv zeta.
  set (s1 := set_seq _ (idle x' pd' rd' a ub oof)).
  replace (add_to_history cs (Ev k Down v) s1) with s1 by reflexivity.
  rewrite only_active by reflexivity.
  replace (prepare_up (Ev k Down v) s1) with s1 by reflexivity.
  replace (unsuppress s1) with s1 by reflexivity.
  change (weight (s_seq s1)) with 2%nat.
  cbn [apply_loop]. change (has_non_optional (s_seq s1)) with true.
  cbv iota.
  unfold apply_round. cbn [es ek kstate_eqb andb]. change (s_seq s1) with [Ev k Down v].
  rewrite only_match by auto. cbv zeta. cbn [negb andb]. rewrite andb_false_r. cbv iota.
  cbn [length].
  unfold timeout_after_match, not_timeout_after_match.
  change (s_timeout (set_any [k] s1)) with (@None cur_timeout).
  cbv iota. change (s_timeout (set_any [k] s1)) with (@None cur_timeout). cbv iota.
  rewrite select_any.
  2: reflexivity.
  2: { unfold is_physically_pressed. change (s_seq (set_any [k] s1)) with [Ev k Down v].
       cbn [ek]. unfold rfind_key, has_key. cbn. rewrite ?N.eqb_refl. reflexivity. }
  2: exact K3.
  assert (Hw : Forall (fun e => ek e <> k_any) (written [k] o)).
  { unfold written. apply Forall_flat_map. apply Forall_forall. intros e _.
    destruct (N.eqb_spec (ek e) k_any); repeat constructor; auto. }
  rewrite (apply_written _ _ [k] o) by (auto; repeat constructor; auto).
  destruct (apply_plays (TEvent (Ev k Down v)) (Some 0%nat) (written [k] o) (set_any [k] s1) [] held Hp Hw)
    as [E2 _]; [constructor|reflexivity|reflexivity|].
  rewrite E2. unfold finish_sequence.
  cbn [s_seq set_seq set_down set_buf set_any s1 idle finish_loop es app].
  rewrite contains_one by discriminate.
  unfold finish_input. cbn [es kstate_eqb set_es ek ev].
  reflexivity.
Qed.

Lemma match_any_no_press k v : is_keyboard_key k = true ->
  match_keys [ev0 k_any Down; ev0 k_any UpAsync] [Ev k Up v] = Some (NoMatch, [], None).
Proof.
  intros Hk. destruct (keyboard_real k Hk) as (K1 & K2 & K3 & K4).
  unfold match_keys. cbn [length Nat.add Nat.mul]. rewrite loop_step by (left; discriminate).
  cbn [hd]. unfold match_step. cbn [es ek ev0 ms_init ms_not ms_async ms_any ms_nmm ms_e ms_down ms_ign].
  cbn [kstate_eqb orb andb negb remove_key filter mem_key existsb find_index unmatched_async_pair].
  replace (unif_event (Ev k Up v) (ev0 k_any Down)) with false.
  2: { unfold unif_event, ev0. cbn [ek es kstate_eqb]. rewrite !andb_false_r.
       destruct (negb (unif_key k k_any)); [reflexivity|].
       destruct (N.eqb_spec k k_timeout); [contradiction|reflexivity]. }
  cbn. rewrite (proj2 (N.eqb_neq k k_timeout)) by exact K3. reflexivity.
Qed.

Lemma only_no_match k v dev s :
  is_keyboard_key k = true -> valid_device dev = true -> s_active s = [0%nat] ->
  match_input cs true [Ev k Up v] dev true s = (set_any [] s, RNo).
Proof.
  intros Hk Hd Hs. unfold match_input. rewrite Hd, Hs. unfold ub_unless. cbn [match_contexts nth_error].
  cbn [cs only_any nth_error]. rewrite only_device by auto.
  cbn [cx_inputs match_inputs in_seq is_nmm_mapping].
  change (kstate_eqb (es (ev0 k_any Down)) NoMightMatch) with false. cbn [andb].
  rewrite match_any_no_press by exact Hk. reflexivity.
Qed.

Lemma held_released e ci held : ek e <> k_ContextActive ->
  filter (keep_triggered (ek e) None) (held_as (TEvent e) ci held) = [] /\
  filter (fun x => negb (keep_triggered (ek e) None x)) (held_as (TEvent e) ci held)
    = held_as (TEvent e) ci held.
Proof.
  intros Hc. induction held as [|h r [IH1 IH2]]; [split; reflexivity|].
  cbn [held_as map filter]. fold (held_as (TEvent e) ci r).
  replace (keep_triggered (ek e) None (OD h (TEvent e) false false false ci)) with false.
  2: { unfold keep_triggered. cbn [od_trigger]. change (get_trigger_key (TEvent e)) with (ek e).
       rewrite N.eqb_refl. destruct (N.eqb_spec (ek e) k_ContextActive); [contradiction|reflexivity]. }
  cbn [negb]. rewrite IH1, IH2. split; reflexivity.
Qed.

Lemma release_held k v ci held s :
  is_keyboard_key k = true -> s_timeout s = None -> s_down s = held_as (TEvent (Ev k Down v)) ci held ->
  release_triggered k None s
  = set_down [] (set_buf (s_buf s ++ map (fun k => ev0 k Up) (rev held)) s).
Proof.
  intros Hk Ht Hd. unfold release_triggered. rewrite Hd.
  destruct (held_released (Ev k Down v) ci held) as [E1 E2]; [intros H; cbn in H; subst k; discriminate|].
  cbn [ek] in E1, E2. rewrite E1, E2. cbv zeta.
  replace (s_timeout (set_down [] _)) with (s_timeout s) by (destruct s; reflexivity).
  rewrite Ht. f_equal. f_equal. f_equal. unfold held_as. rewrite <- map_rev.
  rewrite filter_all; [rewrite map_map; reflexivity|].
  intros x Hx. apply in_map_iff in Hx. destruct Hx as (h & <- & _). reflexivity.
Qed.

Lemma release_any k v w dev held x pd rd a ub oof :
  is_keyboard_key k = true -> valid_device dev = true ->
  exists x' rd' a',
    update cs (Ev k Up w) dev
      (holds k v (held_as (TEvent (Ev k Down v)) (Some 0%nat) held) x pd rd a ub oof) =
    (idle x' pd rd' a' ub oof, map (fun k => ev0 k Up) (rev held)).
Proof.
  intros Hk Hd. destruct (keyboard_real k Hk) as (K1 & K2 & K3 & K4).
  unfold update. cbv zeta. unfold apply_input.
  set (s0 := set_exit _ _).
  replace (continue_output_on_release (Ev k Up w) None s0) with (s0, true) by reflexivity.
  cbn [negb].
  replace (suppress_not_timeout (Ev k Up w) s0) with (s0, true) by reflexivity.
  cbn [negb].
  assert (E1 : exists x' rd', merge_repeat (Ev k Up w) dev s0 =
    (holds k v (held_as (TEvent (Ev k Down v)) (Some 0%nat) held) x' pd rd' a ub oof, true)).
  { unfold merge_repeat. cbn [es]. destruct (dev =? s_rdev s0)%Z; do 2 eexists; reflexivity. }
  destruct E1 as (x' & rd' & ->). cbn [negb]. exists x', rd', [].
  unfold process_input. cbv zeta.
  set (s1 := set_seq _ (holds _ _ _ _ _ _ _ _ _)).
  replace (add_to_history cs (Ev k Up w) s1) with s1 by reflexivity.
  rewrite only_active by reflexivity.
  assert (E2 : prepare_up (Ev k Up w) s1 = set_seq [Ev k Up w] s1).
  { unfold prepare_up. cbn [es kstate_eqb]. change (s_timeout s1) with (@None cur_timeout). cbv iota.
    change (s_might s1) with false. cbv iota.
    change (s_seq s1) with [Ev k DownMatched v; Ev k Up w]. unfold find_key. cbn [find_index ek].
    unfold has_key at 1. cbn [ek]. rewrite N.eqb_refl. reflexivity. }
  rewrite E2.
  set (s2 := set_seq [Ev k Up w] s1).
  assert (E3 : unsuppress s2 = s2).
  { unfold unsuppress. replace (map _ (s_down s2)) with (s_down s2); [reflexivity|].
    change (s_down s2) with (held_as (TEvent (Ev k Down v)) (Some 0%nat) held).
    unfold held_as. rewrite map_map. reflexivity. }
  rewrite E3. change (weight (s_seq s2)) with 2%nat.
  cbn [apply_loop]. change (has_non_optional (s_seq s2)) with true. cbv iota.
  assert (E4 : apply_round cs (Ev k Up w) dev s2 =
    (set_any [] (set_seq [] (set_down [] (set_buf (map (fun k => ev0 k Up) (rev held)) s2))), false)).
  { unfold apply_round. cbn [es ek kstate_eqb andb]. rewrite (proj2 (N.eqb_neq k k_timeout)) by exact K3.
    change (s_seq s2) with [Ev k Up w]. cbn [negb].
    rewrite only_no_match by auto. cbv zeta. rewrite K4. cbn [andb negb].
    change (s_might (set_any [] s2)) with false. cbn [andb].
    unfold timeout_after_match, not_timeout_after_match.
    change (s_timeout (set_any [] s2)) with (@None cur_timeout). cbv iota.
    change (s_timeout (set_any [] s2)) with (@None cur_timeout). cbv iota.
    unfold forward_from_sequence. change (s_seq (set_any [] s2)) with [Ev k Up w].
    cbn [forward_loop es ek].
    rewrite (release_held k v (Some 0%nat) held) by (auto; reflexivity). reflexivity. }
  rewrite E4. cbn [has_non_optional s_seq set_any set_seq existsb].
  unfold finish_input. cbn [es kstate_eqb ek].
  rewrite (release_held k v (Some 0%nat) []) by (auto; reflexivity).
  rewrite only_active by reflexivity. cbn [rev map]. 
  cbn [s_buf set_any set_seq set_down set_buf].
  rewrite app_nil_r. reflexivity.
Qed.

(** The strokes of the keys [l]: pressed and released one after the other. *)
Definition strokes_of (l : list (key * Z)) : list call :=
  flat_map (fun x => [CInput (ev0 (fst x) Down) (snd x); CInput (ev0 (fst x) Up) (snd x)]) l.

Lemma typed_any l : at_once o ->
  Forall (fun x => is_keyboard_key (fst x) = true /\ valid_device (snd x) = true /\
                   plays [] (written [fst x] o) <> None) l ->
  forall x pd rd a ub oof,
  snd (run cs (strokes_of l) (idle x pd rd a ub oof)) = flat_map (fun x => typing o (fst x)) l.
Proof.
  intros Ho. induction 1 as [|[k dev] l (Hk & Hd & Hp) HF IH]; intros x pd rd a ub oof; [reflexivity|].
  cbn [fst snd] in *. cbn [strokes_of flat_map app fst snd run do_call]. fold (strokes_of l).
  destruct (plays [] (written [k] o)) as [held|] eqn:P; [|contradiction].
  destruct (press_any k 0 dev x pd rd a ub oof held Hk Hd Ho P) as (x1 & pd1 & rd1 & E1).
  unfold ev0. rewrite E1.
  destruct (release_any k 0 0 dev held x1 pd1 rd1 [k] ub oof Hk Hd) as (x2 & rd2 & a2 & E2).
  rewrite E2. specialize (IH x2 pd1 rd2 a2 ub oof).
  destruct (run cs (strokes_of l) _) as [s2 o2]. cbn [snd] in *. rewrite IH.
  unfold typing. rewrite P. rewrite app_assoc. reflexivity.
Qed.

Lemma typed_any_start l : at_once o ->
  Forall (fun x => is_keyboard_key (fst x) = true /\ valid_device (snd x) = true /\
                   plays [] (written [fst x] o) <> None) l ->
  snd (run cs (CContexts [0%nat] :: strokes_of l) init_state) = flat_map (fun x => typing o (fst x)) l.
Proof.
  intros Ho Hl. cbn [run do_call].
  replace (set_active_client_contexts cs [0%nat] init_state)
    with (idle 0 no_device no_device [] false false, @nil event) by reflexivity.
  pose proof (typed_any l Ho Hl 0%nat no_device no_device [] false false) as H.
  destruct (run cs (strokes_of l) _) as [s2 o2]. exact H.
Qed.
End OnlyAny.
