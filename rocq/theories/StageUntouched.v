(** A key which the configuration does not mention is output as it is pressed. *)
From Coq Require Import List Arith NArith ZArith Bool Lia.
From Verif Require Import Base Key Match MatchProofs Stage StageSpec StageFrame StageTerm StageOut StageSafe
  StuckSpec StuckMatch StageStuck UntouchedSpec.
Import ListNotations.
Local Open Scope N_scope.

(** * The matcher *)

Section Matcher.
Variable k : key.
Hypothesis Hk : device_button k.

Definition foreign (e : event) : Prop := ek e <> k /\ ek e <> k_any /\ es e <> NoMightMatch.

Lemma unif_key_foreign : forall x, x <> k -> x <> k_any -> unif_key k x = false /\ unif_key x k = false.
Proof.
  intros x H1 H2. destruct Hk as [_ [Ha _]].
  split; destruct (unif_key _ _) eqn:E; try reflexivity; exfalso; apply unif_key_same in E; auto.
Qed.

Lemma unif_event_foreign : forall se ee, ek se = k -> es se = Down -> foreign ee -> unif_event se ee = false.
Proof.
  intros se ee H1 H2 [H3 [H4 _]]. unfold unif_event. rewrite H1, H2. cbn [kstate_eqb].
  destruct (unif_key_foreign (ek ee) H3 H4) as [-> _]. rewrite !andb_false_r.
  destruct (_ && _); reflexivity.
Qed.

Lemma find_none : forall A (f : A -> bool) l, (forall x, In x l -> f x = false) -> find_index f l = None.
Proof.
  intros A f l H. destruct (find_index f l) as [i|] eqn:E; [exfalso|reflexivity].
  apply find_index_In in E. destruct E as [x [_ [H1 H2]]]. rewrite (H x H1) in H2. discriminate.
Qed.

Lemma step_foreign : forall ee se at_end m, ee = matches_none \/ foreign ee ->
  Forall (fun x => ek x <> k /\ ek x <> k_any) (ms_async m) -> ms_nmm m = false ->
  match match_step ee se at_end m with
  | MGo ae as_ m' => Forall (fun x => ek x <> k /\ ek x <> k_any) (ms_async m') /\ ms_nmm m' = false /\
      (as_ = true -> ~ (ek se = k /\ es se = Down))
  | MRet r _ => r <> NoMatch -> at_end = true \/ se = matches_none
  end.
Proof.
  intros ee se at_end m He Ha Hn.
  assert (Hee : ek ee <> k /\ ek ee <> k_any /\ es ee <> NoMightMatch).
  { destruct He as [->|He]; [|exact He]. destruct Hk as [H1 _]. repeat split; try discriminate; cbn; congruence. }
  assert (Hu : ek se = k -> es se = Down -> unif_event se ee = false).
  { intros. apply unif_event_foreign; auto. }
  unfold match_step. cbn [ms_async ms_not ms_ign ms_any ms_nmm ms_e ms_down].
  destruct (_ && mem_key (ek se) _); [intros H; contradiction|].
  destruct (_ || _).
  { split; [|split; [exact Hn|discriminate]]. apply Forall_app. split; [exact Ha|]. repeat constructor; tauto. }
  destruct (kstate_eqb (es ee) Not && _); [split; [exact Ha|split; [exact Hn|discriminate]]|].
  destruct (N.eqb_spec (ek ee) k_any) as [?|_]; [tauto|]. cbn [andb].
  destruct (unif_event se ee) eqn:E3.
  { split; [|split; [exact Hn|]].
    - apply Forall_forall. intros x Hx. apply filter_In in Hx. exact (proj1 (Forall_forall _ _) Ha x (proj1 Hx)).
    - intros _ [H1 H2]. specialize (Hu H1 H2). congruence. }
  destruct (_ && event_eqb se matches_none) eqn:E4.
  { intros _. right. apply andb_prop in E4. apply event_eqb_eq'. apply E4. }
  destruct (kstate_eqb (es ee) NoMightMatch) eqn:E5; [apply kstate_eqb_eq in E5; tauto|].
  rewrite Hn. cbn [andb].
  assert (Hf : ek se = k -> es se = Down ->
    find_index (fun x => kstate_eqb (es x) (match es se with Up => UpAsync | _ => DownAsync end)
                         && unif_key (ek se) (ek x)) (ms_async m) = None).
  { intros H1 _. apply find_none. intros x Hx. destruct (proj1 (Forall_forall _ _) Ha x Hx) as [X1 X2].
    rewrite H1. destruct (unif_key_foreign (ek x) X1 X2) as [-> _]. apply andb_false_r. }
  destruct (find_index _ (ms_async m)) as [i|] eqn:E6.
  { split; [|split; [reflexivity|]].
    - apply Forall_forall. intros x Hx. cbn [ms_async] in Hx. apply In_update_at in Hx.
      destruct Hx as [Hx|[y [Hy ->]]]; [exact (proj1 (Forall_forall _ _) Ha x Hx)|].
      assert (Hy' : In y (ms_async m)) by (eapply nth_error_In; eauto).
      exact (proj1 (Forall_forall _ _) Ha y Hy').
    - intros _ [H1 H2]. specialize (Hf H1 H2). congruence. }
  destruct (kstate_eqb (es se) DownMatched || kstate_eqb (es se) UpMatched) eqn:E7.
  { split; [exact Ha|split; [reflexivity|]]. intros _ [_ H2]. rewrite H2 in E7. discriminate. }
  clear E6 Hf. destruct (find_index _ (ms_async m)) as [i|] eqn:E8.
  { split; [|split; [reflexivity|discriminate]]. apply Forall_forall. intros x Hx. cbn [ms_async] in Hx.
    apply In_remove_at in Hx. exact (proj1 (Forall_forall _ _) Ha x Hx). }
  destruct (kstate_eqb (es ee) Down && _); [split; [exact Ha|split; [reflexivity|discriminate]]|].
  destruct ((ek se =? k_timeout) && _ && _) eqn:E9.
  { split; [exact Ha|split; [reflexivity|]]. intros _ [H1 _]. rewrite H1 in E9.
    destruct Hk as [_ [_ [Ht _]]]. destruct (N.eqb_spec k k_timeout); [contradiction|discriminate]. }
  destruct at_end; [auto|]. intros H. contradiction.
Qed.

(** What a press of the key occurs in matches nothing. *)
Lemma loop_foreign : forall fuel ex sq m r a t, Forall foreign ex -> no_none sq ->
  Forall (fun x => ek x <> k /\ ek x <> k_any) (ms_async m) -> ms_nmm m = false ->
  match_loop fuel ex sq m = Some (r, a, t) -> r <> NoMatch ->
  Forall (fun x => ~ (ek x = k /\ es x = Down)) sq.
Proof.
  induction fuel as [|fuel IH]; intros ex sq m r a t Hex Hsq Ha Hn H Hr; cbn [match_loop] in H.
  - destruct ex, sq; try discriminate. constructor.
  - assert (Hd : ex = [] /\ sq = [] \/
      match match_step (hd matches_none ex) (hd matches_none sq)
              (match sq with [] => true | _ => false end) m with
      | MRet r t => Some (r, ms_any m, t)
      | MGo ae as_ m' => match_loop fuel (tl_if ae ex) (tl_if as_ sq) m'
      end = Some (r, a, t)) by (destruct ex, sq; auto).
    clear H. destruct Hd as [[_ ->]|H]; [constructor|].
    assert (He : hd matches_none ex = matches_none \/ foreign (hd matches_none ex)).
    { destruct ex; [left; reflexivity|right]. exact (Forall_inv Hex). }
    pose proof (step_foreign (hd matches_none ex) (hd matches_none sq)
      (match sq with [] => true | _ => false end) m He Ha Hn) as Hs.
    destruct (match_step _ _ _ m) as [r' t'|ae as_ m'].
    + injection H as -> _ _. destruct sq as [|x sq]; [constructor|exfalso].
      destruct (Hs Hr) as [E|E]; [discriminate|]. cbn in E. subst x. apply (Forall_inv Hsq). reflexivity.
    + destruct Hs as [H1 [H2 H3]].
      assert (Hrest : Forall (fun x => ~ (ek x = k /\ es x = Down)) (tl_if as_ sq)).
      { eapply (IH (tl_if ae ex)); try exact H; auto.
        - destruct ae; [|exact Hex]. destruct ex; [exact Hex|]. exact (Forall_inv_tail Hex).
        - destruct as_; [|exact Hsq]. destruct sq; [exact Hsq|]. exact (Forall_inv_tail Hsq). }
      destruct as_; [|exact Hrest]. destruct sq as [|x sq]; [constructor|]. constructor; [|exact Hrest].
      apply H3. reflexivity.
Qed.

Lemma match_foreign : forall ex sq r a t, Forall foreign ex -> no_none sq ->
  match_keys ex sq = Some (r, a, t) -> r <> NoMatch ->
  Forall (fun x => ~ (ek x = k /\ es x = Down)) sq.
Proof.
  intros ex sq r a t Hex Hsq H Hr. eapply loop_foreign; try exact H; auto. constructor.
Qed.

(** A match of an input with a question mark ends with the last event of the history. *)
Definition keys_foreign (x : event) : Prop := ek x <> k /\ ek x <> k_any.

Lemma unif_key_none : forall x, unif_key k_none x = false.
Proof. reflexivity. Qed.
Lemma unif_event_none : forall a b, ek a = k_none \/ ek b = k_none -> unif_event a b = false.
Proof.
  intros a b H. unfold unif_event, unif_key. destruct H as [-> | ->]; cbn [N.eqb k_none orb];
    rewrite ?N.eqb_refl, ?orb_true_r; cbn [negb]; destruct (_ && _); [reflexivity| |reflexivity|];
    destruct (_ && _); reflexivity.
Qed.

Lemma step_question : forall ee se at_end m, ee = matches_none \/ foreign ee ->
  Forall keys_foreign (ms_async m) -> ms_nmm m = true ->
  match match_step ee se at_end m with
  | MGo ae as_ m' => Forall keys_foreign (ms_async m') /\ ms_nmm m' = true /\
      (as_ = true -> ek se = k -> es se = Down -> ae = false /\ ee <> matches_none /\
        exists r t, match_step ee matches_none true m' = MRet r t)
  | MRet r _ => r <> Matched
  end.
Proof.
  intros ee se at_end m He Ha Hn.
  assert (Hee : ek ee <> k /\ ek ee <> k_any /\ es ee <> NoMightMatch).
  { destruct He as [->|He]; [|exact He]. destruct Hk as [H1 _]. repeat split; try discriminate; cbn; congruence. }
  assert (Hu : ek se = k -> es se = Down -> unif_event se ee = false).
  { intros. apply unif_event_foreign; auto. }
  unfold match_step at 1. cbn [ms_async ms_not ms_ign ms_any ms_nmm ms_e ms_down].
  destruct (_ && mem_key (ek se) _); [discriminate|].
  destruct (_ || _) eqn:E1.
  { split; [|split; [exact Hn|discriminate]]. apply Forall_app. split; [exact Ha|]. constructor; [split; tauto|constructor]. }
  destruct (kstate_eqb (es ee) Not && _) eqn:E2; [split; [exact Ha|split; [exact Hn|discriminate]]|].
  destruct (N.eqb_spec (ek ee) k_any) as [?|Eany]; [tauto|]. cbn [andb].
  destruct (unif_event se ee) eqn:E3.
  { split; [|split; [exact Hn|]].
    - apply Forall_forall. intros x Hx. apply filter_In in Hx. exact (proj1 (Forall_forall _ _) Ha x (proj1 Hx)).
    - intros _ H1 H2. specialize (Hu H1 H2). congruence. }
  destruct (_ && event_eqb se matches_none) eqn:E4; [discriminate|].
  destruct (kstate_eqb (es ee) NoMightMatch) eqn:E5; [apply kstate_eqb_eq in E5; tauto|].
  rewrite Hn. cbn [andb].
  destruct (event_eqb ee matches_none) eqn:E10; [discriminate|].
  assert (Hf : ek se = k -> es se = Down ->
    find_index (fun x => kstate_eqb (es x) (match es se with Up => UpAsync | _ => DownAsync end)
                         && unif_key (ek se) (ek x)) (ms_async m) = None).
  { intros H1 _. apply find_none. intros x Hx. destruct (proj1 (Forall_forall _ _) Ha x Hx) as [X1 X2].
    rewrite H1. destruct (unif_key_foreign (ek x) X1 X2) as [-> _]. apply andb_false_r. }
  destruct (find_index _ (ms_async m)) as [i|] eqn:E6.
  { split; [|split; [reflexivity|]].
    - apply Forall_forall. intros x Hx. cbn [ms_async] in Hx. apply In_update_at in Hx.
      destruct Hx as [Hx|[y [Hy ->]]]; [exact (proj1 (Forall_forall _ _) Ha x Hx)|].
      assert (Hy' : In y (ms_async m)) by (eapply nth_error_In; eauto).
      exact (proj1 (Forall_forall _ _) Ha y Hy').
    - intros _ H1 H2. specialize (Hf H1 H2). congruence. }
  destruct (kstate_eqb (es se) DownMatched || kstate_eqb (es se) UpMatched) eqn:E7.
  { split; [exact Ha|split; [reflexivity|]]. intros _ _ H2. rewrite H2 in E7. discriminate E7. }
  clear E6 Hf. destruct (find_index _ (ms_async m)) as [i|] eqn:E8.
  { split; [|split; [reflexivity|discriminate]]. apply Forall_forall. intros x Hx. cbn [ms_async] in Hx.
    apply In_remove_at in Hx. exact (proj1 (Forall_forall _ _) Ha x Hx). }
  destruct (kstate_eqb (es ee) Down && _) eqn:E11; [split; [exact Ha|split; [reflexivity|discriminate]]|].
  destruct ((ek se =? k_timeout) && _ && _) eqn:E9.
  { split; [exact Ha|split; [reflexivity|]]. intros _ H1 _. rewrite H1 in E9.
    destruct Hk as [_ [_ [Ht _]]]. destruct (N.eqb_spec k k_timeout); [contradiction|discriminate E9]. }
  destruct (Nat.eqb (ms_e m) 1) eqn:E12.
  { destruct (negb (event_eqb se matches_none)); [|discriminate].
    split; [exact Ha|]. split; [reflexivity|]. intros _ H1 H2. split; [reflexivity|].
    split; [intros ->; discriminate E10|].
    unfold match_step. cbn [ms_async ms_not ms_ign ms_any ms_nmm ms_e ms_down].
    change (kstate_eqb (es matches_none) Down || kstate_eqb (es matches_none) DownMatched) with false. cbn [andb].
    rewrite E1, E2. apply N.eqb_neq in Eany. rewrite Eany. cbn [andb].
    rewrite (unif_event_none matches_none ee) by (left; reflexivity).
    destruct (_ && event_eqb matches_none matches_none); [eauto|]. rewrite E5, E10.
    rewrite find_none by (intros x _; cbn [ek matches_none]; rewrite unif_key_none; apply andb_false_r).
    change (kstate_eqb (es matches_none) DownMatched || kstate_eqb (es matches_none) UpMatched) with false. cbn iota.
    rewrite E8, E11. change (ek matches_none =? k_timeout) with false. cbn [andb]. rewrite E12. cbn [andb].
    change (event_eqb matches_none matches_none) with true. cbn [negb]. eauto. }
  destruct (kstate_eqb (es se) Up && _) eqn:E13.
  { split; [exact Ha|split; [reflexivity|]]. intros _ _ H2. rewrite H2 in E13. discriminate E13. }
  destruct at_end; discriminate.
Qed.

Lemma loop_question : forall fuel ex h x m r a t, Forall foreign ex -> ek x = k -> es x = Down ->
  Forall keys_foreign (ms_async m) -> ms_nmm m = true ->
  match_loop fuel ex (h ++ [x]) m = Some (r, a, t) -> r <> Matched.
Proof.
  induction fuel as [|fuel IH]; intros ex h x m r a t Hex Hx1 Hx2 Ha Hn H; cbn [match_loop] in H.
  - destruct ex, h; discriminate H.
  - assert (Hd : 
      match match_step (hd matches_none ex) (hd matches_none (h ++ [x])) false m with
      | MRet r t => Some (r, ms_any m, t)
      | MGo ae as_ m' => match_loop fuel (tl_if ae ex) (tl_if as_ (h ++ [x])) m'
      end = Some (r, a, t)) by (destruct ex, h; exact H).
    clear H.
    assert (He : hd matches_none ex = matches_none \/ foreign (hd matches_none ex)).
    { destruct ex; [left; reflexivity|right]. exact (Forall_inv Hex). }
    pose proof (step_question (hd matches_none ex) (hd matches_none (h ++ [x])) false m He Ha Hn) as Hs.
    destruct (match_step _ _ false m) as [r' t'|ae as_ m']; [injection Hd as -> _ _; exact Hs|].
    destruct Hs as [H1 [H2 H3]].
    assert (Hex' : Forall foreign (tl_if ae ex)).
    { destruct ae; [|exact Hex]. destruct ex; [exact Hex|]. exact (Forall_inv_tail Hex). }
    destruct as_; [|eapply IH; [exact Hex'|exact Hx1|exact Hx2|exact H1|exact H2|exact Hd]].
    destruct h as [|y h]; cbn [tl_if tl app hd] in *.
    + destruct (H3 eq_refl Hx1 Hx2) as [-> [Hne [r1 [t1 Hm]]]]. cbn [tl_if] in Hd.
      destruct ex as [|e ex]; [contradiction Hne; reflexivity|]. cbn [hd] in *.
      destruct fuel as [|fuel]; [discriminate Hd|]. cbn [match_loop hd] in Hd. rewrite Hm in Hd.
      injection Hd as -> _ _.
      pose proof (step_question e matches_none true m' He H1 H2) as Hs. rewrite Hm in Hs. exact Hs.
    + eapply IH; [exact Hex'|exact Hx1|exact Hx2|exact H1|exact H2|exact Hd].
Qed.

Lemma match_question : forall q ex h x r a t, ek q = k_none -> es q = NoMightMatch -> Forall foreign ex ->
  ek x = k -> es x = Down -> match_keys (q :: ex) (h ++ [x]) = Some (r, a, t) -> r <> Matched.
Proof.
  intros q ex h x r a t Hq1 Hq2 Hex Hx1 Hx2 H. unfold match_keys in H. cbn [length Nat.add] in H.
  cbn [match_loop hd] in H.
  assert (Hm : match_step q (hd matches_none (h ++ [x])) false ms_init = MGo true false (MS [] [] [] [] true 1 false)).
  { unfold match_step. cbn [ms_async ms_not ms_ign ms_any ms_nmm ms_e ms_down ms_init]. rewrite Hq2.
    cbn [kstate_eqb orb andb mem_key existsb]. rewrite andb_false_r.
    rewrite Hq1. change (k_none =? k_any) with false. cbn [andb].
    rewrite unif_event_none by (right; exact Hq1). change (k_none =? k_timeout) with false. reflexivity. }
  assert (Hd : match_loop (length ex + length (h ++ [x])) ex (h ++ [x]) (MS [] [] [] [] true 1 false) = Some (r, a, t)).
  { assert (Eb : match h ++ [x] with [] => true | _ => false end = false) by (destruct h; reflexivity).
    rewrite Eb, Hm in H. exact H. }
  refine (loop_question _ _ _ _ _ _ _ _ Hex Hx1 Hx2 _ _ Hd); [constructor|reflexivity].
Qed.

End Matcher.

(** * What is output of the key *)

Section Key.
Variable k : key.
Hypothesis Hk : device_button k.

Definition kd (s : state) : list out_down := filter (fun o => od_key o =? k) (s_down s).
Definition kbuf (s : state) : sequence := filter (has_key k) (s_buf s).
(** The stage holds the key because of the key itself, or not at all. *)
Definition khold (b : bool) (s : state) : Prop :=
  if b then exists o, kd s = [o] /\ get_trigger_key (od_trigger o) = k /\ od_temp o = false
  else kd s = [].
Definition ksame (s s' : state) : Prop :=
  forall b, khold b s -> khold b s' /\ kbuf s' = kbuf s.

Lemma ksame_refl : forall s, ksame s s.
Proof. intros s b H. auto. Qed.
Lemma ksame_trans : forall a b c, ksame a b -> ksame b c -> ksame a c.
Proof. intros a b c H1 H2 x H. destruct (H1 x H) as [H3 H4]. destruct (H2 x H3). split; congruence. Qed.
Lemma ksame_eq : forall s s', s_down s' = s_down s -> s_buf s' = s_buf s -> ksame s s'.
Proof. intros s s' H1 H2 b H. unfold khold, kd, kbuf in *. rewrite H1, H2. auto. Qed.

Lemma khold_temp : forall b s, khold b s -> forall o, In o (s_down s) -> od_key o = k -> od_temp o = false.
Proof.
  intros b s H o H1 H2.
  assert (H3 : In o (kd s)) by (apply filter_In; split; [exact H1|apply N.eqb_eq; exact H2]).
  destruct b; cbn in H.
  - destruct H as [x [H4 [_ H5]]]. rewrite H4 in H3. destruct H3 as [<-|[]]. exact H5.
  - rewrite H in H3. contradiction.
Qed.

Lemma khold_same : forall b s s', kd s' = kd s -> khold b s -> khold b s'.
Proof. intros b s s' H. unfold khold. rewrite H. auto. Qed.

Lemma filter_app_other : forall (l : sequence) x, ek x <> k -> filter (has_key k) (l ++ [x]) = filter (has_key k) l.
Proof.
  intros l x H. rewrite filter_app. cbn. unfold has_key. destruct (N.eqb_spec (ek x) k); [contradiction|].
  apply app_nil_r.
Qed.

Lemma pop_back_other : forall (l : sequence) x, back l = Some x -> ek x <> k ->
  filter (has_key k) (pop_back l) = filter (has_key k) l.
Proof.
  intros l x H Hx. destruct l as [|y l] using rev_ind; [reflexivity|]. clear IHl.
  assert (E : back (l ++ [y]) = Some y /\ pop_back (l ++ [y]) = l).
  { split; [|apply removelast_last].
    unfold back. rewrite rev_unit. reflexivity. }
  destruct E as [E1 E2]. rewrite E1 in H. injection H as ->. rewrite E2, filter_app_other; auto.
Qed.

Lemma reapply_k : forall j l buf rea d buf' rea' ret,
  reapply_loop j l buf rea = (d, buf', rea', ret) ->
  (forall o, In o l -> od_key o = k -> od_temp o = false) ->
  filter (fun o => od_key o =? k) d = filter (fun o => od_key o =? k) l /\
  filter (has_key k) buf' = filter (has_key k) buf /\ map od_key d = map od_key l /\
  (j = k -> ret = false).
Proof.
  intros j. induction l as [|o l IH]; intros buf rea d buf' rea' ret H Ht; cbn [reapply_loop] in H.
  - injection H as <- <- <- <-. auto.
  - assert (Ht' : forall o, In o l -> od_key o = k -> od_temp o = false) by (intros; apply Ht; cbn; auto).
    assert (Ho : od_temp o = true -> od_key o <> k).
    { intros H1 H2. rewrite (Ht o (or_introl eq_refl) H2) in H1. discriminate. }
    destruct (od_temp o) eqn:Eo; cbn [andb] in H.
    + specialize (Ho eq_refl).
      destruct (negb (od_suppressed o)).
      * destruct (N.eqb_spec (od_key o) j) as [E|E].
        -- injection H as <- <- <- <-. cbn [filter map od_key]. destruct (N.eqb_spec (od_key o) k); [contradiction|].
           split; [reflexivity|]. split; [apply filter_app_other; exact Ho|]. split; [reflexivity|]. congruence.
        -- destruct (reapply_loop j l (buf ++ [ev0 (od_key o) Down]) true) as [[[r b] re] rt] eqn:Er.
           injection H as <- <- <- <-. destruct (IH _ _ _ _ _ _ Er Ht') as [H1 [H2 [H3 H4]]].
           cbn [filter map od_key]. destruct (N.eqb_spec (od_key o) k); [contradiction|].
           split; [exact H1|]. split; [rewrite H2; apply filter_app_other; exact Ho|]. split; [congruence|exact H4].
      * destruct ((od_key o =? j) && is_common_modifier j && _) eqn:E.
        -- injection H as <- <- <- <-. apply andb_prop in E. destruct E as [E E3]. apply andb_prop in E.
           destruct E as [E1 _]. apply N.eqb_eq in E1. cbn [filter map od_key].
           destruct (N.eqb_spec (od_key o) k); [contradiction|]. split; [reflexivity|].
           split; [|split; [reflexivity|congruence]].
           destruct (back buf) as [x|] eqn:Eb; [|discriminate]. apply event_eqb_eq' in E3.
           eapply pop_back_other; [exact Eb|]. rewrite E3. cbn. congruence.
        -- destruct (reapply_loop j l buf rea) as [[[r b] re] rt] eqn:Er.
           injection H as <- <- <- <-. destruct (IH _ _ _ _ _ _ Er Ht') as [H1 [H2 [H3 H4]]].
           cbn [filter map]. rewrite H1, H3. auto.
    + destruct (reapply_loop j l buf rea) as [[[r b] re] rt] eqn:Er.
      injection H as <- <- <- <-. destruct (IH _ _ _ _ _ _ Er Ht') as [H1 [H2 [H3 H4]]].
      cbn [filter map]. rewrite H1, H3. auto.
Qed.

Lemma filter_update_other : forall (g : out_down -> out_down) l i,
  (forall o, od_key (g o) = od_key o) ->
  (forall o, nth_error l i = Some o -> od_key o <> k) ->
  filter (fun o => od_key o =? k) (update_at i g l) = filter (fun o => od_key o =? k) l.
Proof.
  intros g. induction l as [|o l IH]; intros i Hg Hi; [destruct i; reflexivity|].
  destruct i as [|i]; cbn [update_at filter].
  - rewrite Hg. destruct (N.eqb_spec (od_key o) k) as [E|E]; [|reflexivity]. exfalso. exact (Hi o eq_refl E).
  - rewrite (IH i); auto.
Qed.

Lemma filter_update_this : forall (g : out_down -> out_down) l i x,
  (forall o, od_key (g o) = od_key o) -> (exists o, nth_error l i = Some o /\ od_key o = k) ->
  filter (fun o => od_key o =? k) l = [x] ->
  filter (fun o => od_key o =? k) (update_at i g l) = [g x].
Proof.
  intros g. induction l as [|o l IH]; intros i x Hg [y [Hy Hyk]] Hf; [destruct i; discriminate|].
  destruct i as [|i]; cbn [update_at filter] in *.
  - injection Hy as ->. rewrite Hg, Hyk, N.eqb_refl in *. injection Hf as -> ->. reflexivity.
  - assert (Hin : In y (filter (fun o => od_key o =? k) l)).
    { apply filter_In. split; [eapply nth_error_In; eauto|apply N.eqb_eq; exact Hyk]. }
    destruct (od_key o =? k).
    + injection Hf as -> Hf. rewrite Hf in Hin. contradiction.
    + apply IH; auto. exists y; auto.
Qed.

Lemma filter_remove_other : forall l i,
  (forall o, nth_error l i = Some o -> od_key o <> k) ->
  filter (fun o => od_key o =? k) (remove_at i l) = filter (fun o => od_key o =? k) l.
Proof.
  induction l as [|o l IH]; intros i Hi; [destruct i; reflexivity|].
  destruct i as [|i]; cbn [remove_at filter].
  - destruct (N.eqb_spec (od_key o) k) as [E|E]; [|reflexivity]. exfalso. exact (Hi o eq_refl E).
  - rewrite (IH i); auto.
Qed.

Lemma buf_remove_other : forall (l : sequence) i,
  (forall x, nth_error l i = Some x -> ek x <> k) ->
  filter (has_key k) (remove_at i l) = filter (has_key k) l.
Proof.
  induction l as [|o l IH]; intros i Hi; [destruct i; reflexivity|].
  destruct i as [|i]; cbn [remove_at filter].
  - unfold has_key at 2. destruct (N.eqb_spec (ek o) k) as [E|E]; [|reflexivity]. exfalso. exact (Hi o eq_refl E).
  - rewrite (IH i); auto.
Qed.

Lemma update_output_k : forall e t ci s, ek e <> k -> ksame s (update_output e t ci s).
Proof.
  intros e t ci s He b Hb. unfold update_output.
  assert (Hi : forall i, find_index (fun o => od_key o =? ek e) (s_down s) = Some i ->
    forall o, nth_error (s_down s) i = Some o -> od_key o <> k).
  { intros i Ei o Ho. destruct (find_index_In _ _ _ _ Ei) as [x [Hx1 [_ Hx]]]. apply N.eqb_eq in Hx. congruence. }
  assert (Hemit : forall x s', ek x <> k -> kd s' = kd s -> kbuf s' = kbuf s ->
    khold b (emit x s') /\ kbuf (emit x s') = kbuf s).
  { intros x s' Hx H1 H2. split; [eapply khold_same; [|exact Hb]; exact H1|].
    unfold kbuf, emit. cbn [s_buf set_buf]. rewrite filter_app_other by exact Hx. exact H2. }
  set (it := find_index _ (s_down s)) in *.
  destruct (es e) eqn:Ee; auto.
  - destruct it as [i|] eqn:Ei; [|auto]. destruct (nth_error (s_down s) i) as [o|] eqn:Eo; [|auto].
    specialize (Hi i eq_refl).
    destruct (_ && is_virtual_key _).
    { apply Hemit; [exact He| |reflexivity]. unfold kd. cbn [s_down set_down].
      apply filter_update_other; [reflexivity|exact Hi]. }
    destruct (_ && negb _).
    { assert (H1 : kbuf (match rfind_key (s_buf s) (ek e) with
                         | Some j => set_buf (remove_at j (s_buf s)) s | None => s end) = kbuf s /\
                   s_down (match rfind_key (s_buf s) (ek e) with
                         | Some j => set_buf (remove_at j (s_buf s)) s | None => s end) = s_down s).
      { destruct (rfind_key (s_buf s) (ek e)) as [j|] eqn:Ej; [|auto]. split; [|reflexivity].
        unfold kbuf. cbn [s_buf set_buf]. apply buf_remove_other. intros x Hx.
        destruct (rfind_last _ _ _ _ Ej Hx) as [xa [xb [_ [Hxk _]]]]. congruence. }
      set (s1 := match rfind_key _ _ with Some _ => _ | None => _ end) in *. destruct H1 as [H1 H2].
      split; [|exact H1]. eapply khold_same; [|exact Hb]. unfold kd. cbn [s_down set_down]. rewrite H2.
      apply filter_update_other; [reflexivity|exact Hi]. }
    apply Hemit; [exact He| |reflexivity]. unfold kd. cbn [s_down set_down].
    destruct (_ =? _); [apply filter_remove_other; exact Hi|apply filter_update_other; [reflexivity|exact Hi]].
  - destruct (reapply_loop (ek e) (s_down s) (s_buf s) (s_reapplied s)) as [[[d bf] rea] ret] eqn:Er.
    destruct (reapply_k _ _ _ _ _ _ _ _ Er (khold_temp b s Hb)) as [H1 [H2 [H3 _]]].
    set (s1 := set_reapplied rea (set_buf bf (set_down d s))).
    assert (Hs1 : kd s1 = kd s /\ kbuf s1 = kbuf s) by (split; assumption).
    destruct Hs1 as [Hs1 Hs2].
    destruct ret; [split; [eapply khold_same; eauto|exact Hs2]|].
    apply Hemit; [exact He| |].
    + destruct it as [i|] eqn:Ei.
      * destruct (s_reapplied s1).
        all: unfold kd; cbn [s_down set_down emit set_buf]; rewrite filter_update_other; [exact Hs1|reflexivity|].
        all: intros o Ho; assert (Hm : nth_error (map od_key d) i = Some (od_key o)) by (apply map_nth_error; exact Ho).
        all: rewrite H3 in Hm; destruct (nth_error (s_down s) i) as [o'|] eqn:Eo'.
        all: try (rewrite (map_nth_error _ _ _ Eo') in Hm; injection Hm as Hm; rewrite <- Hm; eapply Hi; eauto; fail).
        all: exfalso; apply nth_error_None in Eo'; rewrite <- (map_length od_key) in Eo'; apply nth_error_None in Eo'; congruence.
      * destruct (ek e =? k_timeout); [exact Hs1|]. unfold kd. cbn [s_down set_down].
        rewrite filter_app. cbn [filter od_key]. destruct (N.eqb_spec (ek e) k); [contradiction|].
        rewrite app_nil_r. exact Hs1.
    + destruct it as [i|] eqn:Ei.
      * destruct (s_reapplied s1); [|exact Hs2]. unfold kbuf, emit. cbn [s_buf set_buf set_down].
        rewrite filter_app_other by exact He. exact Hs2.
      * destruct (ek e =? k_timeout); exact Hs2.
  - destruct it as [i|] eqn:Ei; [|auto]. destruct (_ || _); [auto|].
    destruct (nth_error (s_down s) i) as [o|] eqn:Eo; [|auto]. specialize (Hi i eq_refl).
    destruct (od_temp o).
    + split; [|reflexivity]. eapply khold_same; [|exact Hb]. unfold kd. cbn [s_down set_down].
      apply filter_update_other; [reflexivity|exact Hi].
    + split.
      * eapply khold_same; [|exact Hb]. unfold kd. cbn [s_down set_down emit set_buf].
        apply filter_update_other; [reflexivity|exact Hi].
      * unfold kbuf. cbn [s_buf set_down emit set_buf]. apply filter_app_other. exact He.
Qed.

(** The press of the key itself. *)
Lemma update_output_press : forall s b, khold b s ->
  let s' := update_output (ev0 k Down) (TKey k) None s in
  khold true s' /\ exists x, kbuf s' = kbuf s ++ x /\ (x = [ev0 k Down] \/ (b = true /\ x = [up k; ev0 k Down])).
Proof.
  intros s b Hb. cbn zeta. unfold update_output. cbn [es ek ev0].
  destruct (reapply_loop k (s_down s) (s_buf s) (s_reapplied s)) as [[[d bf] rea] ret] eqn:Er.
  destruct (reapply_k _ _ _ _ _ _ _ _ Er (khold_temp b s Hb)) as [H1 [H2 [H3 H4]]].
  rewrite (H4 eq_refl). set (s1 := set_reapplied rea (set_buf bf (set_down d s))).
  assert (Hs1 : kd s1 = kd s /\ kbuf s1 = kbuf s) by (split; assumption).
  destruct Hs1 as [Hs1 Hs2].
  assert (Hemit : forall s', kbuf (emit (ev0 k Down) s') = kbuf s' ++ [ev0 k Down]).
  { intros s'. unfold kbuf, emit. cbn [s_buf set_buf]. rewrite filter_app. cbn. unfold has_key. cbn.
    rewrite N.eqb_refl. reflexivity. }
  destruct (find_index (fun o => od_key o =? k) (s_down s)) as [i|] eqn:Ei.
  - destruct (find_index_In _ _ _ _ Ei) as [x [Hx1 [Hx2 Hx3]]]. apply N.eqb_eq in Hx3.
    destruct b.
    2:{ exfalso. cbn in Hb. assert (Hin : In x (kd s)) by (apply filter_In; split; [auto|apply N.eqb_eq; auto]).
        rewrite Hb in Hin. contradiction. }
    destruct Hb as [o [Ho1 [Ho2 Ho3]]].
    assert (Hn : exists o, nth_error d i = Some o /\ od_key o = k).
    { assert (Hm : nth_error (map od_key d) i = Some k) by (rewrite H3, <- Hx3; apply map_nth_error; exact Hx1).
      destruct (nth_error d i) as [y|] eqn:Ey.
      - exists y. split; [reflexivity|]. rewrite (map_nth_error _ _ _ Ey) in Hm. congruence.
      - exfalso. apply nth_error_None in Ey. rewrite <- (map_length od_key) in Ey. apply nth_error_None in Ey. congruence. }
    assert (Hd : filter (fun o => od_key o =? k) d = [o]) by (rewrite H1; exact Ho1).
    assert (Hg : forall s2 g, s_down s2 = d -> (forall o, od_key (g o) = od_key o) ->
      (forall o, od_trigger (g o) = od_trigger o) -> (forall o, od_temp (g o) = false) ->
      khold true (emit (ev0 k Down) (set_down (update_at i g (s_down s2)) s2))).
    { intros s2 g E2 G1 G2 G3. cbn. exists (g o). split; [|rewrite G2, G3; auto].
      unfold kd. cbn [s_down set_down emit set_buf]. rewrite E2. apply filter_update_this; auto. }
    change (s_reapplied s1) with rea. destruct rea; (split; [apply Hg; reflexivity|]); rewrite Hemit; unfold kbuf in *;
      cbn [s_buf set_down emit set_buf].
    + rewrite filter_app, Hs2. cbn. unfold has_key. cbn. rewrite N.eqb_refl. rewrite <- app_assoc.
      exists [up k; ev0 k Down]. auto.
    + exists [ev0 k Down]. rewrite Hs2. auto.
  - assert (Hnil : kd s = []).
    { destruct b; [|exact Hb]. destruct Hb as [o [Ho _]].
      assert (Hin : In o (kd s)) by (rewrite Ho; left; reflexivity).
      apply filter_In in Hin. exfalso. destruct Hin as [Hi1 Hi2].
      rewrite (proj1 (Forall_forall _ _) (find_index_none _ _ _ Ei) o Hi1) in Hi2. discriminate. }
    destruct (N.eqb_spec k k_timeout) as [E|_]; [destruct Hk as [_ [_ [Ht _]]]; contradiction|].
    split.
    + unfold khold, kd. cbn [s_down set_down emit set_buf]. rewrite filter_app.
      replace (filter (fun o => od_key o =? k) (s_down s1)) with (@nil out_down) by (symmetry; rewrite <- Hnil; exact Hs1).
      cbn [filter od_key app]. rewrite N.eqb_refl. eexists. split; [reflexivity|]. auto.
    + exists [ev0 k Down]. rewrite Hemit. split; [|auto]. f_equal. exact Hs2.
Qed.

(** Outputs of mappings. *)
Definition outer (e : event) : Prop := ek e <> k /\ ek e <> k_any /\ es e <> OutputOnRelease.

Lemma apply_output_k : forall o t ci s, Forall outer o ->
  ksame s (apply_output o t ci s) /\ s_onrel (apply_output o t ci s) = s_onrel s.
Proof.
  induction o as [|e o IH]; intros t ci s H; [split; [apply ksame_refl|reflexivity]|].
  destruct (Forall_inv H) as [H1 [H2 H3]]. apply Forall_inv_tail in H. cbn [apply_output].
  destruct (N.eqb_spec (ek e) k_any) as [?|_]; [contradiction|].
  assert (G : forall s1, ksame s s1 -> s_onrel s1 = s_onrel s ->
    ksame s (apply_output o t ci s1) /\ s_onrel (apply_output o t ci s1) = s_onrel s).
  { intros s1 G1 G2. destruct (IH t ci s1 H) as [G3 G4]. split; [eapply ksame_trans; eauto|congruence]. }
  assert (U : forall x, ek x = ek e -> ksame s (update_output x t ci s) /\ s_onrel (update_output x t ci s) = s_onrel s).
  { intros x Hx. split; [apply update_output_k; congruence|]. pose proof (update_output_frame x t ci s) as F.
    unfold same_out in F. tauto. }
  destruct (es e) eqn:Ee; try contradiction;
    try (apply G; apply (U e eq_refl)).
  destruct (is_virtual_key (ek e)); [|apply G; apply (U e eq_refl)].
  destruct (existsb _ _); [apply G; apply (U (ev0 (ek e) Down) eq_refl)|].
  apply G; [apply ksame_refl|reflexivity].
Qed.

Lemma filter_comm : forall A (f g : A -> bool) l, filter f (filter g l) = filter g (filter f l).
Proof.
  induction l as [|x l IH]; [reflexivity|]. cbn. destruct (f x) eqn:Ef, (g x) eqn:Eg; cbn; rewrite ?Ef, ?Eg, ?IH; reflexivity.
Qed.
Lemma filter_rev_comm : forall A (f : A -> bool) l, filter f (rev l) = rev (filter f l).
Proof.
  induction l as [|x l IH]; [reflexivity|]. cbn. rewrite filter_app, IH. cbn. destruct (f x); [reflexivity|].
  apply app_nil_r.
Qed.
Lemma filter_ups : forall l, filter (has_key k) (map (fun o => ev0 (od_key o) Up) l) =
  map (fun o => ev0 (od_key o) Up) (filter (fun o => od_key o =? k) l).
Proof.
  induction l as [|x l IH]; [reflexivity|]. cbn. rewrite IH. unfold has_key. cbn.
  destruct (od_key x =? k); reflexivity.
Qed.

Lemma release_down : forall j ci s,
  kd (release_triggered j ci s) = filter (keep_triggered j ci) (kd s) /\
  kbuf (release_triggered j ci s) = kbuf s ++ map (fun o => ev0 (od_key o) Up)
    (filter (fun o => negb (od_temp o)) (rev (filter (fun o => negb (keep_triggered j ci o)) (kd s)))).
Proof.
  intros j ci s.
  assert (H : s_down (release_triggered j ci s) = filter (keep_triggered j ci) (s_down s) /\
    s_buf (release_triggered j ci s) = s_buf s ++ map (fun o => ev0 (od_key o) Up)
    (filter (fun o => negb (od_temp o)) (rev (filter (fun o => negb (keep_triggered j ci o)) (s_down s))))).
  { unfold release_triggered. cbn [s_timeout set_down set_buf]. destruct (s_timeout s) as [c|]; [destruct (_ =? _)|]; auto. }
  destruct H as [H1 H2]. unfold kd, kbuf. rewrite H1, H2. split; [apply filter_comm|].
  rewrite filter_app, filter_ups. f_equal. f_equal. rewrite filter_comm. f_equal. rewrite filter_rev_comm. f_equal.
  apply filter_comm.
Qed.

Lemma release_other : forall j ci s, j <> k -> ksame s (release_triggered j ci s).
Proof.
  intros j ci s Hj b Hb. destruct (release_down j ci s) as [H1 H2].
  assert (Hf : Forall (fun o => keep_triggered j ci o = true) (kd s)).
  { destruct b; cbn in Hb; [|rewrite Hb; constructor]. destruct Hb as [o [-> [Ho _]]].
    constructor; [|constructor]. unfold keep_triggered. rewrite Ho.
    destruct (N.eqb_spec k j); [congruence|reflexivity]. }
  assert (E : filter (keep_triggered j ci) (kd s) = kd s /\
              filter (fun o => negb (keep_triggered j ci o)) (kd s) = []).
  { clear -Hf. induction Hf as [|o l Ho _ [I1 I2]]; [auto|]. cbn. rewrite Ho, I1, I2. auto. }
  destruct E as [E1 E2]. rewrite E1 in H1. rewrite E2 in H2. cbn in H2. rewrite app_nil_r in H2.
  split; [eapply khold_same; eauto|exact H2].
Qed.

Lemma release_this : forall b s, khold b s ->
  khold false (release_triggered k None s) /\
  kbuf (release_triggered k None s) = kbuf s ++ (if b then [up k] else []).
Proof.
  intros b s Hb. destruct (release_down k None s) as [H1 H2].
  destruct b; cbn in Hb.
  - destruct Hb as [o [E [Ho1 Ho2]]]. rewrite E in H1, H2. cbn [filter] in H1, H2.
    assert (Ek : keep_triggered k None o = false).
    { unfold keep_triggered. rewrite Ho1, N.eqb_refl. destruct Hk as [_ [_ [_ [Hc _]]]].
      destruct (N.eqb_spec k k_ContextActive); [contradiction|reflexivity]. }
    rewrite Ek in H1, H2. cbn in H2. rewrite Ho2 in H2. cbn in H2.
    assert (Eo : od_key o = k).
    { assert (Hin : In o (kd s)) by (rewrite E; left; reflexivity). apply filter_In in Hin. apply N.eqb_eq. apply Hin. }
    rewrite Eo in H2. auto.
  - rewrite Hb in H1, H2. auto.
Qed.

(** * The sequence *)

(** Predicates which are not affected by marking events as matched. *)
Definition stable (P : event -> Prop) : Prop :=
  (forall x, P x -> P (set_es DownMatched x)) /\ (forall x, P x -> ek x = k_timeout -> P (set_es UpMatched x)).
Definition no_press (x : event) : Prop := ~ (ek x = k /\ es x = Down).
Definition only_press (x : event) : Prop := ek x = k -> is_press x.
Definition some_key (x : event) : Prop := ek x <> k_none.

Lemma no_press_stable : stable no_press.
Proof. split; intros x Hx; [|intros _]; intros [_ H]; discriminate. Qed.
Lemma only_press_stable : stable only_press.
Proof.
  split; intros x Hx; [right; reflexivity|]. intros H1 H2. exfalso. destruct Hk as [_ [_ [H3 _]]].
  cbn in H2. congruence.
Qed.
Lemma some_key_stable : stable some_key.
Proof. split; intros x Hx; auto. Qed.

Lemma finish_stable : forall P n l, stable P -> Forall P l -> Forall P (finish_loop n l).
Proof.
  intros P n l [HP1 HP2]. revert l. induction n as [|n IH]; intros [|x l] H; cbn [finish_loop]; auto.
  pose proof (Forall_inv H) as Hx. apply Forall_inv_tail in H.
  destruct (es x); try (destruct (N.eqb_spec (ek x) k_timeout); auto).
  all: destruct (contains_ev _ _); auto.
Qed.

Lemma finish_done : forall n l, (length l <= n)%nat ->
  Forall (fun x => es x = DownMatched \/ (es x = UpMatched /\ ek x = k_timeout)) (finish_loop n l).
Proof.
  induction n as [|n IH]; intros [|x l] Hl; cbn [finish_loop]; try constructor; cbn [length] in Hl; try lia.
  assert (Hl' : (length l <= n)%nat) by lia. specialize (IH l Hl').
  destruct (es x); try (destruct (N.eqb_spec (ek x) k_timeout); auto; fail).
  all: destruct (contains_ev _ _); auto.
Qed.

Lemma finish_front : forall n a b, (n <= length a)%nat ->
  exists a', finish_loop n (a ++ b) = a' ++ b /\ forall P, stable P -> Forall P a -> Forall P a'.
Proof.
  induction n as [|n IH]; intros a b Hn; [exists a; destruct a; auto|].
  destruct a as [|x a]; [inversion Hn|]. cbn [length] in Hn. apply le_S_n in Hn.
  destruct (IH a b Hn) as [a' [E H]]. cbn [app finish_loop]. rewrite E.
  assert (H' : forall P, stable P -> Forall P (x :: a) -> Forall P a').
  { intros P HP Hx. apply H; auto. exact (Forall_inv_tail Hx). }
  destruct (es x); try (destruct (N.eqb_spec (ek x) k_timeout) as [Et|Et];
    [exists (set_es UpMatched x :: a'); split; [reflexivity|]; intros P HP Hx; constructor;
       [apply HP; [exact (Forall_inv Hx)|exact Et]|apply H'; auto]
    |exists a'; split; [reflexivity|exact H']]).
  all: destruct (contains_ev _ _); [exists a'; split; [reflexivity|exact H']|].
  all: exists (set_es DownMatched x :: a'); split; [reflexivity|]; intros P HP Hx; constructor;
       [apply HP; exact (Forall_inv Hx)|apply H'; auto].
Qed.

Lemma forward_stable : forall P l pre, stable P -> Forall P (pre ++ l) -> Forall P (forward_seq pre l).
Proof.
  intros P l pre [HP1 HP2]. revert pre. induction l as [|x l IH]; intros pre H; cbn [forward_seq].
  - rewrite app_nil_r in H. exact H.
  - assert (H0 : Forall P (pre ++ l)).
    { apply Forall_app in H. destruct H as [H1 H2]. apply Forall_app. split; [exact H1|exact (Forall_inv_tail H2)]. }
    destruct (es x); auto.
    + destruct (contains_ev _ _); auto. apply Forall_app in H. destruct H as [H1 H2]. apply Forall_app.
      split; [exact H1|]. constructor; [apply HP1; exact (Forall_inv H2)|exact (Forall_inv_tail H2)].
    + destruct (contains_ev _ _); auto. apply IH. rewrite <- app_assoc. exact H.
Qed.

(** Forwarding while the press of the key is last in the sequence. *)
Lemma forward_pending : forall l pre s b,
  Forall (fun x => es x = DownMatched) pre -> Forall no_press l -> (b = true -> Forall only_press l) ->
  khold b s -> (forall c, s_timeout s = Some c -> ct_output c = None) ->
  let s' := forward_loop pre (l ++ [ev0 k Down]) s in
  (exists a, s_seq s' = a ++ [ev0 k Down] /\ (forall P, stable P -> Forall P (pre ++ l) -> Forall P a) /\
             khold b s' /\ kbuf s' = kbuf s) \/
  (Forall no_press (s_seq s') /\ Forall only_press (s_seq s') /\ khold true s' /\
   exists x, kbuf s' = kbuf s ++ x /\ (x = [ev0 k Down] \/ (b = true /\ x = [up k; ev0 k Down]))).
Proof.
  induction l as [|y l IH]; intros pre s b Hpre Hl Hb Hh Ht; cbn zeta.
  - right. cbn [app forward_loop es ev0 ek].
    assert (E : contains_ev [ev0 k Down] (ev0 k Up) = false).
    { cbn. unfold event_eqb. cbn. rewrite andb_false_r. reflexivity. }
    change {| ek := k; es := Down; ev := 0 |} with (ev0 k Down). rewrite E. clear E.
    assert (Es : match s_timeout s with
      | Some c => match ct_output c with Some _ => s | None => update_output (ev0 k Down) (TKey k) None s end
      | None => update_output (ev0 k Down) (TKey k) None s end = update_output (ev0 k Down) (TKey k) None s).
    { destruct (s_timeout s) as [c|]; [|reflexivity]. rewrite (Ht c eq_refl). reflexivity. }
    change {| ek := k; es := Down; ev := 0 |} with (ev0 k Down) in *.
    rewrite Es. destruct (update_output_press s b Hh) as [U1 U2].
    set (s1 := update_output (ev0 k Down) (TKey k) None s) in *. cbn [s_seq set_seq].
    split; [|split; [|split; [exact U1|exact U2]]]; apply Forall_app; split;
      try (repeat constructor; unfold no_press, only_press, is_press; cbn; auto; intros [_ X]; discriminate);
      (eapply Forall_impl; [|exact Hpre]); intros x Hx; cbn beta in Hx.
    + intros [_ H]. congruence.
    + intros _. right. exact Hx.
  - pose proof (Forall_inv Hl) as Hy. apply Forall_inv_tail in Hl.
    assert (Hb' : b = true -> Forall only_press l) by (intros E; exact (Forall_inv_tail (Hb E))).
    cbn [app forward_loop].
    assert (Hdrop : forall s1, (khold b s1 /\ kbuf s1 = kbuf s) ->
      exists a, s_seq (set_seq (pre ++ l ++ [ev0 k Down]) s1) = a ++ [ev0 k Down] /\
        (forall P, stable P -> Forall P (pre ++ y :: l) -> Forall P a) /\
        khold b (set_seq (pre ++ l ++ [ev0 k Down]) s1) /\ kbuf (set_seq (pre ++ l ++ [ev0 k Down]) s1) = kbuf s).
    { intros s1 Hs1. exists (pre ++ l). split; [cbn; apply app_assoc|]. split; [|exact Hs1].
      intros P _ HP. apply Forall_app in HP. destruct HP as [H1 H2]. apply Forall_app.
      split; [exact H1|exact (Forall_inv_tail H2)]. }
    assert (Hup : es y <> Down -> es y <> DownMatched ->
      khold b (release_triggered (ek y) None s) /\ kbuf (release_triggered (ek y) None s) = kbuf s).
    { intros N1 N2. destruct (N.eq_dec (ek y) k) as [Ek|Ek]; [|apply (release_other _ _ _ Ek _ Hh)].
      destruct b.
      - exfalso. destruct (Forall_inv (Hb eq_refl) Ek); contradiction.
      - rewrite Ek. destruct (release_this false s Hh) as [R1 R2]. rewrite app_nil_r in R2. auto. }
    destruct (es y) eqn:Ey; try (left; apply Hdrop, Hup; discriminate).
    + assert (Ek : ek y <> k) by (intros E; apply Hy; auto).
      pose proof (update_output_k y (TKey (ek y)) None s Ek b Hh) as Hu.
      destruct (contains_ev _ _); [left; apply Hdrop; exact Hu|].
      left. exists (pre ++ set_es DownMatched y :: l). split; [cbn; rewrite <- app_assoc; reflexivity|].
      split.
      * intros P HP HF. apply Forall_app in HF. destruct HF as [H1 H2]. apply Forall_app. split; [exact H1|].
        constructor; [apply HP; exact (Forall_inv H2)|exact (Forall_inv_tail H2)].
      * destruct (s_timeout s) as [c|]; [destruct (ct_output c)|]; (split; [|]); try apply Hu; auto.
    + assert (Hu : update_output y (TKey (ek y)) None s = s) by (unfold update_output; rewrite Ey; reflexivity).
      rewrite Hu. destruct (contains_ev _ _); [left; apply Hdrop; auto|].
      destruct (IH (pre ++ [y]) s b) as [R|R]; auto.
      * apply Forall_app. auto.
      * left. destruct R as [a [R1 [R2 R3]]]. exists a. split; [exact R1|]. split; [|exact R3].
        intros P HP HF. apply R2; [exact HP|]. rewrite <- app_assoc. exact HF.
Qed.

(** Forwarding when there is no press of the key. *)
Definition kstep (b : bool) (l : sequence) (s s' : state) : Prop :=
  (khold b s' /\ kbuf s' = kbuf s) \/
  (b = true /\ ~ Forall only_press l /\ khold false s' /\ kbuf s' = kbuf s ++ [up k]).

Lemma forward_calm : forall l pre s b, Forall no_press l -> khold b s -> kstep b l s (forward_loop pre l s).
Proof.
  induction l as [|y l IH]; intros pre s b Hl Hh; [left; auto|].
  pose proof (Forall_inv Hl) as Hy. apply Forall_inv_tail in Hl. cbn [forward_loop].
  assert (Hup : es y <> Down -> es y <> DownMatched ->
    kstep b (y :: l) s (set_seq (pre ++ l) (release_triggered (ek y) None s))).
  { intros N1 N2. destruct (N.eq_dec (ek y) k) as [Ek|Ek]; [|left; apply (release_other _ _ _ Ek _ Hh)].
    rewrite Ek. destruct (release_this b s Hh) as [R1 R2]. destruct b.
    - right. split; [reflexivity|]. split; [|split; [exact R1|exact R2]].
      intros HF. destruct (Forall_inv HF Ek); contradiction.
    - left. rewrite app_nil_r in R2. split; [exact R1|exact R2]. }
  destruct (es y) eqn:Ey; try (apply Hup; discriminate).
  - assert (Ek : ek y <> k) by (intros E; apply Hy; auto).
    pose proof (update_output_k y (TKey (ek y)) None s Ek b Hh) as Hu.
    left. destruct (contains_ev _ _); [exact Hu|].
    destruct (s_timeout s) as [c|]; [destruct (ct_output c)|]; (split; [|]); try apply Hu; auto.
  - assert (Hu : update_output y (TKey (ek y)) None s = s) by (unfold update_output; rewrite Ey; reflexivity).
    rewrite Hu. destruct (contains_ev _ _); [left; auto|].
    destruct (IH (pre ++ [y]) s b Hl Hh) as [R|[R1 [R2 [R3 R4]]]]; [left; exact R|right].
    repeat (split; [assumption|]). split; [|auto]. intros HF. apply R2. exact (Forall_inv_tail HF).
Qed.

Lemma closed_drop : forall a x b, x <> up k -> closed (other k) (a ++ x :: b) -> closed (other k) (a ++ b).
Proof.
  induction a as [|y a IH]; intros x b Hx H; cbn [app closed] in *; [tauto|]. destruct H as [H1 H2].
  split; [|eapply IH; eauto]. intros Hp Hd. specialize (H1 Hp Hd).
  assert (Ey : ek y = k).
  { unfold other in Hd. destruct (N.eqb_spec (ek y) k); [assumption|discriminate]. }
  rewrite Ey in *. apply in_app_or in H1. apply in_or_app. destruct H1 as [H1|[H1|H1]]; auto. congruence.
Qed.

Lemma closed_mark : forall a x b, is_press x -> closed (other k) (a ++ x :: b) ->
  closed (other k) (a ++ set_es DownMatched x :: b).
Proof.
  induction a as [|y a IH]; intros x b Hx H; cbn [app closed] in *.
  - destruct H as [H1 H2]. split; [|exact H2]. intros _ Hd. apply H1; auto.
  - destruct H as [H1 H2]. split; [|apply IH; auto]. intros Hp Hd. specialize (H1 Hp Hd).
    apply in_app_or in H1. apply in_or_app. destruct H1 as [H1|[H1|H1]]; [auto| |right; right; auto].
    exfalso. rewrite H1 in Hx. destruct Hx; discriminate.
Qed.

Lemma forward_closed : forall l pre,
  Forall (fun x => es x = DownMatched /\ (ek x = k -> ~ In (up k) l)) pre ->
  closed (other k) (pre ++ l) -> closed (other k) (forward_seq pre l).
Proof.
  induction l as [|x l IH]; intros pre Hpre Hc; cbn [forward_seq].
  - rewrite app_nil_r in Hc. exact Hc.
  - assert (Hup : x = up k -> closed (other k) (pre ++ l)).
    { intros ->. apply closed_true.
      - eapply Forall_impl; [|exact Hpre]. intros y [Hy1 Hy2] _. unfold other.
        destruct (N.eqb_spec (ek y) k) as [E|E]; [|reflexivity]. exfalso. apply (Hy2 E). left; reflexivity.
      - apply closed_app_r in Hc. exact (proj2 Hc). }
    assert (Hdrop : closed (other k) (pre ++ l)).
    { destruct (event_eqb x (up k)) eqn:E.
      - apply Hup. apply event_eqb_eq'. exact E.
      - eapply closed_drop; [|exact Hc]. intros ->. unfold event_eqb in E. cbn in E. rewrite !N.eqb_refl in E. discriminate. }
    destruct (es x) eqn:Ex; try exact Hdrop.
    + destruct (contains_ev _ _); [exact Hdrop|]. apply closed_mark; [left; exact Ex|exact Hc].
    + destruct (contains_ev (x :: l) (ev0 (ek x) Up)) eqn:Ec; [exact Hdrop|].
      apply IH; [|rewrite <- app_assoc; exact Hc]. apply Forall_app. split.
      * eapply Forall_impl; [|exact Hpre]. intros y [Hy1 Hy2]. split; [exact Hy1|]. intros E Hi. apply (Hy2 E). right; exact Hi.
      * constructor; [|constructor]. split; [exact Ex|]. intros E Hi.
        assert (Hx : contains_ev (x :: l) (ev0 (ek x) Up) = true).
        { apply existsb_exists. exists (up k). split; [right; exact Hi|]. rewrite E. unfold event_eqb, up, ev0. cbn.
          rewrite N.eqb_refl. reflexivity. }
        congruence.
Qed.

(** * A round *)

(** Not-timeouts keep no output. *)
(** Timeouts of some kind, among them those which must not be exceeded, have no output
    yet. *)
Variable kind : event -> Prop.
Hypothesis Hkind : forall te, is_not_timeout (es te) = true -> kind te.
Definition tn (s : state) : Prop := forall c, s_timeout s = Some c -> kind (ct_event c) -> ct_output c = None.
(** The event does not end timeouts of this kind. *)
Definition timing (e : event) : Prop := ek e = k_timeout -> forall te, kind te -> is_not_timeout (es te) = true.
Lemma tn_same : forall s s', s_timeout s' = s_timeout s -> tn s -> tn s'.
Proof. intros s s' H Ht c Hc. apply Ht. congruence. Qed.
Lemma tn_none : forall s, s_timeout s = None -> tn s.
Proof. intros s H c Hc. congruence. Qed.

Lemma match_timeout_event : forall fuel ex sq m r a te,
  match_loop fuel ex sq m = Some (r, a, Some te) -> ek te = k_timeout.
Proof.
  induction fuel as [|fuel IH]; intros ex sq m r a te H; cbn [match_loop] in H.
  - destruct ex, sq; discriminate.
  - assert (Hd : match match_step (hd matches_none ex) (hd matches_none sq)
              (match sq with [] => true | _ => false end) m with
      | MRet r t => Some (r, ms_any m, t)
      | MGo ae as_ m' => match_loop fuel (tl_if ae ex) (tl_if as_ sq) m'
      end = Some (r, a, Some te)) by (destruct ex, sq; auto; discriminate).
    clear H. destruct (match_step _ _ _ m) as [r' t'|ae as_ m'] eqn:E; [|eapply IH; exact Hd].
    injection Hd as -> _ ->. unfold match_step in E.
    cbn [ms_async ms_not ms_ign ms_any ms_nmm ms_e ms_down] in E.
    repeat match type of E with
    | (if ?b then _ else _) = _ => let B := fresh in destruct b eqn:B; try discriminate E
    | match find_index ?f ?l with _ => _ end = _ => destruct (find_index f l); try discriminate E
    end.
    injection E as _ <-.
    match goal with H : (ek ?x =? k_timeout) && _ = true |- _ =>
      apply andb_prop in H; destruct H as [H _]; apply N.eqb_eq in H; exact H end.
Qed.

Lemma on_might_k : forall t sq u s, (forall te, t = Some te -> ek te <> k) ->
  ksame s (on_might_match t sq u s) /\ (tn s -> tn (on_might_match t sq u s)).
Proof.
  intros t sq u s Ht. unfold on_might_match. destruct t as [te|]; [|split; [apply ksame_refl|auto]].
  specialize (Ht te eq_refl).
  assert (He : ksame s (emit te s)).
  { intros b Hb. split; [exact Hb|]. unfold kbuf. cbn. apply filter_app_other. exact Ht. }
  destruct (find_last_down_event sq) as [tr|]; [|split; [exact He|intros H; exact H]].
  destruct (match s_timeout (emit te s) with Some _ => _ | None => _ end).
  - split; [intros b Hb; exact (He b Hb)|]. intros _ c Hc. cbn in Hc. injection Hc as <-. reflexivity.
  - destruct u; [|split; [exact He|intros H; exact H]].
    split; [|intros H; exact H]. intros b Hb. split; [exact Hb|]. unfold kbuf, pop_back. cbn.
    rewrite removelast_last. reflexivity.
Qed.

(** * A round *)

Section Rounds.
Variable cs : list context.
(** What is known of the events of the sequence, and of sequences which might match or
    match. *)
Variable good : event -> Prop.
Variables might matched : sequence -> Prop.
(** The history and what follows if an input with a question mark matches it. *)
Variable hist : sequence.
Hypothesis Hhist : forall c i a t, In c cs -> In i (cx_inputs c) -> is_nmm_mapping (in_seq i) = true ->
  match_keys (in_seq i) hist = Some (Matched, a, t) -> forall sq, matched sq.
Hypothesis Hmatch : forall c i sq r a t, In c cs -> In i (cx_inputs c) -> is_nmm_mapping (in_seq i) = false ->
  Forall good sq ->
  match_keys (in_seq i) sq = Some (r, a, t) -> (r = MightMatch -> might sq) /\ (r = Matched -> matched sq).
Hypothesis Hout : forall c o, In c cs -> In o (context_outputs c) -> Forall outer o.

Definition res_k (sq : sequence) (r : min_result) : Prop :=
  match r with
  | RNo => True
  | RMight _ _ => might sq
  | RMatch _ o _ _ => matched sq /\ Forall outer o
  end.

Lemma gives_outer : forall c i o, In c cs -> gives cs c i o -> Forall outer o.
Proof.
  intros c i o Hc [_ [[_ H]|[_ [c' [m [H1 [H2 [_ <-]]]]]]]].
  - apply (Hout c); [exact Hc|]. apply in_or_app. left. eapply nth_error_In; eauto.
  - apply (Hout c'); [exact H1|]. apply in_or_app. right. apply in_map. exact H2.
Qed.

Lemma match_inputs_k : forall first sq dev u ci c l s s' res,
  In c cs -> incl l (cx_inputs c) -> Forall good sq -> s_hist s = hist ->
  match_inputs cs first sq dev u ci c l s = (s', res) ->
  ksame s s' /\ (tn s -> tn s') /\ match res with Some r => res_k sq r | None => True end.
Proof.
  induction l as [|i l IH]; intros s s' res Hc Hl Hsq Hs H; cbn [match_inputs] in H.
  - injection H as <- <-. split; [apply ksame_refl|auto].
  - assert (Hi : In i (cx_inputs c)) by (apply Hl; left; reflexivity).
    assert (Hl' : incl l (cx_inputs c)) by (intros x Hx; apply Hl; right; exact Hx).
    destruct (is_nmm_mapping (in_seq i) && (negb first || _)); [eapply IH; eauto|].
    destruct (is_nmm_mapping (in_seq i) && (dev =? any_device)%Z); [eapply IH; eauto|].
    destruct (match_keys (in_seq i) (if is_nmm_mapping (in_seq i) then s_hist s else sq)) as [[[r anys] t]|] eqn:Em.
    2:{ injection H as <- <-. split; [apply ksame_eq; reflexivity|]. split; [intros Ht; exact Ht|exact Logic.I]. }
    set (s1 := ub_unless _ (set_any anys s)) in *.
    assert (H1 : ksame s s1 /\ (tn s -> tn s1) /\ s_hist s1 = hist).
    { unfold s1, ub_unless. destruct (match in_seq i with [] => _ | _ => _ end);
        (split; [apply ksame_eq; reflexivity|]; split; [intros Ht; exact Ht|exact Hs]). }
    clearbody s1. destruct H1 as [H1 [H1t H1h]].
    assert (HI : forall s' res, match_inputs cs first sq dev u ci c l s1 = (s', res) ->
      ksame s s' /\ (tn s -> tn s') /\ match res with Some r => res_k sq r | None => True end).
    { intros s0 res0 H0. destruct (IH _ _ _ Hc Hl' Hsq H1h H0) as [G1 [G2 G3]].
      split; [eapply ksame_trans; eauto|]. auto. }
    assert (Hno : (r = MightMatch -> is_nmm_mapping (in_seq i) = false -> might sq) /\ (r = Matched -> matched sq)).
    { destruct (is_nmm_mapping (in_seq i)) eqn:En.
      - split; [discriminate|]. intros ->. rewrite Hs in Em. eapply Hhist; eauto.
      - destruct (Hmatch c i sq r anys t Hc Hi En Hsq Em). auto. }
    destruct Hno as [Hno1 Hno2].
    destruct r.
    + eapply HI; eauto.
    + destruct (first && negb (is_nmm_mapping (in_seq i))) eqn:Ef; [|eapply HI; eauto]. injection H as <- <-.
      apply andb_prop in Ef. destruct Ef as [_ Ef]. apply negb_true_iff in Ef.
      destruct (on_might_k t sq u s1) as [G1 G2].
      { intros te ->. apply match_timeout_event in Em. rewrite Em. destruct Hk as [_ [_ [Ht _]]]. congruence. }
      split; [eapply ksame_trans; eauto|]. split; [auto|]. apply Hno1; [reflexivity|exact Ef].
    + destruct (find_output cs (s_active s1) ci c (in_out i)) as [r o| |] eqn:Ef.
      * injection H as <- <-. split; [exact H1|]. split; [exact H1t|].
        split; [apply Hno2; reflexivity|]. eapply gives_outer; [exact Hc|]. eapply find_output_gives; eauto.
      * eapply HI; eauto.
      * injection H as <- <-. split; [eapply ksame_trans; [exact H1|apply ksame_eq; reflexivity]|].
        split; [intros Ht; exact (H1t Ht)|exact Logic.I].
Qed.

Lemma match_contexts_k : forall first sq dev u act s s' res, Forall good sq -> s_hist s = hist ->
  match_contexts cs first sq dev u act s = (s', res) ->
  ksame s s' /\ (tn s -> tn s') /\ res_k sq res.
Proof.
  induction act as [|ci act IH]; intros s s' res Hsq Hs H; cbn [match_contexts] in H.
  - injection H as <- <-. split; [apply ksame_refl|]. split; [auto|exact Logic.I].
  - destruct (nth_error cs ci) as [c|] eqn:Ec.
    2:{ injection H as <- <-. split; [apply ksame_eq; reflexivity|]. split; [intros Ht; exact Ht|exact Logic.I]. }
    destruct (device_matches_filter c dev); [|eapply IH; eauto].
    destruct (match_inputs_frame cs first sq dev u ci c (cx_inputs c) s) as [Hf _].
    destruct (match_inputs cs first sq dev u ci c (cx_inputs c) s) as [s1 r] eqn:Em. cbn [fst] in Hf.
    assert (Hs1 : s_hist s1 = hist) by (unfold same_match in Hf; intuition congruence).
    destruct (match_inputs_k _ _ _ _ _ _ _ _ _ _ (nth_error_In _ _ Ec) (incl_refl _) Hsq Hs Em) as [H1 [H2 H3]].
    destruct r as [r|].
    + injection H as <- <-. auto.
    + destruct (IH _ _ _ Hsq Hs1 H) as [G1 [G2 G3]]. split; [eapply ksame_trans; eauto|]. auto.
Qed.

Lemma match_input_k : forall first sq dev u s s' res, Forall good sq -> s_hist s = hist ->
  match_input cs first sq dev u s = (s', res) ->
  ksame s s' /\ (tn s -> tn s') /\ res_k sq res.
Proof.
  intros first sq dev u s s' res Hsq Hs H. unfold match_input in H.
  assert (Hs0 : s_hist (ub_unless (valid_device dev) s) = hist) by (unfold ub_unless; destruct (valid_device dev); exact Hs).
  destruct (match_contexts_k _ _ _ _ _ _ _ _ Hsq Hs0 H) as [H1 [H2 H3]]. clear Hs0.
  unfold ub_unless in *. destruct (valid_device dev); [auto|].
  split; [eapply ksame_trans; [|exact H1]; apply ksame_eq; reflexivity|]. split; [intros Ht; apply H2; exact Ht|exact H3].
Qed.

Lemma match_prefixes_k : forall n dev u s s' res, Forall good (s_seq s) -> s_hist s = hist ->
  match_prefixes cs n dev u s = (s', res) ->
  ksame s s' /\ (tn s -> tn s') /\
  match res with Some (len, r) => res_k (firstn len (s_seq s)) r | None => True end.
Proof.
  induction n as [|n IH]; intros dev u s s' res Hsq Hs H; cbn [match_prefixes] in H.
  - injection H as <- <-. split; [apply ksame_refl|]. auto.
  - destruct (Nat.ltb 1 (S n)); [|injection H as <- <-; split; [apply ksame_refl|]; auto].
    destruct (negb _); [injection H as <- <-; split; [apply ksame_refl|]; auto|].
    destruct (match_input cs false (firstn n (s_seq s)) dev u s) as [s1 r] eqn:Em.
    destruct (match_input_k _ _ _ _ _ _ _ (Forall_firstn' _ _ n _ Hsq) Hs Em) as [H1 [H2 H3]].
    assert (E1 : s_seq s1 = s_seq s /\ s_hist s1 = hist).
    { destruct (match_input_frame cs false (firstn n (s_seq s)) dev u s) as [Hf _].
      rewrite Em in Hf. cbn in Hf. unfold same_match in Hf. intuition congruence. }
    destruct E1 as [E1 Hs1].
    assert (HI : forall s' res, match_prefixes cs n dev u s1 = (s', res) ->
      ksame s s' /\ (tn s -> tn s') /\
      match res with Some (len, r) => res_k (firstn len (s_seq s)) r | None => True end).
    { intros s0 res0 H0. rewrite <- E1 in Hsq. destruct (IH _ _ _ _ _ Hsq Hs1 H0) as [G1 [G2 G3]]. rewrite E1 in G3.
      split; [eapply ksame_trans; eauto|]. auto. }
    destruct r as [|inp ci|r o inp ci]; auto.
    injection H as <- <-. auto.
Qed.

Lemma timeout_tn : forall e so r s, timing e -> tn s -> tn (fst (timeout_after_match e so r s)) /\
  (ek e <> k_timeout -> snd (timeout_after_match e so r s) = r /\
   (r = RNo -> forall c, s_timeout (fst (timeout_after_match e so r s)) = Some c -> ct_output c = None)).
Proof.
  intros e so r s Htim Ht. unfold timeout_after_match.
  destruct (s_timeout s) as [c|] eqn:Es; [|cbn; split; [exact Ht|]; intros _; split; [reflexivity|congruence]].
  destruct (is_not_timeout (es (ct_event c))) eqn:En.
  - cbn. split; [exact Ht|]. intros _. split; [reflexivity|]. intros _ c' Hc'.
    assert (c' = c) by congruence. subst c'. apply Ht; auto.
  - destruct (N.eqb_spec (ek e) k_timeout) as [E|E].
    + split; [|congruence].
      assert (G : forall o n, tn (set_timeout (Some (CT (ct_event c) (ct_trigger c) o n)) s)).
      { intros o n c' Hc'. cbn in Hc'. injection Hc' as <-. cbn. intros Hp. specialize (Htim E _ Hp). congruence. }
      destruct r; try exact Ht. destruct (ct_output c); [destruct (oref_eqb _ _); exact Ht|].
      destruct so; [exact Ht|apply G].
    + split.
      * destruct r; try exact Ht. intros c' Hc'. cbn in Hc'. injection Hc' as <-. reflexivity.
      * intros _. destruct r; cbn; (split; [reflexivity|]); try discriminate.
        intros _ c' Hc'. injection Hc' as <-. reflexivity.
Qed.

Lemma not_timeout_tn : forall r s, tn s -> tn (not_timeout_after_match r s) /\
  ((forall c, s_timeout s = Some c -> ct_output c = None) ->
   forall c, s_timeout (not_timeout_after_match r s) = Some c -> ct_output c = None).
Proof.
  intros r s Ht. unfold not_timeout_after_match. destruct (s_timeout s) as [c|] eqn:Es; [|split; [exact Ht|intros _ c Hc; congruence]].
  destruct (is_not_timeout (es (ct_event c))) eqn:En; [|split; [exact Ht|intros H c0 Hc0; apply H; congruence]].
  destruct r; try (split; [exact Ht|intros H c0 Hc0; apply H; congruence]). split.
  - intros c' Hc' _. cbn in Hc'. injection Hc' as <-. cbn. apply Ht; auto.
  - intros H c' Hc'. cbn in Hc'. injection Hc' as <-. cbn. auto.
Qed.

Lemma release_tn : forall j ci s, (tn s -> tn (release_triggered j ci s)) /\
  s_onrel (release_triggered j ci s) = s_onrel s.
Proof.
  intros j ci s. unfold release_triggered. cbn [s_timeout set_down set_buf].
  destruct (s_timeout s) as [c|] eqn:E; [destruct (_ =? _)|]; (split; [|reflexivity]).
  - intros _. apply tn_none. reflexivity.
  - intros Ht. exact Ht.
  - intros Ht. exact Ht.
Qed.

Lemma update_tn : forall e t ci s, (tn s -> tn (update_output e t ci s)) /\ s_onrel (update_output e t ci s) = s_onrel s.
Proof.
  intros e t ci s. pose proof (update_output_frame e t ci s) as F. unfold same_out in F.
  split; [apply tn_same; tauto|tauto].
Qed.

Lemma forward_tn : forall l pre s, (tn s -> tn (forward_loop pre l s)) /\ s_onrel (forward_loop pre l s) = s_onrel s.
Proof.
  induction l as [|x l IH]; intros pre s; [auto|]. cbn [forward_loop].
  destruct (es x); try (apply (release_tn (ek x) None s)).
  all: destruct (contains_ev _ _); [apply (update_tn x (TKey (ek x)) None s)|].
  - destruct (s_timeout s) as [c|] eqn:E; [destruct (ct_output c)|];
      try (apply (update_tn x (TKey (ek x)) None s)). auto.
  - apply IH.
Qed.

(** The outcomes of a round. *)
Inductive round_k (e : event) (s s' : state) : bool -> Prop :=
| rk_virtual : forall s1 n, is_virtual_key (ek e) = true -> same_match s s1 -> ksame s s1 -> tn s1 ->
    s' = finish_sequence n s1 -> round_k e s s' true
| rk_might : forall s1, might (s_seq s) -> same_match s s1 -> ksame s s1 -> tn s1 ->
    s' = set_might true s1 -> round_k e s s' true
| rk_match : forall s1 len o t ci, matched (firstn len (s_seq s)) -> Forall outer o ->
    same_match s s1 -> ksame s s1 -> tn s1 ->
    (s' = finish_sequence len (apply_output o t ci s1) \/
     s' = set_might false (finish_sequence len (apply_output o t ci s1))) -> round_k e s s' false
| rk_forward : forall s1, same_match s s1 -> ksame s s1 -> tn s1 ->
    (ek e <> k_timeout -> forall c, s_timeout s1 = Some c -> ct_output c = None) ->
    (s' = forward_from_sequence s1 \/ s' = set_might false (forward_from_sequence s1)) -> round_k e s s' false.

Lemma round_cases : forall e dev s s' brk, apply_round cs e dev s = (s', brk) ->
  timing e -> Forall good (s_seq s) -> s_hist s = hist -> tn s -> round_k e s s' brk.
Proof.
  intros e dev s s' brk H Htim Hsq Hhs Ht. unfold apply_round in H.
  set (u := kstate_eqb (es e) Up && negb (ek e =? k_timeout)) in *.
  destruct (match_input_frame cs true (s_seq s) dev u s) as [Ha _].
  destruct (match_input cs true (s_seq s) dev u s) as [s1 res] eqn:Em. cbn [fst] in *.
  destruct (match_input_k _ _ _ _ _ _ _ Hsq Hhs Em) as [K1 [T1 R1]]. specialize (T1 Ht).
  assert (E1 : s_seq s1 = s_seq s) by (unfold same_match in Ha; tauto).
  assert (Hhs1 : s_hist s1 = hist) by (unfold same_match in Ha; intuition congruence).
  destruct (is_virtual_key (ek e) && _) eqn:Ev.
  { injection H as <- <-. apply andb_prop in Ev. eapply rk_virtual; eauto. tauto. }
  assert (Htail : forall s2 len res2 so, same_match s s2 -> ksame s s2 -> tn s2 ->
    res_k (firstn len (s_seq s)) res2 -> (forall i c, res2 <> RMight i c) ->
    (let '(s, res) := timeout_after_match e so res2 s2 in
     let s := not_timeout_after_match res s in
     match res with
     | RMatch _ o inp ci =>
         let t := select_trigger e inp o s in
         let s := apply_output o t (Some ci) s in
         let s := finish_sequence len s in
         ((if so then s else set_might false s), false)
     | _ =>
         let s := forward_from_sequence s in
         ((if s_might s && negb (has_non_optional (s_seq s)) then set_might false s else s), false)
     end) = (s', brk) -> round_k e s s' brk).
  { clear H Em R1 K1 T1. intros s2 len res2 so S2 K2 T2 R2 Hm H.
    destruct (timeout_after_match_frame e so res2 s2) as [F1 [_ [_ [F4 [_ F6]]]]].
    destruct (timeout_tn e so res2 s2 Htim T2) as [T3 T3'].
    destruct (timeout_after_match e so res2 s2) as [s3 res3]. cbn [fst snd] in *.
    destruct (not_timeout_after_match_frame res3 s3) as [G1 [_ [_ [G4 _]]]].
    destruct (not_timeout_tn res3 s3 T3) as [T4 T4'].
    set (s4 := not_timeout_after_match res3 s3) in *. cbn zeta in H.
    assert (S4 : same_match s s4) by (repeat (eapply same_match_trans; eauto)).
    assert (K4 : ksame s s4).
    { eapply ksame_trans; [exact K2|]. apply ksame_eq; [|congruence]. unfold same_match in *. intuition congruence. }
    assert (Hfw : res3 = RNo -> (let s := forward_from_sequence s4 in
         ((if s_might s && negb (has_non_optional (s_seq s)) then set_might false s else s), false)) = (s', brk) ->
      round_k e s s' brk).
    { intros Er Hx. cbn zeta in Hx.
      assert (Hs' : (s' = forward_from_sequence s4 \/ s' = set_might false (forward_from_sequence s4)) /\ brk = false).
      { destruct (s_might (forward_from_sequence s4) && _); injection Hx as <- <-; auto. }
      destruct Hs' as [Hs' ->]. eapply rk_forward; eauto.
      intros Hne. apply T4'. destruct (T3' Hne) as [Er' Hr']. apply Hr'. congruence. }
    destruct res3 as [|inp ci|r o inp ci].
    - apply Hfw; auto.
    - exfalso. destruct F6 as [F6|F6]; [|discriminate]. exact (Hm _ _ (eq_sym F6)).
    - destruct F6 as [F6|F6]; [|discriminate]. rewrite <- F6 in R2. destruct R2 as [R2 R3].
      assert (Hs' : (s' = finish_sequence len (apply_output o (select_trigger e inp o s4) (Some ci) s4) \/
        s' = set_might false (finish_sequence len (apply_output o (select_trigger e inp o s4) (Some ci) s4))) /\ brk = false).
      { destruct so; injection H as <- <-; auto. }
      destruct Hs' as [Hs' ->]. eapply rk_match; eauto. }
  destruct res as [|inp ci|r o inp ci].
  - cbn [negb andb] in H. destruct (s_might s1).
    + destruct (match_prefixes_frame cs (length (s_seq s)) dev u s1) as [Hpf [_ Hpf']].
      destruct (match_prefixes cs (length (s_seq s)) dev u s1) as [s2 r2] eqn:Emp. cbn [fst snd] in *.
      assert (Hsq1 : Forall good (s_seq s1)) by (rewrite E1; exact Hsq).
      destruct (match_prefixes_k _ _ _ _ _ _ Hsq1 Hhs1 Emp) as [K2 [T2 R2]]. rewrite E1 in R2.
      destruct r2 as [[len r']|].
      * refine (Htail s2 len r' true _ _ _ R2 _ H);
          [eapply same_match_trans; eauto|eapply ksame_trans; eauto|apply T2; exact T1|].
        intros i c Ec. destruct (Hpf' _ _ eq_refl) as [_ [_ [x1 [x2 [x3 [x4 Hx]]]]]]. congruence.
      * refine (Htail s2 (length (s_seq s)) RNo false _ _ _ Logic.I _ H);
          [eapply same_match_trans; eauto|eapply ksame_trans; eauto|apply T2; exact T1|discriminate].
    + refine (Htail s1 (length (s_seq s)) RNo false Ha K1 T1 Logic.I _ H). discriminate.
  - injection H as <- <-. eapply rk_might; eauto.
  - cbn [negb andb] in H. refine (Htail s1 (length (s_seq s)) (RMatch r o inp ci) false Ha K1 T1 _ _ H); [|discriminate].
    rewrite firstn_all. exact R1.
Qed.

Lemma on_context_k : forall e ci s, s_onrel s = [] -> ek e = k_ContextActive ->
  ksame s (on_context_active_event cs e ci s) /\ (tn s -> tn (on_context_active_event cs e ci s)) /\
  s_onrel (on_context_active_event cs e ci s) = [].
Proof.
  intros e ci s Ho He. unfold on_context_active_event.
  destruct (nth_error cs ci) as [c|] eqn:Ec.
  2:{ split; [apply ksame_eq; reflexivity|]. split; [intros H; exact H|exact Ho]. }
  set (s1 := ub_unless _ s).
  assert (H1 : ksame s s1 /\ (tn s -> tn s1) /\ s_onrel s1 = []).
  { unfold s1, ub_unless. destruct (forallb _ _); (split; [apply ksame_eq; reflexivity|]; split; [intros H; exact H|exact Ho]). }
  clearbody s1. destruct H1 as [H1 [H2 H3]].
  destruct (find _ (cx_inputs c)) as [i|] eqn:Ei; [|auto].
  assert (Hi : In i (cx_inputs c)) by (apply find_some in Ei; tauto).
  assert (Hc : In c cs) by (eapply nth_error_In; eauto).
  assert (HA : ksame s (let '(s0, _) := continue_output_on_release e (Some ci) s1 in
                   release_triggered (ek e) (Some ci) s0) /\
    (tn s -> tn (let '(s0, _) := continue_output_on_release e (Some ci) s1 in
                   release_triggered (ek e) (Some ci) s0)) /\
    s_onrel (let '(s0, _) := continue_output_on_release e (Some ci) s1 in
                   release_triggered (ek e) (Some ci) s0) = []).
  { unfold continue_output_on_release. rewrite H3. cbn [find_index].
    destruct (release_tn (ek e) (Some ci) s1) as [R1 R2].
    split; [|split; [auto|congruence]]. eapply ksame_trans; [exact H1|]. apply release_other.
    rewrite He. unfold device_button in Hk. intuition congruence. }
  destruct (es e); try exact HA.
  destruct (find_output cs (s_active s1) ci c (in_out i)) as [r o| |] eqn:Ef.
  - assert (O : Forall outer o) by (eapply gives_outer; [exact Hc|]; eapply find_output_gives; eauto).
    destruct (apply_output_k o (TEvent e) (Some ci) s1 O) as [A1 A2].
    pose proof (apply_output_frame o (TEvent e) (Some ci) s1) as F.
    split; [eapply ksame_trans; eauto|]. split; [|congruence]. intros Ht.
    eapply tn_same; [|apply H2; exact Ht]. unfold same_app in F. tauto.
  - auto.
  - split; [eapply ksame_trans; [exact H1|apply ksame_eq; reflexivity]|]. split; [intros Ht; exact (H2 Ht)|exact H3].
Qed.

Lemma fold_context_k : forall e l s, s_onrel s = [] -> ek e = k_ContextActive ->
  let s' := fold_left (fun s p => on_context_active_event cs e p s) l s in
  ksame s s' /\ (tn s -> tn s') /\ s_onrel s' = [].
Proof.
  induction l as [|p l IH]; intros s Ho He; cbn zeta; cbn [fold_left]; [split; [apply ksame_refl|auto]|].
  destruct (on_context_k e p s Ho He) as [H1 [H2 H3]]. destruct (IH _ H3 He) as [G1 [G2 G3]].
  split; [eapply ksame_trans; eauto|]. auto.
Qed.

Lemma update_active_k : forall s, s_onrel s = [] ->
  ksame s (update_active_contexts cs s) /\ (tn s -> tn (update_active_contexts cs s)) /\
  s_onrel (update_active_contexts cs s) = [].
Proof.
  intros s Ho. unfold update_active_contexts.
  destruct (eval_active cs (s_seq s) (s_client s) []) as [curr|].
  2:{ split; [apply ksame_eq; reflexivity|]. split; [intros H; exact H|exact Ho]. }
  set (s1 := set_active curr s).
  assert (H1 : ksame s s1 /\ (tn s -> tn s1) /\ s_onrel s1 = []).
  { split; [apply ksame_eq; reflexivity|]. split; [intros H; exact H|exact Ho]. }
  clearbody s1. destruct H1 as [H1 [H2 H3]].
  destruct (fold_context_k (ev0 k_ContextActive Up) (toggled false (s_active s) curr) s1 H3 eq_refl) as [G1 [G2 G3]].
  set (s2 := fold_left _ _ s1) in *. clearbody s2.
  destruct (fold_context_k (ev0 k_ContextActive Down) (toggled true (s_active s) curr) s2 G3 eq_refl) as [F1 [F2 F3]].
  split; [eapply ksame_trans; [exact H1|]; eapply ksame_trans; [exact G1|exact F1]|]. split; [auto|exact F3].
Qed.

End Rounds.

Section WithContexts.
Variable cs : list context.
(** A question mark only stands in front. *)
Definition input_k (l : sequence) : Prop :=
  Forall (foreign k) l \/ exists q r, l = q :: r /\ ek q = k_none /\ es q = NoMightMatch /\ Forall (foreign k) r.
Hypothesis Hin : forall c i, In c cs -> In i (cx_inputs c) -> input_k (in_seq i).
Hypothesis Hout : forall c o, In c cs -> In o (context_outputs c) -> Forall outer o.
Hypothesis Htim : forall e, timing e.

Lemma foreign_nmm : forall l, Forall (foreign k) l -> is_nmm_mapping l = false.
Proof.
  intros l H. destruct l as [|x l]; [reflexivity|]. cbn. destruct (Forall_inv H) as [_ [_ Hx]].
  destruct (es x); try reflexivity. contradiction.
Qed.

(** Some input with a question mark matches the history. *)
Definition hmatch (h : sequence) : Prop := exists c i a t, In c cs /\ In i (cx_inputs c) /\
  is_nmm_mapping (in_seq i) = true /\ match_keys (in_seq i) h = Some (Matched, a, t).

Lemma no_hmatch : has_nmm_mapping cs = false -> forall h, ~ hmatch h.
Proof.
  intros H h [c [i [a [t [H1 [H2 [H3 _]]]]]]]. unfold has_nmm_mapping in H.
  assert (X : existsb (fun c => existsb (fun i => is_nmm_mapping (in_seq i)) (cx_inputs c)) cs = true).
  { apply existsb_exists. exists c. split; [exact H1|]. apply existsb_exists. exists i. auto. }
  congruence.
Qed.

Lemma press_hmatch : forall h, ~ hmatch (h ++ [ev0 k Down]).
Proof.
  intros h [c [i [a [t [H1 [H2 [H3 H4]]]]]]]. destruct (Hin c i H1 H2) as [H|[q [r [Eq [Q1 [Q2 Q3]]]]]].
  - rewrite (foreign_nmm _ H) in H3. discriminate H3.
  - rewrite Eq in H4. exact (match_question k Hk q r h (ev0 k Down) Matched a t Q1 Q2 Q3 eq_refl eq_refl H4 eq_refl).
Qed.

Lemma round_outcome : forall e dev s s' brk, apply_round cs e dev s = (s', brk) ->
  Forall some_key (s_seq s) -> tn s ->
  round_k (Forall no_press) (fun sq => Forall no_press sq \/ hmatch (s_hist s)) e s s' brk.
Proof.
  intros e dev s s' brk H Hsq Ht.
  refine (round_cases cs some_key (Forall no_press) (fun sq => Forall no_press sq \/ hmatch (s_hist s))
    (s_hist s) _ _ Hout e dev s s' brk H (Htim e) Hsq eq_refl Ht).
  - intros c i a t Hc Hi En Em sq. right. exists c, i, a, t. auto.
  - intros c i sq r a t Hc Hi En Hs Em.
    assert (Hf : Forall (foreign k) (in_seq i)).
    { destruct (Hin c i Hc Hi) as [X|[q [l [Eq [_ [Q2 _]]]]]]; [exact X|]. rewrite Eq in En. cbn in En.
      rewrite Q2 in En. discriminate En. }
    assert (Hno : r <> NoMatch -> Forall no_press sq).
    { intros Hr. eapply (match_foreign k Hk); try exact Em; eauto. }
    split; [|intros X; left; revert X]; intros ->; apply Hno; discriminate.
Qed.

(** A round without a press of the key. *)
Lemma round_calm : forall e dev s s' brk b, apply_round cs e dev s = (s', brk) ->
  Forall some_key (s_seq s) -> tn s -> s_onrel s = [] -> Forall no_press (s_seq s) -> khold b s ->
  (forall P, stable P -> Forall P (s_seq s) -> Forall P (s_seq s')) /\
  (closed (other k) (s_seq s) -> closed (other k) (s_seq s')) /\
  kstep b (s_seq s) s s' /\ tn s' /\ s_onrel s' = [].
Proof.
  intros e dev s s' brk b H Hsq Ht Hr Hno Hb.
  destruct (round_outcome _ _ _ _ _ H Hsq Ht) as [s1 n V S1 K1 T1 E|s1 N1 S1 K1 T1 E|s1 len o t ci N1 O1 S1 K1 T1 E|s1 S1 K1 T1 C1 E].
  all: assert (E1 : s_seq s1 = s_seq s /\ s_onrel s1 = []) by (unfold same_match in S1; intuition congruence); destruct E1 as [E1 E2].
  all: destruct (K1 b Hb) as [B1 B2].
  - subst s'. unfold finish_sequence. cbn [s_seq set_seq s_onrel]. rewrite E1.
    split; [intros P HP HF; apply finish_stable; auto|]. split; [apply finish_closed|].
    split; [left; auto|]. auto.
  - subst s'. cbn [s_seq set_might s_onrel]. rewrite E1. split; [auto|]. split; [auto|]. split; [left; auto|]. auto.
  - destruct (apply_output_k o t ci s1 O1) as [A1 A2]. destruct (A1 b B1) as [A3 A4].
    pose proof (apply_output_frame o t ci s1) as F.
    assert (Es : s_seq s' = finish_loop len (s_seq s) /\ s_onrel s' = [] /\ s_timeout s' = s_timeout s1 /\
      kstep b (s_seq s) s s').
    { destruct E as [-> | ->]; unfold finish_sequence; cbn [s_seq set_seq set_might s_onrel s_timeout].
      all: assert (Ef : s_seq (apply_output o t ci s1) = s_seq s /\ s_timeout (apply_output o t ci s1) = s_timeout s1)
        by (unfold same_app in F; intuition congruence); destruct Ef as [-> ->].
      all: split; [reflexivity|]; split; [congruence|]; split; [reflexivity|]; left; split; [exact A3|].
      all: rewrite <- B2, <- A4; reflexivity. }
    destruct Es as [-> [X2 [X3 X4]]].
    split; [intros P HP HF; apply finish_stable; auto|]. split; [apply finish_closed|]. split; [exact X4|].
    split; [eapply tn_same; eauto|exact X2].
  - destruct (forward_frame s1) as [F1 F2]. rewrite E1 in F2.
    assert (Hno1 : Forall no_press (s_seq s1)) by (rewrite E1; exact Hno).
    pose proof (forward_calm (s_seq s1) [] s1 b Hno1 B1) as F3. fold (forward_from_sequence s1) in F3.
    assert (F4 : tn (forward_from_sequence s1) /\ s_onrel (forward_from_sequence s1) = s_onrel s1).
    { destruct (forward_tn (s_seq s1) [] s1). auto. }
    destruct F4 as [F4 F5].
    assert (Es : s_seq s' = forward_seq [] (s_seq s) /\ s_onrel s' = [] /\ tn s' /\ kstep b (s_seq s) s s').
    { destruct E as [-> | ->]; cbn [s_seq set_might s_onrel]; rewrite F2, F5.
      all: split; [reflexivity|]; split; [exact E2|]; split; [exact F4|].
      all: destruct F3 as [[X1 X2]|[X1 [X2 [X3 X4]]]]; [left|right].
      all: rewrite ?E1 in *; repeat split; auto; unfold kbuf in *; cbn [s_buf set_might]; congruence. }
    destruct Es as [-> [X2 [X3 X4]]].
    split; [intros P HP HF; apply forward_stable; auto|]. split; [|auto].
    intros Hc. apply forward_closed; [constructor|exact Hc].
Qed.

(** A round while the press of the key is last in the sequence. *)
Lemma round_pending : forall dev s s' brk b a, apply_round cs (ev0 k Down) dev s = (s', brk) ->
  Forall some_key (s_seq s) -> tn s -> s_onrel s = [] ->
  s_seq s = a ++ [ev0 k Down] -> Forall no_press a -> (b = true -> Forall only_press a) -> khold b s ->
  (b = false -> ~ hmatch (s_hist s)) ->
  brk = false /\ Forall some_key (s_seq s') /\ tn s' /\ s_onrel s' = [] /\
  ((exists a', s_seq s' = a' ++ [ev0 k Down] /\ Forall no_press a' /\ (b = true -> Forall only_press a') /\
               khold b s' /\ kbuf s' = kbuf s) \/
   (Forall no_press (s_seq s') /\ Forall only_press (s_seq s') /\ khold true s' /\
    exists x, kbuf s' = kbuf s ++ x /\ (x = [ev0 k Down] \/ (b = true /\ (x = [] \/ x = [up k; ev0 k Down]))))).
Proof.
  intros dev s s' brk b a H Hsq Ht Hr Ha Hno Hon Hb Hhm.
  assert (Hnt : ek (ev0 k Down) <> k_timeout) by (cbn; unfold device_button in Hk; tauto).
  destruct (round_outcome _ _ _ _ _ H Hsq Ht) as [s1 n V S1 K1 T1 E|s1 N1 S1 K1 T1 E|s1 len o t ci N1 O1 S1 K1 T1 E|s1 S1 K1 T1 C1 E].
  { exfalso. cbn in V. unfold device_button in Hk. destruct Hk as [_ [_ [_ [_ [X _]]]]]. congruence. }
  { exfalso. rewrite Ha in N1. apply Forall_app in N1. apply (Forall_inv (proj2 N1)). auto. }
  all: assert (E1 : s_seq s1 = s_seq s /\ s_onrel s1 = []) by (unfold same_match in S1; intuition congruence); destruct E1 as [E1 E2].
  all: destruct (K1 b Hb) as [B1 B2].
  all: split; [reflexivity|].
  - destruct (apply_output_k o t ci s1 O1) as [A1 A2]. destruct (A1 b B1) as [A3 A4].
    pose proof (apply_output_frame o t ci s1) as F.
    assert (Es : s_seq s' = finish_loop len (s_seq s) /\ s_onrel s' = [] /\ s_timeout s' = s_timeout s1 /\
      khold b s' /\ kbuf s' = kbuf s).
    { destruct E as [-> | ->]; unfold finish_sequence; cbn [s_seq set_seq set_might s_onrel s_timeout].
      all: assert (Ef : s_seq (apply_output o t ci s1) = s_seq s /\ s_timeout (apply_output o t ci s1) = s_timeout s1)
        by (unfold same_app in F; intuition congruence); destruct Ef as [-> ->].
      all: split; [reflexivity|]; split; [congruence|]; split; [reflexivity|]; split; [exact A3|].
      all: rewrite <- B2, <- A4; reflexivity. }
    destruct Es as [X1 [X2 [X3 [X4 X5]]]]. rewrite X1.
    split; [apply finish_stable; [apply some_key_stable|exact Hsq]|]. split; [eapply tn_same; eauto|].
    split; [exact X2|]. destruct (le_lt_dec len (length a)) as [Hlen|L].
    2:{ destruct N1 as [N1|N1].
        { exfalso. rewrite Ha, firstn_all2 in N1 by (rewrite app_length; cbn; lia).
          apply Forall_app in N1. apply (Forall_inv (proj2 N1)). auto. }
        destruct b; [|exfalso; exact (Hhm eq_refl N1)]. right.
        assert (Hd := finish_done len (s_seq s)). rewrite Ha, app_length in Hd. cbn [length] in Hd.
        specialize (Hd ltac:(lia)). rewrite <- Ha in Hd.
        assert (Hkt : k <> k_timeout) by exact Hnt.
        split; [|split; [|split; [exact X4|exists []; rewrite app_nil_r; auto]]];
          (eapply Forall_impl; [|exact Hd]); intros y [Y|[Y1 Y2]].
        - intros [_ Z]. congruence.
        - intros [Z _]. congruence.
        - intros _. right. exact Y.
        - intros Z. congruence. }
    left. rewrite Ha.
    destruct (finish_front len a [ev0 k Down] Hlen) as [a' [Ea' Pa']]. exists a'.
    split; [exact Ea'|]. split; [apply Pa'; [apply no_press_stable|exact Hno]|].
    split; [intros Eb; apply Pa'; [apply only_press_stable|auto]|]. auto.
  - assert (F4 : tn (forward_from_sequence s1) /\ s_onrel (forward_from_sequence s1) = s_onrel s1).
    { destruct (forward_tn (s_seq s1) [] s1). auto. }
    destruct F4 as [F4 F5]. destruct (forward_frame s1) as [F1 F2]. rewrite E1 in F2.
    pose proof (forward_pending a [] s1 b (Forall_nil _) Hno Hon B1 (C1 Hnt)) as F3. cbn zeta in F3.
    assert (Ef : forward_loop [] (a ++ [ev0 k Down]) s1 = forward_from_sequence s1)
      by (unfold forward_from_sequence; rewrite E1, Ha; reflexivity).
    rewrite Ef in F3. clear Ef.
    assert (Es : s_seq s' = s_seq (forward_from_sequence s1) /\ s_onrel s' = [] /\ tn s' /\
      kd s' = kd (forward_from_sequence s1) /\ kbuf s' = kbuf (forward_from_sequence s1)).
    { destruct E as [-> | ->]; cbn [s_seq set_might s_onrel]; rewrite F5; auto. }
    destruct Es as [X1 [X2 [X3 [X4 X5]]]]. rewrite X1.
    split; [rewrite F2; apply forward_stable; [apply some_key_stable|exact Hsq]|].
    split; [exact X3|]. split; [exact X2|].
    destruct F3 as [[a' [Y1 [Y2 [Y3 Y4]]]]|[Y1 [Y2 [Y3 [x [Y4 Y5]]]]]]; [left|right].
    + exists a'. split; [exact Y1|]. split; [apply Y2; [apply no_press_stable|exact Hno]|].
      split; [intros Eb; apply Y2; [apply only_press_stable|apply Hon; exact Eb]|].
      split; [eapply khold_same; eauto|congruence].
    + split; [exact Y1|]. split; [exact Y2|]. split; [eapply khold_same; eauto|]. exists x. split; [congruence|tauto].
Qed.

(** * The loop *)

Lemma loop_calm : forall e dev s n s', loop_run cs e dev s n s' -> forall b,
  Forall some_key (s_seq s) -> tn s -> s_onrel s = [] -> Forall no_press (s_seq s) -> khold b s ->
  (forall P, stable P -> Forall P (s_seq s) -> Forall P (s_seq s')) /\
  (closed (other k) (s_seq s) -> closed (other k) (s_seq s')) /\
  kstep b (s_seq s) s s' /\ tn s' /\ s_onrel s' = [].
Proof.
  induction 1 as [s Hn|s s' Hn Hr|s s1 n s' Hn Hr Hl IH]; intros b Hsq Ht Ho Hno Hb.
  - split; [auto|]. split; [auto|]. split; [left; auto|]. auto.
  - eapply round_calm; eauto.
  - destruct (round_calm _ _ _ _ _ _ Hr Hsq Ht Ho Hno Hb) as [P1 [P2 [P3 [P4 P5]]]].
    assert (G1 : Forall some_key (s_seq s1)) by (apply P1; [apply some_key_stable|exact Hsq]).
    assert (G2 : Forall no_press (s_seq s1)) by (apply P1; [apply no_press_stable|exact Hno]).
    assert (Hgoal : forall b1, khold b1 s1 ->
      (forall P, stable P -> Forall P (s_seq s) -> Forall P (s_seq s')) /\
      (closed (other k) (s_seq s) -> closed (other k) (s_seq s')) /\
      kstep b1 (s_seq s1) s1 s' /\ tn s' /\ s_onrel s' = []).
    { intros b1 Hb1. destruct (IH b1 G1 P4 P5 G2 Hb1) as [Q1 [Q2 Q3]]. split; [auto|]. split; [auto|]. exact Q3. }
    destruct P3 as [[X1 X2]|[X1 [X2 [X3 X4]]]].
    + destruct (Hgoal b X1) as [Q1 [Q2 [Q3 Q4]]]. split; [exact Q1|]. split; [exact Q2|]. split; [|exact Q4].
      destruct Q3 as [[Y1 Y2]|[Y1 [Y2 [Y3 Y4]]]]; [left; split; [exact Y1|congruence]|right].
      split; [exact Y1|]. split; [|split; [exact Y3|congruence]].
      intros HF. apply Y2. apply P1; [apply only_press_stable|exact HF].
    + destruct (Hgoal false X3) as [Q1 [Q2 [Q3 Q4]]]. split; [exact Q1|]. split; [exact Q2|]. split; [|exact Q4].
      destruct Q3 as [[Y1 Y2]|[Y1 _]]; [|discriminate]. right. repeat (split; [assumption|]). congruence.
Qed.

Lemma loop_pending : forall e dev s n s', loop_run cs e dev s n s' -> e = ev0 k Down -> forall b a,
  Forall some_key (s_seq s) -> tn s -> s_onrel s = [] ->
  s_seq s = a ++ [ev0 k Down] -> Forall no_press a -> (b = true -> Forall only_press a) -> khold b s ->
  no_none (s_hist s) -> (b = false -> ~ hmatch (s_hist s)) ->
  Forall some_key (s_seq s') /\ tn s' /\ s_onrel s' = [] /\
  Forall no_press (s_seq s') /\ Forall only_press (s_seq s') /\ khold true s' /\
  exists x, kbuf s' = kbuf s ++ x /\ (x = [ev0 k Down] \/ (b = true /\ (x = [] \/ x = [up k; ev0 k Down]))).
Proof.
  induction 1 as [s Hn|s s' Hn Hr|s s1 n s' Hn Hr Hl IH]; intros -> b a Hsq Ht Ho Ha Hno Hon Hb Hnh Hhm.
  - exfalso. unfold has_non_optional in Hn. rewrite Ha, existsb_app in Hn. cbn in Hn. rewrite orb_true_r in Hn. discriminate.
  - exfalso. destruct (round_pending _ _ _ _ _ _ Hr Hsq Ht Ho Ha Hno Hon Hb Hhm) as [X _]. discriminate.
  - destruct (round_pending _ _ _ _ _ _ Hr Hsq Ht Ho Ha Hno Hon Hb Hhm) as [_ [P1 [P2 [P3 P4]]]].
    destruct (round_progress _ _ _ _ _ _ Hr Hsq Hnh Hn) as [_ [Eh _]].
    destruct P4 as [[a' [Y1 [Y2 [Y3 [Y4 Y5]]]]]|[Y1 [Y2 [Y3 [x [Y4 Y5]]]]]].
    + rewrite <- Eh in Hnh, Hhm.
      destruct (IH eq_refl b a' P1 P2 P3 Y1 Y2 Y3 Y4 Hnh Hhm) as [Q1 [Q2 [Q3 [Q4 [Q5 [Q6 [x [Q7 Q8]]]]]]]].
      repeat (split; [assumption|]). exists x. split; [congruence|exact Q8].
    + destruct (loop_calm _ _ _ _ _ Hl true P1 P2 P3 Y1 Y3) as [Q1 [_ [Q3 [Q4 Q5]]]].
      split; [apply Q1; [apply some_key_stable|exact P1]|]. split; [exact Q4|]. split; [exact Q5|].
      split; [apply Q1; [apply no_press_stable|exact Y1]|]. split; [apply Q1; [apply only_press_stable|exact Y2]|].
      destruct Q3 as [[Z1 Z2]|[_ [Z2 _]]]; [|contradiction].
      split; [exact Z1|]. exists x. split; [congruence|exact Y5].
Qed.

(** * Calls *)

Definition usual (x : event) : Prop := ek x = k -> is_press x \/ x = up k.
Lemma usual_stable : stable usual.
Proof.
  split; intros x Hx; [left; right; reflexivity|]. intros H1 H2. exfalso. unfold device_button in Hk.
  cbn in H2. intuition congruence.
Qed.

(** Presses and releases of the key take turns in the history, up to whether it is down. *)
Fixpoint turns (b : bool) (l : sequence) (D : bool) : Prop :=
  match l with
  | [] => b = D
  | x :: r => x = (if b then up k else ev0 k Down) /\ turns (negb b) r D
  end.
Definition hist_ok (D : bool) (s : state) : Prop :=
  no_none (s_hist s) /\ (has_nmm_mapping cs = true -> turns false (filter (has_key k) (s_hist s)) D).

Lemma turns_app : forall l b D x, turns b (l ++ [x]) D -> x = (if D then ev0 k Down else up k).
Proof.
  induction l as [|y l IH]; intros b D x; cbn.
  - intros [-> <-]. destruct b; reflexivity.
  - intros [_ H]. eapply IH; eauto.
Qed.
Lemma turns_snoc : forall l b D, turns b l D -> turns b (l ++ [if D then up k else ev0 k Down]) (negb D).
Proof. induction l as [|y l IH]; intros b D; cbn; [intros <-; auto|]. intros [H1 H2]. auto. Qed.

Definition last_down (l : sequence) : bool :=
  match rfind_key l k with
  | Some i => match nth_error l i with Some x => kstate_eqb (es x) Down | None => false end
  | None => false
  end.
Lemma filter_nothing : forall b, (forall y, In y b -> ek y <> k) -> filter (has_key k) b = [].
Proof.
  induction b as [|y b IH]; intros H; [reflexivity|]. cbn. unfold has_key at 1.
  destruct (N.eqb_spec (ek y) k) as [E|_]; [exfalso; apply (H y); [left; reflexivity|exact E]|].
  apply IH. intros z Hz. apply H. right; exact Hz.
Qed.
Lemma rfind_some : forall l j i, rfind_key l j = Some i -> exists x, nth_error l i = Some x.
Proof.
  unfold rfind_key. induction l as [|y l IH]; intros j i H; [discriminate|]. cbn in H.
  destruct (rfind_index (has_key j) l) as [n|] eqn:E.
  - injection H as <-. destruct (IH j n E) as [x Hx]. exists x. exact Hx.
  - destruct (has_key j y); [|discriminate]. injection H as <-. exists y. reflexivity.
Qed.
Lemma rfind_none : forall l j, rfind_key l j = None -> forall y, In y l -> ek y <> j.
Proof.
  unfold rfind_key. induction l as [|y l IH]; intros j H z Hz; [contradiction|]. cbn in H.
  destruct (rfind_index (has_key j) l) as [n|] eqn:E; [discriminate|]. unfold has_key at 1 in H.
  destruct (N.eqb_spec (ek y) j); [discriminate|]. destruct Hz as [<-|Hz]; [assumption|]. eapply IH; eauto.
Qed.
Lemma last_turns : forall l D, turns false (filter (has_key k) l) D -> last_down l = D.
Proof.
  intros l D H. unfold last_down. destruct (rfind_key l k) as [i|] eqn:Ei.
  - destruct (rfind_some _ _ _ Ei) as [x Ex]. rewrite Ex.
    destruct (rfind_last _ _ _ _ Ei Ex) as [a [b [-> [Hx [_ Hb]]]]].
    rewrite filter_app in H. cbn [filter] in H. unfold has_key at 2 in H. rewrite Hx, N.eqb_refl in H.
    rewrite (filter_nothing b Hb) in H. apply turns_app in H. rewrite H. destruct D; reflexivity.
  - rewrite filter_nothing in H; [cbn in H; exact H|]. exact (rfind_none _ _ Ei).
Qed.

Record krest (D : bool) (s : state) : Prop := {
  kr_some : Forall some_key (s_seq s);
  kr_usual : Forall usual (s_seq s);
  kr_no : Forall no_press (s_seq s);
  kr_hold : khold D s;
  kr_only : D = true -> Forall only_press (s_seq s);
  kr_closed : D = false -> closed (other k) (s_seq s);
  kr_tn : tn s;
  kr_rel : s_onrel s = [];
  kr_hist : hist_ok D s
}.

Lemma prepare_k : forall e s, let s' := prepare_up e s in
  s_down s' = s_down s /\ s_buf s' = s_buf s /\ s_onrel s' = s_onrel s /\ s_timeout s' = s_timeout s /\
  s_hist s' = s_hist s /\
  (forall P, stable P -> Forall P (s_seq s) -> Forall P (s_seq s')) /\
  (closed (other k) (s_seq s) -> closed (other k) (s_seq s')) /\
  (es e = Down -> s_seq s' = s_seq s).
Proof.
  intros e s. cbn zeta. unfold prepare_up. destruct (kstate_eqb (es e) Up) eqn:Ee.
  2:{ repeat (split; [auto|]). auto. }
  assert (Hd : es e <> Down) by (intros E; rewrite E in Ee; discriminate).
  set (s1 := match s_timeout s with Some _ => _ | None => _ end).
  assert (H1 : s_down s1 = s_down s /\ s_buf s1 = s_buf s /\ s_onrel s1 = s_onrel s /\ s_timeout s1 = s_timeout s /\
    s_hist s1 = s_hist s /\
    (forall P, stable P -> Forall P (s_seq s) -> Forall P (s_seq s1)) /\
    (closed (other k) (s_seq s) -> closed (other k) (s_seq s1))).
  { assert (Hs : s1 = s \/ s1 = set_seq (map (fun x => if kstate_eqb (es x) Down then Ev (ek x) DownMatched (ev x) else x) (s_seq s)) s)
      by (unfold s1; destruct (s_timeout s) as [c|]; [destruct (ct_output c)|]; auto).
    destruct Hs as [->| ->]; [auto 10|]. cbn [s_down s_buf s_onrel s_timeout s_hist s_seq set_seq].
    repeat (split; [reflexivity|]).
    split; [|apply (closed_matched (other k))]. intros P HP HF. apply Forall_forall. intros x Hx.
    apply in_map_iff in Hx. destruct Hx as [y [<- Hy]]. assert (Py := proj1 (Forall_forall _ _) HF y Hy).
    destruct (kstate_eqb (es y) Down); [apply HP|]; exact Py. }
  clearbody s1. destruct H1 as [E1 [E2 [E3 [E4 [E5 [E6 E7]]]]]].
  assert (Hs1 : forall s', s_down s' = s_down s1 -> s_buf s' = s_buf s1 -> s_onrel s' = s_onrel s1 ->
    s_timeout s' = s_timeout s1 -> s_hist s' = s_hist s1 ->
    (forall P, stable P -> Forall P (s_seq s1) -> Forall P (s_seq s')) ->
    (closed (other k) (s_seq s1) -> closed (other k) (s_seq s')) ->
    s_down s' = s_down s /\ s_buf s' = s_buf s /\ s_onrel s' = s_onrel s /\ s_timeout s' = s_timeout s /\
    s_hist s' = s_hist s /\
    (forall P, stable P -> Forall P (s_seq s) -> Forall P (s_seq s')) /\
    (closed (other k) (s_seq s) -> closed (other k) (s_seq s')) /\ (es e = Down -> s_seq s' = s_seq s)).
  { intros s' G1 G2 G3 G4 G5 G6 G7. repeat (split; [congruence|]). split; [auto|]. split; [auto|]. contradiction. }
  destruct (s_might s1); [apply Hs1; auto|].
  destruct (find_key (s_seq s1) (ek e)) as [i|] eqn:Ei; [|apply Hs1; auto].
  destruct (nth_error (s_seq s1) i) as [x|] eqn:Ex; [|apply Hs1; auto].
  destruct (kstate_eqb (es x) DownMatched) eqn:Em; [|apply Hs1; auto].
  apply Hs1; auto; cbn [s_seq set_seq].
  - intros P HP HF. apply Forall_forall. intros y Hy. apply In_remove_at in Hy. exact (proj1 (Forall_forall _ _) HF y Hy).
  - intros Hc. destruct (nth_error_split _ _ Ex) as [a [b' [El Ea]]]. rewrite El in *. rewrite <- Ea, remove_at_split.
    eapply closed_drop; [|exact Hc]. intros ->. discriminate.
Qed.

Lemma unsuppress_k : forall s, ksame s (unsuppress s).
Proof.
  intros s b Hb. split; [|reflexivity].
  set (f := fun o => OD (od_key o) (od_trigger o) false (od_temp o) (od_twice o) (od_ctx o)).
  assert (E : kd (unsuppress s) = map f (kd s)).
  { unfold kd, unsuppress. cbn [s_down set_down]. fold f. induction (s_down s) as [|o l IH]; [reflexivity|].
    cbn [map filter]. change (od_key (f o)) with (od_key o). destruct (od_key o =? k); cbn [map]; rewrite IH; reflexivity. }
  unfold khold in *. rewrite E. destruct b.
  - destruct Hb as [o [-> Ho]]. exists (f o). split; [reflexivity|exact Ho].
  - rewrite Hb. reflexivity.
Qed.

(** What is output of the key in the call for the event [e], if it was down or not. *)
Definition kout (D : bool) (e : event) (o : sequence) : Prop :=
  if ek e =? k then
    match es e with
    | Down => if D then o = [] \/ o = [ev0 k Down] \/ o = [up k; ev0 k Down] else o = [ev0 k Down]
    | _ => o = if D then [up k] else []
    end
  else o = [].
Definition knext (D : bool) (e : event) : bool := if ek e =? k then kstate_eqb (es e) Down else D.

Lemma add_k : forall e D s, ek e <> k_none -> es e = Down \/ es e = Up -> (ek e = k -> ev e = 0) -> hist_ok D s ->
  let s' := add_to_history cs e s in
  (s_seq s' = s_seq s /\ s_down s' = s_down s /\ s_buf s' = s_buf s /\ s_onrel s' = s_onrel s /\
   s_timeout s' = s_timeout s) /\
  hist_ok (knext D e) s' /\ (e = ev0 k Down -> D = false -> ~ hmatch (s_hist s')).
Proof.
  intros e D s Hn Hu Hv [H1 H2]. cbn zeta. unfold add_to_history. destruct (has_nmm_mapping cs) eqn:Em; cbn [andb].
  2:{ split; [auto 6|]. split; [split; [exact H1|congruence]|]. intros _ _. apply no_hmatch. exact Em. }
  specialize (H2 eq_refl).
  destruct (N.eq_dec (ek e) k) as [Ek|Ek].
  - assert (Ec : negb (is_virtual_key (ek e)) && negb (ek e =? k_timeout) = true).
    { rewrite Ek. unfold device_button in Hk. destruct Hk as [_ [_ [Ht [_ [-> _]]]]]. apply N.eqb_neq in Ht.
      rewrite Ht. reflexivity. }
    rewrite Ec. rewrite Ek. change (match rfind_key (s_hist s) k with
      | Some i => match nth_error (s_hist s) i with Some x => kstate_eqb (es x) Down | None => false end
      | None => false end) with (last_down (s_hist s)). rewrite (last_turns _ _ H2).
    assert (Hn' : no_none (s_hist s ++ [e])).
    { apply Forall_app. split; [exact H1|]. constructor; [exact Hn|constructor]. }
    assert (Hf : filter (has_key k) (s_hist s ++ [e]) = filter (has_key k) (s_hist s) ++ [e]).
    { rewrite filter_app. f_equal. cbn. unfold has_key. rewrite Ek, N.eqb_refl. reflexivity. }
    specialize (Hv Ek). unfold knext. rewrite Ek, N.eqb_refl. destruct Hu as [Ed|Eu].
    + assert (He : e = ev0 k Down) by (destruct e; cbn in *; subst; reflexivity).
      rewrite Ed. cbn [kstate_eqb]. destruct D.
      * split; [auto 6|]. split; [split; auto|]. intros _ X. discriminate X.
      * cbn [s_seq s_down s_buf s_onrel s_timeout s_hist set_hist]. split; [auto 6|].
        split; [|intros _ _; rewrite He; apply press_hmatch].
        split; cbn [s_hist set_hist]; [exact Hn'|]. intros _. rewrite Hf, He. exact (turns_snoc _ _ _ H2).
    + assert (He : e = up k) by (destruct e; cbn in *; subst; reflexivity).
      rewrite Eu. cbn [kstate_eqb]. destruct D.
      * cbn [s_seq s_down s_buf s_onrel s_timeout s_hist set_hist]. split; [auto 6|].
        split; [|intros X; rewrite X in Eu; discriminate Eu].
        split; cbn [s_hist set_hist]; [exact Hn'|]. intros _. rewrite Hf, He. exact (turns_snoc _ _ _ H2).
      * split; [auto 6|]. split; [split; auto|]. intros X; rewrite X in Eu; discriminate Eu.
  - assert (Hno : forall P : Prop, e = ev0 k Down -> P) by (intros P ->; contradiction Ek; reflexivity).
    assert (Ekn : knext D e = D) by (unfold knext; apply N.eqb_neq in Ek; rewrite Ek; reflexivity). rewrite Ekn.
    assert (Hsame : hist_ok D s) by (split; auto).
    assert (Hadd : hist_ok D (set_hist (s_hist s ++ [e]) s)).
    { split; cbn [s_hist set_hist].
      - apply Forall_app. split; [exact H1|]. constructor; [exact Hn|constructor].
      - intros _. rewrite filter_app. cbn. unfold has_key at 2. apply N.eqb_neq in Ek. rewrite Ek, app_nil_r. exact H2. }
    destruct (_ && _); [|split; [auto 6|]; split; [exact Hsame|intros X; apply (Hno _ X)]].
    set (ld := match rfind_key (s_hist s) (ek e) with Some _ => _ | None => _ end). clearbody ld.
    destruct (es e); destruct ld; (split; [auto 6|]; split; [assumption|intros X; apply (Hno _ X)]).
Qed.

Lemma remove_other : forall e l l', ek e <> k -> remove_first_ev e l = Some l' ->
  filter (has_key k) l' = filter (has_key k) l.
Proof.
  induction l as [|x l IH]; intros l' He H; [discriminate|]. cbn [remove_first_ev] in H.
  destruct (event_eqb x e) eqn:Ex.
  - injection H as <-. apply event_eqb_eq' in Ex. subst x. cbn. unfold has_key at 2. apply N.eqb_neq in He. rewrite He. reflexivity.
  - destruct (remove_first_ev e l) as [r|]; [|discriminate]. injection H as <-. cbn. rewrite (IH r He eq_refl). reflexivity.
Qed.
Lemma remove_turn : forall l l' D, turns true (filter (has_key k) l) D -> remove_first_ev (up k) l = Some l' ->
  turns false (filter (has_key k) l') D.
Proof.
  induction l as [|x l IH]; intros l' D Ht H; [discriminate|]. cbn [remove_first_ev] in H.
  destruct (event_eqb x (up k)) eqn:Ex.
  - injection H as <-. apply event_eqb_eq' in Ex. subst x. cbn [filter] in Ht. unfold has_key at 1 in Ht.
    cbn [ek up] in Ht. rewrite N.eqb_refl in Ht. exact (proj2 Ht).
  - destruct (remove_first_ev (up k) l) as [r|]; [|discriminate]. injection H as <-. cbn [filter] in *.
    destruct (has_key k x) eqn:Exk.
    + destruct Ht as [Ht _]. rewrite Ht in Ex. unfold event_eqb in Ex. cbn in Ex. rewrite !N.eqb_refl in Ex. discriminate Ex.
    + eapply IH; eauto.
Qed.

Lemma clean_k : forall fuel D s, hist_ok D s -> let s' := clean_up_history cs fuel s in
  hist_ok D s' /\ s_seq s' = s_seq s /\ s_down s' = s_down s /\ s_buf s' = s_buf s /\
  s_timeout s' = s_timeout s /\ s_onrel s' = s_onrel s.
Proof.
  induction fuel as [|fuel IH]; intros D s H; cbn zeta; cbn [clean_up_history];
    destruct (s_hist s) as [|x r] eqn:Eh; auto 7.
  destruct (negb _); [auto 7|]. destruct (history_might_match cs s); [auto 7|].
  destruct (remove_first_ev _ r) as [h|] eqn:Er; [|auto 7].
  assert (Hh : hist_ok D (set_hist h s)).
  { destruct H as [H1 H2]. rewrite Eh in H1, H2. split; cbn [s_hist set_hist].
    - eapply remove_first_ev_incl; [exact Er|]. exact (Forall_inv_tail H1).
    - intros Hm. specialize (H2 Hm). cbn [filter] in H2. destruct (has_key k x) eqn:Ex.
      + destruct H2 as [-> H2]. eapply remove_turn; [exact H2|]. exact Er.
      + apply N.eqb_neq in Ex. rewrite (remove_other (Ev (ek x) Up (ev x)) r h Ex Er). exact H2. }
  destruct (IH D _ Hh) as [Z1 Z2]. split; [exact Z1|exact Z2].
Qed.

Lemma has_k_app : forall (a : sequence) b, filter (has_key k) (a ++ b) = filter (has_key k) a ++ filter (has_key k) b.
Proof. intros. apply filter_app. Qed.

Lemma finish_k : forall e D s,
  let s1 := if kstate_eqb (es e) Up then release_triggered (ek e) None s else s in
  Forall some_key (s_seq s) -> Forall usual (s_seq s) -> Forall no_press (s_seq s) -> khold D s1 ->
  (D = true -> Forall only_press (s_seq s)) -> (D = false -> closed (other k) (s_seq s)) ->
  tn s -> s_onrel s = [] -> hist_ok D s ->
  krest D (finish_input cs e s) /\ kbuf (finish_input cs e s) = kbuf s1.
Proof.
  intros e D s s1 H1 H2 H3 H4 H5 H6 H7 H8 H9. unfold finish_input. fold s1.
  assert (A : s_seq s1 = s_seq s /\ tn s1 /\ s_onrel s1 = [] /\ hist_ok D s1).
  { unfold s1. destruct (kstate_eqb (es e) Up); [|auto].
    pose proof (release_frame (ek e) None s) as F. unfold same_rel in F.
    destruct (release_tn (ek e) None s) as [T1 T2].
    split; [tauto|]. split; [auto|]. split; [congruence|].
    assert (Eh : s_hist (release_triggered (ek e) None s) = s_hist s) by (destruct F as [F F']; intuition congruence).
    unfold hist_ok. rewrite Eh. exact H9. }
  destruct A as [A1 [A2 [A3 A4]]]. clearbody s1. rewrite <- A1 in H1, H2, H3, H5, H6. clear s A1 H7 H8 H9.
  destruct (update_active_k cs Hout s1 A3) as [U1 [U2 U3]]. specialize (U2 A2).
  pose proof (update_active_frame cs s1) as F. unfold same_ctx in F.
  set (s2 := update_active_contexts cs s1) in *.
  assert (E2 : s_seq s2 = s_seq s1 /\ s_hist s2 = s_hist s1) by tauto. clearbody s2. clear F.
  destruct E2 as [E2 E3]. rewrite <- E2 in H1, H2, H3, H5, H6. unfold hist_ok in A4. rewrite <- E3 in A4. fold (hist_ok D s2) in A4.
  destruct (U1 D H4) as [K1 K2].
  destruct (drop_suffix (s_seq s2)) as [p [Ep _]].
  assert (Hdrop : forall P, Forall P (s_seq s2) -> Forall P (drop_up_matched (s_seq s2))).
  { intros P HP. rewrite Ep in HP. apply Forall_app in HP. apply HP. }
  set (s3 := set_seq (drop_up_matched (s_seq s2)) s2).
  set (s4 := match s_seq s3 with [] => set_timeout None s3 | _ => s3 end).
  assert (E4 : s_seq s4 = drop_up_matched (s_seq s2) /\ s_down s4 = s_down s2 /\ s_buf s4 = s_buf s2 /\
    tn s4 /\ s_onrel s4 = [] /\ hist_ok D s4).
  { unfold s4. destruct (s_seq s3) eqn:E; [|auto 10]. split; [reflexivity|].
    split; [reflexivity|]. split; [reflexivity|]. split; [apply tn_none; reflexivity|]. auto. }
  destruct E4 as [B1 [B2 [B3 [B4 [B5 B6]]]]]. clearbody s4. clear s3.
  set (s5 := set_reapplied false s4).
  assert (B6' : hist_ok D s5) by exact B6.
  destruct (clean_k (length (s_hist s5)) D s5 B6') as [C1 [C2 [C3 [C4 [C5 C6]]]]].
  set (s6 := clean_up_history cs (length (s_hist s5)) s5) in *. clearbody s6.
  change (s_seq s5) with (s_seq s4) in C2. change (s_down s5) with (s_down s4) in C3.
  change (s_buf s5) with (s_buf s4) in C4. change (s_timeout s5) with (s_timeout s4) in C5.
  change (s_onrel s5) with (s_onrel s4) in C6. clear B6' s5.
  split; [|rewrite <- K2; unfold kbuf; rewrite C4, B3; reflexivity].
  constructor; try (rewrite C2, B1; auto).
  - eapply khold_same; [|exact K1]. unfold kd. rewrite C3, B2. reflexivity.
  - intros HD. specialize (H6 HD). rewrite Ep in H6. eapply closed_app_r; exact H6.
  - eapply tn_same; [exact C5|exact B4].
  - congruence.
  - exact C1.
Qed.

Definition up_or_down (e : event) : Prop := es e = Down \/ es e = Up.

Lemma process_k : forall e dev D s, wf_event e -> krest D s -> kbuf s = [] ->
  let s' := process_input cs e dev s in
  krest (knext D e) s' /\ kout D e (kbuf s').
Proof.
  intros e dev D s Hwf R Hbuf. destruct R as [R1 R2 R3 R4 R5 R6 R7 R8 R9]. cbn zeta. unfold process_input.
  assert (Hu : up_or_down e) by (destruct Hwf as [_ [[? _]|[? _]]]; [left|right]; assumption).
  assert (Hek : ek e <> k_none) by apply Hwf.
  assert (Hval : ek e = k -> ev e = 0).
  { intros E. destruct Hk as [_ [_ [Ht [_ [_ Hw]]]]]. destruct Hwf as [_ [[_ [_ [H|H]]]|[_ [H|[H|H]]]]]; auto; congruence. }
  destruct (add_k e D (set_seq (s_seq s ++ [e]) s) Hek Hu Hval R9) as [[A1 [A2 [A3 [A4 A5]]]] [A6 A7]].
  set (s1 := add_to_history cs e (set_seq (s_seq s ++ [e]) s)) in *.
  cbn [s_seq s_down s_buf s_onrel s_timeout set_seq] in A1, A2, A3, A4, A5. clearbody s1.
  assert (R8' : s_onrel s1 = []) by congruence.
  destruct (update_active_k cs Hout s1 R8') as [U1 [U2 U3]].
  pose proof (update_active_frame cs s1) as F. unfold same_ctx in F.
  set (s2 := update_active_contexts cs s1) in *.
  assert (E2 : s_seq s2 = s_seq s ++ [e] /\ s_hist s2 = s_hist s1) by (rewrite <- A1; tauto).
  assert (T2 : tn s2) by (apply U2; eapply tn_same; [exact A5|exact R7]).
  assert (K2 : khold D s2 /\ kbuf s2 = []).
  { destruct (ksame_eq s s1 A2 A3 D R4) as [Y1 Y2].
    destruct (U1 D Y1) as [X1 X2]. split; [exact X1|]. rewrite X2, Y2. exact Hbuf. }
  clearbody s2. clear U1 U2 F.
  destruct (prepare_k e s2) as [P1 [P2 [P3 [P4 [P5 [P6 [P7 P8]]]]]]].
  set (s3 := prepare_up e s2) in *. clearbody s3.
  assert (K3 : khold D s3 /\ kbuf s3 = []).
  { destruct (ksame_eq s2 s3 P1 P2 D (proj1 K2)) as [X1 X2]. split; [exact X1|]. rewrite X2. apply K2. }
  assert (T3 : tn s3) by (eapply tn_same; eauto).
  assert (O3 : s_onrel s3 = []) by congruence.
  assert (H3 : s_hist s3 = s_hist s1) by (destruct E2; congruence).
  destruct E2 as [E2 _]. clear K2 T2 U3 P1 P2 P3 P4 P5.
  destruct (unsuppress_k s3 D (proj1 K3)) as [K4 B4].
  set (s4 := unsuppress s3) in *.
  assert (E4 : s_seq s4 = s_seq s3) by reflexivity.
  assert (T4 : tn s4) by exact T3. assert (O4 : s_onrel s4 = []) by exact O3. assert (H4 : s_hist s4 = s_hist s1) by exact H3.
  rewrite (proj2 K3) in B4. clearbody s4. clear T3 O3 H3 K3.
  rewrite <- E4 in P6, P7, P8. clear E4 s3.
  assert (N4 : Forall some_key (s_seq s4)).
  { apply P6; [exact some_key_stable|]. rewrite E2. apply Forall_app. split; [exact R1|]. constructor; [exact Hek|constructor]. }
  assert (N4h : no_none (s_hist s4)) by (rewrite H4; exact (proj1 A6)).
  destruct (apply_loop_run cs e dev (weight (s_seq s4)) s4 (Nat.le_refl _) N4 N4h) as [n [_ [Hrun [_ [H5 _]]]]].
  set (s5 := apply_loop cs (weight (s_seq s4)) e dev s4) in *. clearbody s5. rewrite H4 in H5.
  assert (Hh5 : hist_ok (knext D e) s5) by (unfold hist_ok; rewrite H5; exact A6).
  destruct (N.eqb_spec (ek e) k) as [Ek|Ek].
  - specialize (Hval Ek). destruct Hu as [Ed|Eu].
    + assert (He : e = ev0 k Down) by (destruct e; cbn in *; subst; reflexivity).
      assert (Hseq : s_seq s4 = s_seq s ++ [ev0 k Down]) by (rewrite (P8 Ed), E2, He; reflexivity).
      assert (Hhm : D = false -> ~ hmatch (s_hist s4)) by (intros HD; rewrite H4; auto).
      destruct (loop_pending _ _ _ _ _ Hrun He D (s_seq s) N4 T4 O4 Hseq R3 R5 K4 N4h Hhm) as [L1 [L2 [L3 [L4 [L5 [L6 [x [L7 L8]]]]]]]].
      assert (Hf := finish_k e true s5). cbn zeta in Hf. rewrite Ed in Hf. cbn [kstate_eqb] in Hf.
      assert (Eq1 : knext D e = true) by (unfold knext; rewrite Ek, N.eqb_refl, Ed; reflexivity).
      rewrite Eq1 in *. destruct Hf as [F1 F2]; auto; try discriminate.
      { eapply Forall_impl; [|exact L5]. intros y Hy Hyk. left. apply Hy. exact Hyk. }
      split; [exact F1|]. rewrite F2, L7, B4. unfold kout. rewrite Ek, N.eqb_refl, Ed. cbn [app].
      destruct D; [tauto|]. destruct L8 as [L8|[L8 _]]; [exact L8|discriminate].
    + assert (He : e = up k) by (destruct e; cbn in *; subst; reflexivity).
      assert (Hno : Forall no_press (s_seq s4)).
      { apply P6; [exact no_press_stable|]. rewrite E2. apply Forall_app. split; [exact R3|].
        constructor; [|constructor]. rewrite He. intros [_ X]; discriminate. }
      assert (Hus : Forall usual (s_seq s4)).
      { apply P6; [exact usual_stable|]. rewrite E2. apply Forall_app. split; [exact R2|].
        constructor; [|constructor]. rewrite He. intros _. right; reflexivity. }
      assert (Hcl : closed (other k) (s_seq s4)).
      { apply P7. rewrite E2, He. apply closed_last. intros y []. }
      destruct (loop_calm _ _ _ _ _ Hrun D N4 T4 O4 Hno K4) as [L1 [L2 [L3 [L4 L5]]]].
      assert (Hf := finish_k e false s5). cbn zeta in Hf. rewrite Eu in Hf. cbn [kstate_eqb] in Hf. rewrite Ek in Hf.
      assert (Eq1 : knext D e = false) by (unfold knext; rewrite Ek, N.eqb_refl, Eu; reflexivity).
      rewrite Eq1 in *. unfold kout. rewrite Ek, N.eqb_refl, Eu.
      assert (Hrel : khold false (release_triggered k None s5) /\
        kbuf (release_triggered k None s5) = if D then [up k] else []).
      { destruct L3 as [[X1 X2]|[X1 [X2 [X3 X4]]]].
        - destruct (release_this D s5 X1) as [Y1 Y2]. split; [exact Y1|]. rewrite Y2, X2, B4. reflexivity.
        - destruct (release_this false s5 X3) as [Y1 Y2]. split; [exact Y1|]. rewrite Y2, X4, B4, X1. reflexivity. }
      destruct Hrel as [Hr1 Hr2].
      destruct Hf as [F1 F2]; auto; try discriminate.
      { apply L1; auto using some_key_stable. }
      { apply L1; auto using usual_stable. }
      { apply L1; auto using no_press_stable. }
      split; [exact F1|]. rewrite F2. exact Hr2.
  - assert (Hother : forall P, stable P -> (ek e <> k -> P e) -> Forall P (s_seq s) -> Forall P (s_seq s4)).
    { intros P HP He HF. apply P6; [exact HP|]. rewrite E2. apply Forall_app. split; [exact HF|].
      constructor; [|constructor]. auto. }
    assert (Hno : Forall no_press (s_seq s4)).
    { apply Hother; [exact no_press_stable| |exact R3]. intros _ [X _]. contradiction. }
    assert (Hus : Forall usual (s_seq s4)).
    { apply Hother; [exact usual_stable| |exact R2]. intros _ X. contradiction. }
    assert (Hon : D = true -> Forall only_press (s_seq s4)).
    { intros HD. apply Hother; [exact only_press_stable| |exact (R5 HD)]. intros _ X. contradiction. }
    assert (Hcl : D = false -> closed (other k) (s_seq s4)).
    { intros HD. apply P7. rewrite E2. eapply closed_snoc; [exact (R6 HD)| |].
      - intros x _ _ Hx. left. exact Hx.
      - intros _. unfold other. destruct (N.eqb_spec (ek e) k); [contradiction|reflexivity]. }
    destruct (loop_calm _ _ _ _ _ Hrun D N4 T4 O4 Hno K4) as [L1 [L2 [L3 [L4 L5]]]].
    assert (K5 : khold D s5 /\ kbuf s5 = []).
    { destruct L3 as [[X1 X2]|[X1 [X2 _]]]; [split; [exact X1|congruence]|]. exfalso. auto. }
    destruct K5 as [K5 B5].
    assert (Hf := finish_k e D s5). cbn zeta in Hf.
    assert (Hrel : let s1 := if kstate_eqb (es e) Up then release_triggered (ek e) None s5 else s5 in
      khold D s1 /\ kbuf s1 = []).
    { cbn zeta. destruct (kstate_eqb (es e) Up); [|auto].
      destruct (release_other (ek e) None s5 Ek D K5) as [Y1 Y2]. split; [exact Y1|congruence]. }
    cbn zeta in Hrel. destruct Hrel as [Hr1 Hr2].
    assert (Eq1 : knext D e = D) by (unfold knext; destruct (N.eqb_spec (ek e) k); [contradiction|reflexivity]).
    rewrite Eq1 in *. destruct Hf as [F1 F2]; auto.
    { apply L1; auto using some_key_stable. }
    { apply L1; auto using usual_stable. }
    { apply L1; auto using no_press_stable. }
    { intros HD. apply L1; auto using only_press_stable. }
    split; [exact F1|]. rewrite F2, Hr2. unfold kout. destruct (N.eqb_spec (ek e) k); [contradiction|reflexivity].
Qed.

Lemma krest_same : forall D s s', s_seq s' = s_seq s -> s_down s' = s_down s -> s_hist s' = s_hist s ->
  s_onrel s' = s_onrel s -> tn s' -> krest D s -> krest D s'.
Proof.
  intros D s s' E1 E2 E3 E4 Ht [R1 R2 R3 R4 R5 R6 R7 R8 R9].
  constructor; rewrite ?E1; auto; try congruence.
  - eapply khold_same; [|exact R4]. unfold kd. rewrite E2. reflexivity.
  - unfold hist_ok. rewrite E3. exact R9.
Qed.

Lemma krest_remove : forall D s i x, nth_error (s_seq s) i = Some x -> es x <> Up -> krest D s ->
  krest D (set_seq (remove_at i (s_seq s)) s).
Proof.
  intros D s i x Hx Hu [R1 R2 R3 R4 R5 R6 R7 R8 R9].
  assert (Hr : forall P, Forall P (s_seq s) -> Forall P (remove_at i (s_seq s))).
  { intros P H. apply Forall_forall. intros y Hy. apply In_remove_at in Hy. exact (proj1 (Forall_forall _ _) H y Hy). }
  constructor; cbn [s_seq set_seq]; auto.
  intros HD. specialize (R6 HD). destruct (nth_error_split _ _ Hx) as [a [b [El Ea]]]. rewrite El in *.
  rewrite <- Ea, remove_at_split. eapply closed_drop; [|exact R6]. intros ->. contradiction.
Qed.

Lemma closed_after : forall a x b, is_press x -> ek x = k -> closed (other k) (a ++ x :: b) -> In (up k) b.
Proof.
  intros a x b Hp Hxk H. apply closed_app_r in H. destruct H as [H _]. rewrite <- Hxk at 1. apply H; [exact Hp|].
  unfold other. rewrite Hxk, N.eqb_refl. reflexivity.
Qed.

Lemma merge_k : forall e dev D s, krest D s ->
  let s' := fst (merge_repeat e dev s) in
  krest D s' /\ s_buf s' = s_buf s /\
  (snd (merge_repeat e dev s) = false -> es e = Down /\ (ek e = k -> D = true)).
Proof.
  intros e dev D s R.
  assert (G : forall s' : state, s_seq s' = s_seq s -> s_down s' = s_down s -> s_hist s' = s_hist s ->
    s_onrel s' = s_onrel s -> s_timeout s' = s_timeout s -> krest D s').
  { intros s' E1 E2 E3 E4 E5. eapply krest_same; eauto. eapply tn_same; [exact E5|apply R]. }
  cbn zeta. unfold merge_repeat. destruct (es e) eqn:Ee;
    try (destruct (dev =? s_rdev s)%Z; cbn [fst snd]; (split; [apply G; reflexivity|split; [reflexivity|discriminate]]); fail).
  assert (Hother : let s' := if (dev =? no_device)%Z then s
             else set_pdev dev (if (dev =? s_rdev s)%Z then set_rdev no_device s else s) in
    krest D s' /\ s_buf s' = s_buf s).
  { cbn zeta. destruct (dev =? no_device)%Z; [auto|]. destruct (dev =? s_rdev s)%Z; split; auto; apply G; reflexivity. }
  cbn zeta in Hother. destruct Hother as [O1 O2].
  destruct (rfind_key (s_seq s) (ek e)) as [i|] eqn:Ei.
  2:{ cbn [fst snd]. split; [exact O1|split; [exact O2|discriminate]]. }
  destruct (nth_error (s_seq s) i) as [x|] eqn:Ex.
  2:{ cbn [fst snd]. split; [exact O1|split; [exact O2|discriminate]]. }
  destruct (kstate_eqb (es x) Up) eqn:Eu; cbn [negb].
  { cbn [fst snd]. split; [exact O1|split; [exact O2|discriminate]]. }
  assert (Hx : es x <> Up) by (intros E; rewrite E in Eu; discriminate).
  assert (Hdown : ek e = k -> D = true).
  { intros Ek. destruct D; [reflexivity|exfalso]. destruct R as [_ R2 _ _ _ R6 _ _ _]. specialize (R6 eq_refl).
    destruct (rfind_last _ _ _ _ Ei Ex) as [a [b [El [Hxk [_ Hb]]]]].
    assert (Hp : is_press x).
    { assert (Hin' : In x (s_seq s)) by (rewrite El; apply in_or_app; right; left; reflexivity).
      destruct (proj1 (Forall_forall _ _) R2 x Hin') as [H|H]; [congruence|exact H|]. rewrite H in Hx. contradiction. }
    rewrite El in R6. apply closed_after in R6; [|exact Hp|congruence].
    apply (Hb _ R6). symmetry; exact Ek. }
  destruct (s_might s); [cbn [fst snd]; auto|].
  destruct (negb (dev =? no_device)%Z).
  2:{ cbn [fst snd]. split; [eapply krest_remove; eauto|]. split; [reflexivity|discriminate]. }
  set (s1 := if (dev =? s_pdev s)%Z then set_rdev dev s else s).
  assert (G1 : krest D s1 /\ s_buf s1 = s_buf s /\ s_seq s1 = s_seq s).
  { unfold s1. destruct (dev =? s_pdev s)%Z; [|auto]. split; [apply G; reflexivity|auto]. }
  clearbody s1. destruct G1 as [G1 [G2 G3]].
  destruct (negb (dev =? s_rdev s1)%Z); cbn [fst snd]; [auto|].
  split; [|split; [exact G2|discriminate]]. rewrite <- G3 in Ex. eapply krest_remove; eauto.
Qed.

Lemma suppress_k : forall e s, let s' := fst (suppress_not_timeout e s) in
  s_seq s' = s_seq s /\ s_down s' = s_down s /\ s_hist s' = s_hist s /\ s_onrel s' = s_onrel s /\
  s_buf s' = s_buf s /\ (tn s -> tn s') /\ (snd (suppress_not_timeout e s) = false -> ek e = k_timeout).
Proof.
  intros e s. unfold suppress_not_timeout. destruct (s_timeout s) as [c|] eqn:Et;
    [|cbn; repeat (split; [auto|]); discriminate].
  assert (G : forall b, tn s -> tn (set_timeout (Some (CT (ct_event c) (ct_trigger c) (ct_output c) b)) s)).
  { intros b Ht c0 E0. cbn in E0. injection E0 as <-. cbn. apply Ht. exact Et. }
  destruct (is_not_timeout (es (ct_event c))); [|cbn; repeat (split; [auto|]); discriminate].
  destruct (N.eqb_spec (ek e) k_timeout) as [E|E].
  - destruct (ev (ct_event c) =? ev e); cbn; repeat (split; [auto|]); auto.
  - destruct (_ && _); cbn; repeat (split; [auto|]); discriminate.
Qed.

Lemma update_k : forall e dev D s, wf_event e -> krest D s -> kbuf s = [] ->
  krest (knext D e) (fst (update cs e dev s)) /\ s_buf (fst (update cs e dev s)) = [] /\
  kout D e (filter (has_key k) (snd (update cs e dev s))).
Proof.
  intros e dev D s Hwf R Hb. unfold update. cbn [fst snd].
  set (s0 := set_exit (advance_exit e (s_exit s)) s).
  assert (R0 : krest D s0) by (eapply krest_same; [| | | | |exact R]; try reflexivity; apply R).
  assert (B0 : kbuf s0 = []) by exact Hb.
  clearbody s0. clear s R Hb.
  cut (krest (knext D e) (apply_input cs e dev s0) /\ kout D e (kbuf (apply_input cs e dev s0))).
  { intros [X1 X2]. split; [|split; [reflexivity|exact X2]].
    eapply krest_same; [| | | | |exact X1]; try reflexivity. apply X1. }
  unfold apply_input.
  assert (E0 : continue_output_on_release e None s0 = (s0, true)).
  { unfold continue_output_on_release. rewrite (kr_rel _ _ R0). reflexivity. }
  rewrite E0. cbn [negb]. clear E0.
  destruct (suppress_k e s0) as [S1 [S2 [S3 [S4 [S5 [S6 S7]]]]]].
  destruct (suppress_not_timeout e s0) as [s1 go1]. cbn [fst snd] in *.
  assert (R1 : krest D s1) by (eapply krest_same; eauto; apply S6; apply R0).
  assert (B1 : kbuf s1 = []) by (unfold kbuf; rewrite S5; exact B0).
  destruct go1; cbn [negb].
  2:{ specialize (S7 eq_refl). assert (Ek : ek e <> k).
      { intros E. destruct Hk as [_ [_ [H _]]]. congruence. }
      unfold knext, kout. destruct (N.eqb_spec (ek e) k); [contradiction|]. auto. }
  destruct (merge_k e dev D s1 R1) as [M1 [M2 M3]].
  destruct (merge_repeat e dev s1) as [s2 go2]. cbn [fst snd] in *.
  assert (B2 : kbuf s2 = []) by (unfold kbuf; rewrite M2; exact B1).
  destruct go2; cbn [negb]; [apply process_k; auto|].
  destruct (M3 eq_refl) as [M4 M5]. unfold knext, kout. rewrite M4. destruct (N.eqb_spec (ek e) k) as [E|E]; [|auto].
  rewrite (M5 E) in *. auto.
Qed.

Lemma contexts_k : forall il D s, krest D s -> s_buf s = [] ->
  krest D (fst (set_active_client_contexts cs il s)) /\ s_buf (fst (set_active_client_contexts cs il s)) = [] /\
  filter (has_key k) (snd (set_active_client_contexts cs il s)) = [].
Proof.
  intros il D s R Hb. unfold set_active_client_contexts. cbn [fst snd].
  set (s0 := set_client il s).
  assert (R0 : krest D s0) by (eapply krest_same; [| | | | |exact R]; try reflexivity; apply R).
  assert (B0 : kbuf s0 = []) by (unfold kbuf; change (s_buf s0) with (s_buf s); rewrite Hb; reflexivity).
  clearbody s0. clear s R Hb.
  destruct (update_active_k cs Hout s0 (kr_rel _ _ R0)) as [U1 [U2 U3]].
  pose proof (update_active_frame cs s0) as F. unfold same_ctx in F.
  destruct (U1 D (kr_hold _ _ R0)) as [K1 K2]. specialize (U2 (kr_tn _ _ R0)).
  set (s1 := update_active_contexts cs s0) in *.
  assert (E : s_seq s1 = s_seq s0 /\ s_hist s1 = s_hist s0) by tauto. clearbody s1. clear F. destruct E as [E1 E2].
  unfold cancel_inactive_output_on_release. rewrite U3. cbn [filter].
  split; [|split; [reflexivity|]].
  - destruct R0 as [R1 R2 R3 R4 R5 R6 R7 R8 R9]. constructor; cbn; rewrite ?E1; auto.
    unfold hist_ok. cbn. rewrite E2. exact R9.
  - cbn. fold (kbuf s1). congruence.
Qed.

(** What was output of the key for the events [h], given whether the key was down. *)
Fixpoint kouts (D : bool) (h : sequence) (o : sequence) : Prop :=
  match h with
  | [] => o = []
  | e :: r => exists o1 o2, o = o1 ++ o2 /\ kout D e o1 /\ kouts (knext D e) r o2
  end.

Lemma run_k : forall l D s, Forall (wf_call cs) l -> Forall (fun c => is_validate c = false) l ->
  krest D s -> s_buf s = [] ->
  kouts D (inputs l) (filter (has_key k) (snd (run cs l s))).
Proof.
  induction l as [|c l IH]; intros D s Hl Hv R Hb; [reflexivity|].
  pose proof (Forall_inv Hl) as Hc. pose proof (Forall_inv Hv) as Hcv. cbn beta in Hcv.
  apply Forall_inv_tail in Hl. apply Forall_inv_tail in Hv.
  cbn [run]. destruct c as [e dev|il|f]; cbn [do_call]; [| |discriminate].
  - destruct Hc as [Hwf _]. assert (Hbk : kbuf s = []) by (unfold kbuf; rewrite Hb; reflexivity).
    destruct (update_k e dev D s Hwf R Hbk) as [U1 [U2 U3]].
    destruct (update cs e dev s) as [s1 o1]. cbn [fst snd] in *.
    specialize (IH _ _ Hl Hv U1 U2). destruct (run cs l s1) as [s2 o2]. cbn [fst snd] in *.
    cbn [inputs flat_map app kouts]. rewrite has_k_app. exists (filter (has_key k) o1), (filter (has_key k) o2).
    auto.
  - destruct (contexts_k il D s R Hb) as [U1 [U2 U3]].
    destruct (set_active_client_contexts cs il s) as [s1 o1]. cbn [fst snd] in *.
    specialize (IH _ _ Hl Hv U1 U2). destruct (run cs l s1) as [s2 o2]. cbn [fst snd] in *.
    rewrite has_k_app, U3. exact IH.
Qed.

Lemma run_krest : forall l D s, Forall (wf_call cs) l -> Forall (fun c => is_validate c = false) l ->
  krest D s -> s_buf s = [] ->
  krest (fold_left knext (inputs l) D) (fst (run cs l s)) /\ s_buf (fst (run cs l s)) = [].
Proof.
  induction l as [|c l IH]; intros D s Hl Hv R Hb; [auto|].
  pose proof (Forall_inv Hl) as Hc. pose proof (Forall_inv Hv) as Hcv. cbn beta in Hcv.
  apply Forall_inv_tail in Hl. apply Forall_inv_tail in Hv.
  cbn [run]. destruct c as [e dev|il|f]; cbn [do_call]; [| |discriminate].
  - destruct Hc as [Hwf _]. assert (Hbk : kbuf s = []) by (unfold kbuf; rewrite Hb; reflexivity).
    destruct (update_k e dev D s Hwf R Hbk) as [U1 [U2 U3]].
    destruct (update cs e dev s) as [s1 o1]. cbn [fst snd] in *.
    specialize (IH _ _ Hl Hv U1 U2). destruct (run cs l s1) as [s2 o2]. exact IH.
  - destruct (contexts_k il D s R Hb) as [U1 [U2 U3]].
    destruct (set_active_client_contexts cs il s) as [s1 o1]. cbn [fst snd] in *.
    specialize (IH _ _ Hl Hv U1 U2). destruct (run cs l s1) as [s2 o2]. exact IH.
Qed.

Lemma init_k : krest false init_state.
Proof. constructor; cbn; try constructor; auto; try discriminate; constructor. Qed.

End WithContexts.
End Key.

(** * The whole history *)

Definition after (D : bool) (l : sequence) (k : key) : bool :=
  match find_last (has_key k) l with Some e => kstate_eqb (es e) Down | None => D end.

Lemma after_app : forall D a b k, after D (a ++ b) k = after (after D a k) b k.
Proof.
  intros D a b k. unfold after.
  assert (E : find_last (has_key k) (a ++ b) =
    match find_last (has_key k) b with Some e => Some e | None => find_last (has_key k) a end).
  { induction a as [|x a IH]; cbn; [destruct (find_last (has_key k) b); reflexivity|]. rewrite IH.
    destruct (find_last (has_key k) b); reflexivity. }
  rewrite E. destruct (find_last (has_key k) b); reflexivity.
Qed.

Lemma kouts_after : forall k h D o, kouts k D h o -> Forall (fun e => es e = Down \/ es e = Up) h ->
  after D o k = after D h k.
Proof.
  intros k. induction h as [|e h IH]; intros D o H Hs; [cbn in H; subst; reflexivity|].
  destruct H as [o1 [o2 [-> [H1 H2]]]]. pose proof (Forall_inv Hs) as He. apply Forall_inv_tail in Hs.
  specialize (IH _ _ H2 Hs). rewrite after_app. change (e :: h) with ([e] ++ h). rewrite after_app.
  assert (E : after D o1 k = knext k D e /\ after D [e] k = knext k D e).
  { split; [|unfold after, knext; cbn; unfold has_key; destruct (ek e =? k); reflexivity].
    unfold kout, knext, after in *. destruct (N.eqb_spec (ek e) k) as [Ek|Ek]; [|subst; reflexivity].
    destruct He as [Ee|Ee]; rewrite Ee in *.
    - destruct D; [destruct H1 as [->|[->| ->]]|subst o1]; cbn; rewrite ?N.eqb_refl; try reflexivity;
        unfold has_key; cbn; rewrite ?N.eqb_refl; reflexivity.
    - destruct D; subst o1; cbn; unfold has_key; cbn; rewrite ?N.eqb_refl; reflexivity. }
  destruct E as [-> ->]. exact IH.
Qed.

Lemma kouts_strokes : forall k h D o, kouts k D h o -> strokes D (track k h) ->
  Forall (fun e => ek e = k -> ev e = 0) h -> o = filter (has_key k) h.
Proof.
  intros k. induction h as [|e h IH]; intros D o H Hs Hv; [exact H|].
  destruct H as [o1 [o2 [-> [H1 H2]]]]. pose proof (Forall_inv Hv) as He. cbn beta in He. apply Forall_inv_tail in Hv.
  unfold track in Hs. cbn [filter] in *. change (has_key k e) with (ek e =? k) in *. unfold kout, knext in *.
  destruct (N.eqb_spec (ek e) k) as [Ek|Ek].
  - cbn [map] in Hs. specialize (He Ek). destruct (es e) eqn:Ee; cbn [strokes] in Hs; try contradiction.
    + destruct Hs as [-> Hs]. subst o1. cbn [app]. f_equal; [|eapply IH; eauto].
      destruct e; cbn in *; subst; reflexivity.
    + destruct Hs as [-> Hs]. subst o1. cbn [app]. f_equal; [|eapply IH; eauto].
      destruct e; cbn in *; subst; reflexivity.
  - subst o1. cbn [app]. eapply IH; eauto.
Qed.

Lemma inputs_states : forall cs l, Forall (wf_call cs) l -> Forall wf_event (inputs l).
Proof.
  induction l as [|c l IH]; intros H; [constructor|]. pose proof (Forall_inv H) as Hc. apply Forall_inv_tail in H.
  destruct c as [e dev|il|f]; cbn; auto. constructor; [apply Hc|auto].
Qed.

Lemma question_input : forall k cs c i, unmentioned k cs -> question_first cs -> In c cs -> In i (cx_inputs c) ->
  input_k k (in_seq i).
Proof.
  intros k cs c i Hu Hq Hc Hi. destruct (Hu c Hc) as [Hu1 _].
  assert (Hf : forall l, incl l (in_seq i) -> Forall (fun e => es e <> NoMightMatch) l -> Forall (foreign k) l).
  { intros l Hl HF. apply Forall_forall. intros e He. destruct (Hu1 i e Hi (Hl e He)) as [H2 H3].
    split; [exact H2|]. split; [exact H3|]. exact (proj1 (Forall_forall _ _) HF e He). }
  destruct (Hq c i Hc Hi) as [H|[r [E H]]].
  - left. apply Hf; [apply incl_refl|exact H].
  - right. exists (ev0 k_none NoMightMatch), r. split; [exact E|]. split; [reflexivity|]. split; [reflexivity|].
    apply Hf; [|exact H]. rewrite E. intros x Hx. right. exact Hx.
Qed.

Lemma untouched_outs : forall cs k l, device_button k -> unmentioned k cs -> question_first cs ->
  no_output_on_release cs -> Forall (wf_call cs) l -> Forall (fun c => is_validate c = false) l ->
  kouts k false (inputs l) (filter (has_key k) (snd (run cs l init_state))).
Proof.
  intros cs k l Hk Hu Hh Ho Hl Hv.
  refine (run_k k Hk (fun te => is_not_timeout (es te) = true) (fun te H => H) cs _ _ (fun e _ te H => H)
    l false init_state Hl Hv (init_k k _ _) eq_refl).
  - intros c i Hc Hi. eapply question_input; eauto.
  - intros c o Hc Hi. apply Forall_forall. intros e He. destruct (Hu c Hc) as [_ H1].
    destruct (H1 o e Hi He) as [H2 H3]. split; [exact H2|]. split; [exact H3|]. eapply Ho; eauto.
Qed.
