(** A key which is held back because a mapping starts with it is output later. *)
From Coq Require Import List Arith NArith ZArith Bool Lia.
From Verif Require Import Base Key Match MatchProofs Stage StageSpec StageFrame StageTerm StageOut StageSafe
  StuckSpec StuckMatch StageStuck UntouchedSpec StageUntouched.
Import ListNotations.
Local Open Scope N_scope.

(** * The matcher *)

Section Quiet.
Variable k : key.
Hypothesis Hk : device_button k.

(** Neither a press nor a release of the key which is still to be handled. *)
Definition quiet (x : event) : Prop := ~ (ek x = k /\ (es x = Down \/ es x = Up)).

Lemma step_quiet : forall ee se at_end m, ee = matches_none \/ foreign k ee ->
  Forall (fun x => ek x <> k /\ ek x <> k_any) (ms_async m) -> ms_nmm m = false ->
  match match_step ee se at_end m with
  | MGo ae as_ m' => Forall (fun x => ek x <> k /\ ek x <> k_any) (ms_async m') /\ ms_nmm m' = false /\
      (as_ = true -> quiet se)
  | MRet r _ => r <> NoMatch -> at_end = true \/ se = matches_none
  end.
Proof.
  intros ee se at_end m He Ha Hn.
  assert (Hee : ek ee <> k /\ ek ee <> k_any /\ es ee <> NoMightMatch).
  { destruct He as [->|He]; [|exact He]. destruct Hk as [H1 _]. repeat split; try discriminate; cbn; congruence. }
  assert (Hu : ek se = k -> es se = Down \/ es se = Up -> unif_event se ee = false).
  { intros H1 H2. unfold unif_event. rewrite H1. destruct (unif_key_foreign k Hk (ek ee)) as [-> _]; try tauto.
    cbn [negb]. destruct (_ && _); [reflexivity|]. destruct (_ && _); reflexivity. }
  unfold match_step. cbn [ms_async ms_not ms_ign ms_any ms_nmm ms_e ms_down].
  destruct (_ && mem_key (ek se) _); [intros H; contradiction|].
  destruct (_ || _).
  { split; [|split; [exact Hn|discriminate]]. apply Forall_app. split; [exact Ha|]. repeat constructor; tauto. }
  destruct (kstate_eqb (es ee) Not && _); [split; [exact Ha|split; [exact Hn|discriminate]]|].
  destruct (N.eqb_spec (ek ee) k_any) as [?|_]; [tauto|]. cbn [andb].
  destruct (unif_event se ee) eqn:E3.
  { split; [|split; [exact Hn|]].
    - apply Forall_forall. intros x Hx. apply filter_In in Hx. exact (proj1 (Forall_forall _ _) Ha x (proj1 Hx)).
    - intros _ [H1 H2]. specialize (Hu H1 H2). congruence. }
  destruct (_ && event_eqb se matches_none) eqn:E4.
  { intros _. right. apply andb_prop in E4. apply event_eqb_eq'. apply E4. }
  destruct (kstate_eqb (es ee) NoMightMatch) eqn:E5; [apply kstate_eqb_eq in E5; tauto|].
  rewrite Hn. cbn [andb].
  assert (Hf : ek se = k ->
    find_index (fun x => kstate_eqb (es x) (match es se with Up => UpAsync | _ => DownAsync end)
                         && unif_key (ek se) (ek x)) (ms_async m) = None).
  { intros H1. apply find_none. intros x Hx. destruct (proj1 (Forall_forall _ _) Ha x Hx) as [X1 X2].
    rewrite H1. destruct (unif_key_foreign k Hk (ek x) X1 X2) as [-> _]. apply andb_false_r. }
  destruct (find_index _ (ms_async m)) as [i|] eqn:E6.
  { split; [|split; [reflexivity|]].
    - apply Forall_forall. intros x Hx. cbn [ms_async] in Hx. apply In_update_at in Hx.
      destruct Hx as [Hx|[y [Hy ->]]]; [exact (proj1 (Forall_forall _ _) Ha x Hx)|].
      assert (Hy' : In y (ms_async m)) by (eapply nth_error_In; eauto).
      exact (proj1 (Forall_forall _ _) Ha y Hy').
    - intros _ [H1 H2]. specialize (Hf H1). congruence. }
  destruct (kstate_eqb (es se) DownMatched || kstate_eqb (es se) UpMatched) eqn:E7.
  { split; [exact Ha|split; [reflexivity|]]. intros _ [_ [H2|H2]]; rewrite H2 in E7; discriminate. }
  clear E6 Hf. destruct (find_index _ (ms_async m)) as [i|] eqn:E8.
  { split; [|split; [reflexivity|discriminate]]. apply Forall_forall. intros x Hx. cbn [ms_async] in Hx.
    apply In_remove_at in Hx. exact (proj1 (Forall_forall _ _) Ha x Hx). }
  destruct (kstate_eqb (es ee) Down && _); [split; [exact Ha|split; [reflexivity|discriminate]]|].
  destruct ((ek se =? k_timeout) && _ && _) eqn:E9.
  { split; [exact Ha|split; [reflexivity|]]. intros _ [H1 _]. rewrite H1 in E9.
    destruct Hk as [_ [_ [Ht _]]]. destruct (N.eqb_spec k k_timeout); [contradiction|discriminate]. }
  destruct at_end; [auto|]. intros H. contradiction.
Qed.

Lemma loop_quiet : forall fuel ex sq m r a t, Forall (foreign k) ex -> no_none sq ->
  Forall (fun x => ek x <> k /\ ek x <> k_any) (ms_async m) -> ms_nmm m = false ->
  match_loop fuel ex sq m = Some (r, a, t) -> r <> NoMatch -> Forall quiet sq.
Proof.
  induction fuel as [|fuel IH]; intros ex sq m r a t Hex Hsq Ha Hn H Hr; cbn [match_loop] in H.
  - destruct ex, sq; try discriminate. constructor.
  - assert (Hd : ex = [] /\ sq = [] \/
      match match_step (hd matches_none ex) (hd matches_none sq)
              (match sq with [] => true | _ => false end) m with
      | MRet r t => Some (r, ms_any m, t)
      | MGo ae as_ m' => match_loop fuel (tl_if ae ex) (tl_if as_ sq) m'
      end = Some (r, a, t)) by (destruct ex, sq; auto).
    clear H. destruct Hd as [[_ ->]|H]; [constructor|].
    assert (He : hd matches_none ex = matches_none \/ foreign k (hd matches_none ex)).
    { destruct ex; [left; reflexivity|right]. exact (Forall_inv Hex). }
    pose proof (step_quiet (hd matches_none ex) (hd matches_none sq)
      (match sq with [] => true | _ => false end) m He Ha Hn) as Hs.
    destruct (match_step _ _ _ m) as [r' t'|ae as_ m'].
    + injection H as -> _ _. destruct sq as [|x sq]; [constructor|exfalso].
      destruct (Hs Hr) as [E|E]; [discriminate|]. cbn in E. subst x. apply (Forall_inv Hsq). reflexivity.
    + destruct Hs as [H1 [H2 H3]].
      assert (Hrest : Forall quiet (tl_if as_ sq)).
      { eapply (IH (tl_if ae ex)); try exact H; auto.
        - destruct ae; [|exact Hex]. destruct ex; [exact Hex|]. exact (Forall_inv_tail Hex).
        - destruct as_; [|exact Hsq]. destruct sq; [exact Hsq|]. exact (Forall_inv_tail Hsq). }
      destruct as_; [|exact Hrest]. destruct sq as [|x sq]; [constructor|]. constructor; [|exact Hrest].
      apply H3. reflexivity.
Qed.

Lemma match_quiet : forall ex sq r a t, Forall (foreign k) ex -> no_none sq ->
  match_keys ex sq = Some (r, a, t) -> r <> NoMatch -> Forall quiet sq.
Proof.
  intros ex sq r a t Hex Hsq H Hr. eapply loop_quiet; try exact H; auto. constructor.
Qed.

End Quiet.

(** Inputs which need a press of a key do not match sequences without the key. *)
Section Needs.
Variable j : key.
Hypothesis Hj : j <> k_none /\ j <> k_any /\ j <> k_timeout.

Definition calm_async (x : event) : Prop :=
  ek x <> k_any /\ (ek x = j -> es x <> Down /\ es x <> DownMatched /\ es x <> UpAsync).
Definition inner (e : event) : Prop := ek e <> k_any /\ es e <> NoMightMatch.

Lemma unmatched_no_up : forall l r, Forall calm_async l ->
  (forall p, r = Some p -> p <> ev0 j UpAsync) -> unmatched_async_pair j r l = false.
Proof.
  induction l as [|x l IH]; intros r Hl Hr; [reflexivity|]. cbn [unmatched_async_pair].
  pose proof (Forall_inv Hl) as [_ Hx]. apply Forall_inv_tail in Hl.
  destruct (event_eqb x _).
  - destruct r as [p|]; [|reflexivity]. specialize (Hr p eq_refl).
    destruct (event_eqb p (ev0 j UpAsync)) eqn:E; [|reflexivity]. apply event_eqb_eq' in E. contradiction.
  - apply IH; [exact Hl|]. intros p [= <-] ->. destruct (Hx eq_refl) as [_ [_ H]]. contradiction.
Qed.

Lemma unif_event_same_key : forall x y, ek x <> k_any -> ek y <> k_any -> unif_event x y = true -> ek x = ek y.
Proof.
  intros x y Hx Hy H. apply unif_key_same; auto. unfold unif_event in H.
  destruct (unif_key (ek x) (ek y)); [reflexivity|exfalso].
  repeat match type of H with context [if ?b then _ else _] => destruct b eqn:?; cbn in H; try discriminate end.
Qed.

(** An event of the input which comes before the press of the key. *)
Lemma step_before : forall ee se at_end m, inner ee -> (ek ee = j -> es ee <> UpAsync) ->
  ek se <> j -> ek se <> k_any -> Forall calm_async (ms_async m) -> ms_nmm m = false ->
  match match_step ee se at_end m with
  | MGo _ _ m' => Forall calm_async (ms_async m') /\ ms_nmm m' = false
  | MRet r _ => r <> Matched
  end.
Proof.
  intros ee se at_end m [Hi1 Hi2] Hup Hs1 Hs2 Ha Hn.
  unfold match_step. cbn [ms_async ms_not ms_ign ms_any ms_nmm ms_e ms_down].
  destruct (_ && mem_key (ek se) _); [discriminate|].
  destruct (kstate_eqb (es ee) DownAsync || kstate_eqb (es ee) UpAsync) eqn:E1.
  { split; [|exact Hn]. apply Forall_app. split; [exact Ha|]. constructor; [|constructor]. split; [exact Hi1|].
    intros E. specialize (Hup E). destruct (es ee); try discriminate E1; try contradiction. repeat split; discriminate. }
  destruct (kstate_eqb (es ee) Not && _); [split; [exact Ha|exact Hn]|].
  destruct (N.eqb_spec (ek ee) k_any) as [?|_]; [tauto|]. cbn [andb].
  destruct (unif_event se ee) eqn:E3.
  { split; [|exact Hn]. apply Forall_forall. intros x Hx. apply filter_In in Hx. exact (proj1 (Forall_forall _ _) Ha x (proj1 Hx)). }
  destruct (_ && event_eqb se matches_none) eqn:E4; [discriminate|].
  destruct (kstate_eqb (es ee) NoMightMatch) eqn:E5; [apply kstate_eqb_eq in E5; tauto|].
  rewrite Hn. cbn [andb].
  destruct (find_index _ (ms_async m)) as [i|] eqn:E6.
  { split; [|reflexivity]. apply find_index_In in E6. destruct E6 as [x [Ex [Hx E6]]].
    apply andb_prop in E6. destruct E6 as [_ E6].
    assert (Hxa : ek x <> k_any) by exact (proj1 (proj1 (Forall_forall _ _) Ha x Hx)).
    apply unif_key_same in E6; auto.
    apply Forall_forall. intros y Hy. cbn [ms_async] in Hy. apply In_update_at in Hy.
    destruct Hy as [Hy|[z [Hz ->]]]; [exact (proj1 (Forall_forall _ _) Ha y Hy)|].
    assert (z = x) by congruence. subst z. split; [exact Hxa|]. cbn. congruence. }
  destruct (kstate_eqb (es se) DownMatched || kstate_eqb (es se) UpMatched); [split; [exact Ha|reflexivity]|].
  clear E6. destruct (find_index _ (ms_async m)) as [i|] eqn:E8.
  { split; [|reflexivity]. apply Forall_forall. intros x Hx. cbn [ms_async] in Hx.
    apply In_remove_at in Hx. exact (proj1 (Forall_forall _ _) Ha x Hx). }
  destruct (kstate_eqb (es ee) Down && _); [split; [exact Ha|reflexivity]|].
  destruct ((ek se =? k_timeout) && _ && _) eqn:E9; [split; [exact Ha|reflexivity]|].
  destruct at_end; discriminate.
Qed.

(** The press of the key is not passed over. *)
Lemma step_press : forall ee se at_end m, ek ee = j -> es ee = Down ->
  ek se <> j -> ek se <> k_any -> Forall calm_async (ms_async m) -> ms_nmm m = false ->
  match match_step ee se at_end m with MGo ae _ _ => ae = false | MRet _ _ => True end.
Proof.
  intros ee se at_end m He1 He2 Hs1 Hs2 Ha Hn.
  unfold match_step. cbn [ms_async ms_not ms_ign ms_any ms_nmm ms_e ms_down].
  destruct (_ && mem_key (ek se) _); [exact Logic.I|]. rewrite He2. cbn [kstate_eqb orb andb].
  destruct (N.eqb_spec (ek ee) k_any) as [?|_]; [exfalso; intuition congruence|]. cbn [andb].
  destruct (unif_event se ee) eqn:E3.
  { exfalso. apply unif_event_same_key in E3; [congruence|exact Hs2|rewrite He1; tauto]. }
  destruct (_ && event_eqb se matches_none) eqn:E4; [exact Logic.I|].
  rewrite Hn. cbn [andb].
  destruct (find_index _ (ms_async m)) as [i|] eqn:E6; [reflexivity|].
  destruct (kstate_eqb (es se) DownMatched || kstate_eqb (es se) UpMatched); [reflexivity|].
  clear E6. destruct (find_index _ (ms_async m)) as [i|] eqn:E8.
  { exfalso. apply find_index_In in E8. destruct E8 as [x [_ [Hx E8]]].
    destruct (proj1 (Forall_forall _ _) Ha x Hx) as [X1 X2].
    assert (Ex : ek x = j).
    { apply unif_event_same_key in E8; [congruence|rewrite He1; tauto|exact X1]. }
    destruct (X2 Ex) as [X3 [X4 _]]. unfold unif_event in E8. rewrite He1, He2, Ex in E8.
    destruct (N.eqb_spec j k_any); [tauto|]. destruct (N.eqb_spec j k_timeout); [tauto|]. cbn [andb] in E8.
    destruct (negb _); [discriminate|]. unfold unif_state in E8. apply kstate_eqb_eq in E8.
    destruct (es x); try discriminate E8; contradiction. }
  rewrite He1, (unmatched_no_up _ None Ha) by discriminate.
  destruct (_ && ms_down m); [reflexivity|exact Logic.I].
Qed.

Lemma loop_needs : forall fuel a x b sq m r u t, Forall inner a -> Forall (fun e => ek e = j -> es e <> UpAsync) a ->
  ek x = j -> es x = Down -> Forall (fun e => ek e <> j /\ ek e <> k_any) sq ->
  Forall calm_async (ms_async m) -> ms_nmm m = false ->
  match_loop fuel (a ++ x :: b) sq m = Some (r, u, t) -> r <> Matched.
Proof.
  induction fuel as [|fuel IH]; intros a x b sq m r u t Ha Hau Hx1 Hx2 Hsq Hc Hn H.
  - destruct a, sq; discriminate.
  - set (ex := a ++ x :: b) in *.
    assert (Hs : ek (hd matches_none sq) <> j /\ ek (hd matches_none sq) <> k_any).
    { destruct sq as [|y sq]; [|exact (Forall_inv Hsq)]. cbn. split; [|discriminate]. intros E. apply (proj1 Hj). symmetry. exact E. }
    assert (Hsq' : forall b0, Forall (fun e => ek e <> j /\ ek e <> k_any) (tl_if b0 sq)).
    { intros [|]; [|exact Hsq]. destruct sq; [exact Hsq|exact (Forall_inv_tail Hsq)]. }
    assert (Hd : match match_step (hd matches_none ex) (hd matches_none sq)
              (match sq with [] => true | _ => false end) m with
      | MRet r t => Some (r, ms_any m, t)
      | MGo ae as_ m' => match_loop fuel (tl_if ae ex) (tl_if as_ sq) m'
      end = Some (r, u, t)).
    { cbn [match_loop] in H. destruct ex eqn:Ex; [|exact H]. exfalso. unfold ex in Ex. destruct a; discriminate. }
    clear H.
    assert (Hin : inner (hd matches_none ex) /\ (ek (hd matches_none ex) = j -> es (hd matches_none ex) <> UpAsync)).
    { unfold ex. destruct a as [|y a]; cbn [app hd]; [|split; [exact (Forall_inv Ha)|exact (Forall_inv Hau)]].
      split; [split; [rewrite Hx1; tauto|]|]; rewrite Hx2; discriminate. }
    pose proof (step_before (hd matches_none ex) (hd matches_none sq) (match sq with [] => true | _ => false end) m
      (proj1 Hin) (proj2 Hin) (proj1 Hs) (proj2 Hs) Hc Hn) as S1.
    destruct a as [|y a].
    + pose proof (step_press (hd matches_none ex) (hd matches_none sq) (match sq with [] => true | _ => false end) m
        Hx1 Hx2 (proj1 Hs) (proj2 Hs) Hc Hn) as S2.
      destruct (match_step _ _ _ m) as [r' t'|ae as_ m']; [congruence|]. subst ae. destruct S1 as [S1 S3].
      cbn [tl_if] in Hd. refine (IH [] x b _ m' r u t _ _ Hx1 Hx2 (Hsq' as_) S1 S3 Hd); constructor.
    + destruct (match_step _ _ _ m) as [r' t'|ae as_ m']; [congruence|]. destruct S1 as [S1 S3].
      destruct ae.
      * refine (IH a x b _ m' r u t _ _ Hx1 Hx2 (Hsq' as_) S1 S3 Hd);
          [exact (Forall_inv_tail Ha)|exact (Forall_inv_tail Hau)].
      * refine (IH (y :: a) x b _ m' r u t Ha Hau Hx1 Hx2 (Hsq' as_) S1 S3 Hd).
Qed.

Lemma match_needs : forall a x b sq r u t, Forall inner a -> Forall (fun e => ek e = j -> es e <> UpAsync) a ->
  ek x = j -> es x = Down -> Forall (fun e => ek e <> j /\ ek e <> k_any) sq ->
  match_keys (a ++ x :: b) sq = Some (r, u, t) -> r <> Matched.
Proof.
  intros a x b sq r u t H1 H2 H3 H4 H5 H. refine (loop_needs _ a x b sq ms_init r u t H1 H2 H3 H4 H5 _ eq_refl H).
  constructor.
Qed.

End Needs.

(** * What is still to be output of the key *)

Definition anykind (te : event) : Prop := True.
Lemma any_kind : forall te, is_not_timeout (es te) = true -> anykind te.
Proof. intros. exact Logic.I. Qed.
Definition tno : state -> Prop := tn anykind.
Lemma tno_none : forall s, tno s -> forall c, s_timeout s = Some c -> ct_output c = None.
Proof. intros s H c Hc. apply (H c Hc Logic.I). Qed.
Lemma timing_any : forall e, ek e <> k_timeout -> timing anykind e.
Proof. intros e H H'. contradiction. Qed.

Definition ends (b : bool) (l : sequence) : bool := fold_left (fun _ e => kstate_eqb (es e) Down) l b.

Lemma ends_app : forall b l m, ends b (l ++ m) = ends (ends b l) m.
Proof. intros. apply fold_left_app. Qed.

Lemma strokes_ends : forall (l m : sequence) b, strokes b (map es (l ++ m)) -> strokes (ends b l) (map es m).
Proof.
  induction l as [|x l IH]; intros m b H; [exact H|]. cbn [app map strokes] in H.
  change (ends b (x :: l)) with (ends (kstate_eqb (es x) Down) l).
  destruct (es x); try contradiction; cbn [kstate_eqb]; apply IH; tauto.
Qed.

Section Held.
Variable k : key.
Hypothesis Hk : device_button k.

(** The presses and releases of the key which are still to be handled. *)
Definition waits (x : event) : bool := (ek x =? k) && (kstate_eqb (es x) Down || kstate_eqb (es x) Up).
Definition q (l : sequence) : sequence := filter waits l.
Fixpoint skip (l : sequence) : sequence :=
  match l with x :: r => if kstate_eqb (es x) Up then skip r else l | [] => [] end.
(** Those which are still to be output: releases count only while the key is held. *)
Definition wait (b : bool) (l : sequence) : sequence := if b then q l else skip (q l).

Lemma waits_quiet : forall x, quiet k x -> waits x = false.
Proof.
  intros x H. unfold waits. destruct (N.eqb_spec (ek x) k); [|reflexivity].
  destruct (es x) eqn:E; try reflexivity; exfalso; apply H; auto.
Qed.
Lemma waits_other : forall x, ek x <> k -> waits x = false.
Proof. intros x H. unfold waits. destruct (N.eqb_spec (ek x) k); [contradiction|reflexivity]. Qed.
Lemma waits_matched : forall x, waits (set_es DownMatched x) = false.
Proof. intros x. unfold waits. cbn. apply andb_false_r. Qed.
Lemma waits_matched' : forall x, es x = DownMatched -> waits x = false.
Proof. intros x H. unfold waits. rewrite H. apply andb_false_r. Qed.

Lemma q_app : forall a b, q (a ++ b) = q a ++ q b.
Proof. intros. apply filter_app. Qed.
Lemma q_cons : forall x l, waits x = false -> q (x :: l) = q l.
Proof. intros x l H. cbn. rewrite H. reflexivity. Qed.
Lemma q_mid : forall a x b, waits x = false -> q (a ++ x :: b) = q (a ++ b).
Proof. intros. rewrite !q_app, q_cons; auto. Qed.

Lemma finish_q : forall n l, Forall (quiet k) (firstn n l) -> q (finish_loop n l) = q l.
Proof.
  induction n as [|n IH]; intros [|x l] H; try reflexivity. cbn [firstn] in H.
  pose proof (Forall_inv H) as Hx. apply Forall_inv_tail in H. cbn [finish_loop].
  rewrite (q_cons x l) by (apply waits_quiet; exact Hx). rewrite <- (IH l H).
  assert (Hu : ek x = k_timeout -> waits (set_es UpMatched x) = false).
  { intros E. apply waits_other. cbn. rewrite E. unfold device_button in Hk. intuition congruence. }
  destruct (es x); try (destruct (N.eqb_spec (ek x) k_timeout); [apply q_cons; auto|reflexivity]).
  all: destruct (contains_ev _ _); [reflexivity|]; apply q_cons, waits_matched.
Qed.

(** What is known of the events of the sequence. *)
Definition plain_k (x : event) : Prop := ek x = k -> x = ev0 k Down \/ x = ev0 k DownMatched \/ x = up k.

Lemma plain_stable : stable plain_k.
Proof.
  split; intros x Hx.
  - intros E. cbn in E. right; left. destruct (Hx E) as [->|[->| ->]]; reflexivity.
  - intros H1 H2. exfalso. cbn in H2. unfold device_button in Hk. intuition congruence.
Qed.

(** The presses and releases [tot] are those output in the call and those to be output. *)
Definition owes (b0 : bool) (tot : sequence) (s : state) : Prop :=
  exists b, khold k b s /\ b = ends b0 (kbuf k s) /\ kbuf k s ++ wait b (s_seq s) = tot.

Lemma owes_same : forall b0 tot s s', q (s_seq s') = q (s_seq s) -> ksame k s s' -> owes b0 tot s -> owes b0 tot s'.
Proof.
  intros b0 tot s s' Hq Hs [b [H1 [H2 H3]]]. destruct (Hs b H1) as [G1 G2]. exists b.
  split; [exact G1|]. rewrite G2. split; [exact H2|]. unfold wait in *. rewrite Hq. exact H3.
Qed.

Lemma skip_strokes : forall (l : sequence), strokes false (map es l) -> skip l = l.
Proof. intros [|x l] H; [reflexivity|]. cbn in *. destruct (es x); try reflexivity. destruct H; discriminate. Qed.

Lemma owes_press : forall b0 tot s s', strokes b0 (map es tot) -> q (s_seq s) = ev0 k Down :: q (s_seq s') ->
  (forall b, khold k b s -> khold k true s' /\
     exists x, kbuf k s' = kbuf k s ++ x /\ (x = [ev0 k Down] \/ (b = true /\ x = [up k; ev0 k Down]))) ->
  owes b0 tot s -> owes b0 tot s'.
Proof.
  intros b0 tot s s' Ht Hq Hs [b [H1 [H2 H3]]]. destruct (Hs b H1) as [G1 [x [G2 G3]]].
  rewrite <- H3 in Ht. apply strokes_ends in Ht. rewrite <- H2 in Ht.
  assert (Eb : b = false) by (destruct b; [|reflexivity]; cbn in Ht; rewrite Hq in Ht; cbn in Ht; tauto).
  subst b. rewrite Eb in *. unfold wait in H3. rewrite Hq in H3. cbn [skip es ev0 kstate_eqb] in H3.
  destruct G3 as [->|[X _]]; [|discriminate].
  exists true. split; [exact G1|]. split.
  - rewrite G2, ends_app. reflexivity.
  - rewrite G2, <- app_assoc. exact H3.
Qed.

Lemma owes_release : forall b0 tot s s', strokes b0 (map es tot) -> q (s_seq s) = up k :: q (s_seq s') ->
  (forall b, khold k b s -> khold k false s' /\ kbuf k s' = kbuf k s ++ if b then [up k] else []) ->
  owes b0 tot s -> owes b0 tot s'.
Proof.
  intros b0 tot s s' Ht Hq Hs [b [H1 [H2 H3]]]. destruct (Hs b H1) as [G1 G2].
  rewrite <- H3 in Ht. apply strokes_ends in Ht. rewrite <- H2 in Ht.
  exists false. split; [exact G1|]. destruct b.
  - split; [rewrite G2, ends_app; reflexivity|]. rewrite G2, <- app_assoc. unfold wait in *. rewrite Hq in *.
    cbn in Ht. destruct Ht as [_ Ht]. rewrite (skip_strokes _ Ht). exact H3.
  - rewrite app_nil_r in G2. rewrite G2. split; [exact H2|]. unfold wait in *. rewrite Hq in H3. exact H3.
Qed.

(** The release of the key itself, at the end of its call. *)
Lemma owes_last : forall b0 tot s s', strokes b0 (map es tot) -> ends b0 tot = false ->
  s_seq s' = s_seq s ->
  (forall b, khold k b s -> khold k false s' /\ kbuf k s' = kbuf k s ++ if b then [up k] else []) ->
  Forall plain_k (s_seq s) ->
  owes b0 tot s -> owes b0 tot s'.
Proof.
  intros b0 tot s s' Ht He Hq Hs Hp [b [H1 [H2 H3]]]. destruct (Hs b H1) as [G1 G2].
  exists false. split; [exact G1|]. destruct b.
  - unfold wait in *. rewrite G2, Hq. destruct (q (s_seq s)) as [|x l] eqn:Eq.
    + rewrite app_nil_r in H3. rewrite H3 in H2. congruence.
    + rewrite <- H3 in Ht. apply strokes_ends in Ht. rewrite <- H2 in Ht. cbn in Ht.
      assert (Hx : x = up k).
      { assert (Hx : In x (q (s_seq s))) by (rewrite Eq; left; reflexivity). apply filter_In in Hx. destruct Hx as [Hx Hw].
        unfold waits in Hw. apply andb_prop in Hw. destruct Hw as [Hw _]. apply N.eqb_eq in Hw.
        destruct (proj1 (Forall_forall _ _) Hp x Hx Hw) as [->|[->| ->]]; [|contradiction|reflexivity].
        destruct Ht; discriminate. }
      subst x. cbn in Ht. destruct Ht as [_ Ht]. split; [rewrite ends_app; reflexivity|].
      cbn [skip es up ev0 kstate_eqb]. rewrite (skip_strokes _ Ht), <- app_assoc. exact H3.
  - rewrite app_nil_r in G2. rewrite G2. split; [exact H2|]. unfold wait in *. rewrite Hq. exact H3.
Qed.

(** Forwarding outputs the first event which is not handled yet. *)
Lemma forward_owes : forall b0 tot l pre s, strokes b0 (map es tot) -> Forall (fun x => es x = DownMatched) pre ->
  Forall plain_k l -> tno s -> s_seq s = pre ++ l -> owes b0 tot s -> owes b0 tot (forward_loop pre l s).
Proof.
  intros b0 tot. induction l as [|y l IH]; intros pre s Ht Hpre Hl Hto Hs Ho; [exact Ho|].
  pose proof (Forall_inv Hl) as Hy. apply Forall_inv_tail in Hl. cbn [forward_loop].
  assert (Qpre : forall r, q (pre ++ r) = q r).
  { intros r. rewrite q_app. replace (q pre) with (@nil event); [reflexivity|]. clear - Hpre.
    induction pre as [|x p IHp]; [reflexivity|]. rewrite q_cons; [apply IHp; exact (Forall_inv_tail Hpre)|].
    apply waits_matched'. exact (Forall_inv Hpre). }
  assert (Hq : q (s_seq s) = q (y :: l)) by (rewrite Hs; apply Qpre).
  assert (Hsame : forall s1 r, ek y <> k \/ es y = DownMatched -> q r = q l -> ksame k s s1 -> owes b0 tot (set_seq (pre ++ r) s1)).
  { intros s1 r Hy1 Hr K. apply (owes_same b0 tot s); [| |exact Ho].
    - cbn [s_seq set_seq]. rewrite Qpre, Hq, Hr. symmetry. apply q_cons.
      destruct Hy1; [apply waits_other|apply waits_matched']; assumption.
    - intros b Hb. exact (K b Hb). }
  assert (Hup : es y <> Down -> es y <> DownMatched -> owes b0 tot (set_seq (pre ++ l) (release_triggered (ek y) None s))).
  { intros N1 N2. destruct (N.eq_dec (ek y) k) as [Ek|Ek].
    - assert (y = up k) by (destruct (Hy Ek) as [->|[->| ->]]; try reflexivity; cbn in *; contradiction). subst y.
      apply (owes_release b0 tot s); [exact Ht| | |exact Ho].
      + cbn [s_seq set_seq]. rewrite Qpre, Hq. unfold q. cbn [filter]. unfold waits at 1. cbn. rewrite N.eqb_refl. reflexivity.
      + intros b Hb. exact (release_this k Hk b s Hb).
    - apply Hsame; [left; exact Ek|reflexivity|]. apply release_other. exact Ek. }
  destruct (es y) eqn:Ey; try (apply Hup; discriminate); clear Hup.
  - assert (Eu : match s_timeout s with
      | Some c => match ct_output c with Some _ => s | None => update_output y (TKey (ek y)) None s end
      | None => update_output y (TKey (ek y)) None s end = update_output y (TKey (ek y)) None s).
    { destruct (s_timeout s) as [c|] eqn:Et; [|reflexivity]. rewrite (tno_none s Hto c Et). reflexivity. }
    rewrite Eu. clear Eu. destruct (N.eq_dec (ek y) k) as [Ek|Ek].
    + assert (y = ev0 k Down) by (destruct (Hy Ek) as [->|[->| ->]]; try reflexivity; cbn in *; discriminate). subst y.
      assert (G : forall r, q r = q l -> owes b0 tot (set_seq (pre ++ r) (update_output (ev0 k Down) (TKey k) None s))).
      { intros r Hr. apply (owes_press b0 tot s); [exact Ht| | |exact Ho].
        - cbn [s_seq set_seq]. rewrite Qpre, Hq, Hr. unfold q. cbn [filter]. unfold waits at 1. cbn. rewrite N.eqb_refl. reflexivity.
        - intros b Hb. exact (update_output_press k Hk s b Hb). }
      destruct (contains_ev _ _); apply G; [reflexivity|]. apply q_cons, waits_matched.
    + pose proof (update_output_k k y (TKey (ek y)) None s Ek) as Hu.
      destruct (contains_ev _ _); apply Hsame; auto. apply q_cons, waits_matched.
  - assert (Hu : update_output y (TKey (ek y)) None s = s) by (unfold update_output; rewrite Ey; reflexivity).
    rewrite Hu. destruct (contains_ev _ _).
    + apply Hsame; [right; reflexivity|reflexivity|apply ksame_refl].
    + apply IH; auto; [apply Forall_app; auto|rewrite <- app_assoc; exact Hs].
Qed.

(** * Rounds and calls *)

Section Calls.
Variable j : key.
Hypothesis Hj : j <> k_none /\ j <> k_any /\ j <> k_timeout.
Variable cs : list context.
Hypothesis Hin : forall c i, In c cs -> In i (cx_inputs c) -> Forall inner (in_seq i) /\
  (Forall (foreign k) (in_seq i) \/
   exists a x b, in_seq i = a ++ x :: b /\ Forall (fun e => ek e = j -> es e <> UpAsync) a /\ ek x = j /\ es x = Down).
Hypothesis Hout : forall c o, In c cs -> In o (context_outputs c) -> Forall (outer k) o.

Definition good (x : event) : Prop := ek x <> k_none /\ ek x <> k_any /\ ek x <> j /\ plain_k x.
Lemma good_stable : stable good.
Proof.
  destruct plain_stable as [P1 P2]. split; intros x [H1 [H2 [H3 H4]]]; [|intros Hx];
    (split; [exact H1|]; split; [exact H2|]; split; [exact H3|]); auto.
Qed.
Lemma good_plain : forall l, Forall good l -> Forall plain_k l.
Proof. intros l H. eapply Forall_impl; [|exact H]. intros x Hx. apply Hx. Qed.
Lemma good_some : forall l, Forall good l -> no_none l.
Proof. intros l H. eapply Forall_impl; [|exact H]. intros x Hx. apply Hx. Qed.

Lemma plain_inputs : forall c i, In c cs -> In i (cx_inputs c) -> is_nmm_mapping (in_seq i) = false.
Proof.
  intros c i Hc Hi. destruct (Hin c i Hc Hi) as [H _]. destruct (in_seq i) as [|x l]; [reflexivity|].
  destruct (Forall_inv H) as [_ Hx]. cbn. destruct (es x); try reflexivity. contradiction.
Qed.

Lemma held_round : forall e dev s s' brk, apply_round cs e dev s = (s', brk) ->
  ek e <> k_timeout -> Forall good (s_seq s) -> tno s -> round_k k anykind (fun _ => True) (Forall (quiet k)) e s s' brk.
Proof.
  intros e dev s s' brk H He Hsq Ht.
  refine (round_cases k Hk anykind any_kind cs good _ _ (s_hist s) _ _ Hout e dev s s' brk H (timing_any e He) Hsq eq_refl Ht).
  { intros c i a t Hc Hi En. rewrite (plain_inputs c i Hc Hi) in En. discriminate En. }
  intros c i sq r a t Hc Hi _ Hs Em. split; [auto|]. intros ->. destruct (Hin c i Hc Hi) as [H1 [H2|[l1 [x [l2 [H2 [H3 [H4 H5]]]]]]]].
  - eapply (match_quiet k Hk); try exact Em; [exact H2|apply good_some; exact Hs|discriminate].
  - exfalso. rewrite H2 in Em, H1. apply Forall_app in H1.
    eapply (match_needs j Hj); try exact Em; eauto; [tauto|].
    eapply Forall_impl; [|exact Hs]. intros y Hy. unfold good in Hy. tauto.
Qed.

Lemma round_owes : forall b0 tot e dev s s' brk, apply_round cs e dev s = (s', brk) -> strokes b0 (map es tot) ->
  ek e <> k_timeout -> is_virtual_key (ek e) = false ->
  Forall good (s_seq s) -> tno s -> s_onrel s = [] -> owes b0 tot s ->
  owes b0 tot s' /\ tno s' /\ s_onrel s' = [] /\ (forall P, stable P -> Forall P (s_seq s) -> Forall P (s_seq s')) /\
  (closed (other k) (s_seq s) -> closed (other k) (s_seq s')).
Proof.
  intros b0 tot e dev s s' brk H Hst He Hv Hsq Ht Hr Ho.
  destruct (held_round _ _ _ _ _ H He Hsq Ht) as [s1 n V S1 K1 T1 E|s1 N1 S1 K1 T1 E|s1 len o t ci N1 O1 S1 K1 T1 E|s1 S1 K1 T1 C1 E].
  { congruence. }
  all: assert (E1 : s_seq s1 = s_seq s /\ s_onrel s1 = []) by (unfold same_match in S1; intuition congruence); destruct E1 as [E1 E2].
  - subst s'. cbn [s_seq set_might s_onrel]. rewrite E1. split; [|auto].
    apply (owes_same b0 tot s); [cbn; rewrite E1; reflexivity| |exact Ho]. intros b Hb. exact (K1 b Hb).
  - destruct (apply_output_k k o t ci s1 O1) as [A1 A2].
    pose proof (apply_output_frame o t ci s1) as F.
    assert (Ef : s_seq (apply_output o t ci s1) = s_seq s /\ s_timeout (apply_output o t ci s1) = s_timeout s1)
      by (unfold same_app in F; intuition congruence). destruct Ef as [Ef1 Ef2].
    assert (Es : s_seq s' = finish_loop len (s_seq s) /\ s_onrel s' = [] /\ s_timeout s' = s_timeout s1 /\ ksame k s s').
    { destruct E as [-> | ->]; unfold finish_sequence; cbn [s_seq set_seq set_might s_onrel s_timeout]; rewrite Ef1, Ef2, A2.
      all: split; [reflexivity|]; split; [exact E2|]; split; [reflexivity|].
      all: intros b Hb; destruct (K1 b Hb) as [X1 X2]; destruct (A1 b X1) as [Y1 Y2]; split; [exact Y1|]; rewrite <- X2, <- Y2; reflexivity. }
    destruct Es as [X1 [X2 [X3 X4]]]. rewrite X1.
    split; [apply (owes_same b0 tot s); [rewrite X1; apply finish_q; exact N1|exact X4|exact Ho]|].
    split; [eapply tn_same; eauto|]. split; [exact X2|]. split; [intros P HP HF; apply finish_stable; auto|apply finish_closed].
  - destruct (forward_frame s1) as [F1 F2]. rewrite E1 in F2.
    assert (F4 : tno (forward_from_sequence s1) /\ s_onrel (forward_from_sequence s1) = s_onrel s1).
    { destruct (forward_tn anykind (s_seq s1) [] s1) as [X Y]. split; [apply X; exact T1|exact Y]. }
    destruct F4 as [F4 F5].
    assert (F6 : owes b0 tot (forward_from_sequence s1)).
    { apply forward_owes; auto; [apply good_plain; rewrite E1; exact Hsq|].
      apply (owes_same b0 tot s); [rewrite E1; reflexivity|exact K1|exact Ho]. }
    assert (Es : s_seq s' = forward_seq [] (s_seq s) /\ s_onrel s' = [] /\ tno s' /\ owes b0 tot s').
    { destruct E as [-> | ->]; cbn [s_seq set_might s_onrel]; rewrite F2, F5.
      all: split; [reflexivity|]; split; [exact E2|]; split; [exact F4|exact F6]. }
    destruct Es as [-> [X2 [X3 X4]]]. split; [exact X4|]. split; [exact X3|]. split; [exact X2|].
    split; [intros P HP HF; apply forward_stable; auto|]. intros Hc. apply forward_closed; [constructor|exact Hc].
Qed.

Lemma loop_owes : forall b0 tot e dev s n s', loop_run cs e dev s n s' -> strokes b0 (map es tot) ->
  ek e <> k_timeout -> is_virtual_key (ek e) = false ->
  Forall good (s_seq s) -> tno s -> s_onrel s = [] -> owes b0 tot s ->
  owes b0 tot s' /\ tno s' /\ s_onrel s' = [] /\ (forall P, stable P -> Forall P (s_seq s) -> Forall P (s_seq s')) /\
  (closed (other k) (s_seq s) -> closed (other k) (s_seq s')).
Proof.
  intros b0 tot e dev. induction 1 as [s Hn|s s' Hn Hr|s s1 n s' Hn Hr Hl IH]; intros Hst He Hv Hsq Ht Ho Hw.
  - auto 10.
  - eapply round_owes; eauto.
  - destruct (round_owes _ _ _ _ _ _ _ Hr Hst He Hv Hsq Ht Ho Hw) as [P1 [P2 [P3 [P4 P5]]]].
    destruct (IH Hst He Hv (P4 _ good_stable Hsq) P2 P3 P1) as [Q1 [Q2 [Q3 [Q4 Q5]]]]. auto 10.
Qed.

(** Between calls: the key is down or not, output or not, and what is to be output. *)
Record held (D b : bool) (p : sequence) (s : state) : Prop := {
  he_good : Forall good (s_seq s);
  he_closed : D = false -> closed (other k) (s_seq s);
  he_tno : tno s;
  he_rel : s_onrel s = [];
  he_hist : s_hist s = [];
  he_hold : khold k b s;
  he_wait : wait b (s_seq s) = p
}.

Lemma prepare_q : forall e s, tno s -> q (s_seq (prepare_up e s)) = q (s_seq s).
Proof.
  intros e s Ht. unfold prepare_up. destruct (kstate_eqb (es e) Up); [|reflexivity].
  set (s1 := match s_timeout s with Some _ => _ | None => _ end).
  assert (Hs : s1 = s).
  { unfold s1. destruct (s_timeout s) as [c|] eqn:Ec; [|reflexivity]. rewrite (tno_none s Ht c Ec). reflexivity. }
  rewrite Hs. clear s1 Hs. destruct (s_might s); [reflexivity|].
  destruct (find_key (s_seq s) (ek e)) as [i|] eqn:Ei; [|reflexivity].
  destruct (nth_error (s_seq s) i) as [x|] eqn:Ex; [|reflexivity].
  destruct (kstate_eqb (es x) DownMatched) eqn:Em; [|reflexivity]. cbn [s_seq set_seq].
  destruct (nth_error_split _ _ Ex) as [a [b' [El Ea]]]. rewrite El, <- Ea, remove_at_split.
  symmetry. apply q_mid. apply waits_matched'. apply kstate_eqb_eq. exact Em.
Qed.

Lemma no_nmm_held : has_nmm_mapping cs = false.
Proof.
  unfold has_nmm_mapping. destruct (existsb _ cs) eqn:E; [exfalso|reflexivity].
  apply existsb_exists in E. destruct E as [c [Hc E]]. apply existsb_exists in E. destruct E as [i [Hi E]].
  rewrite (plain_inputs c i Hc Hi) in E. discriminate.
Qed.

(** Events of devices which this is about. *)
Definition plain_event (e : event) : Prop :=
  wf_event e /\ ek e <> k_any /\ ek e <> k_timeout /\ ek e <> j /\ is_virtual_key (ek e) = false.
Definition kev (e : event) : sequence := if ek e =? k then [e] else [].

Lemma held_finish : forall b0 tot e D s, strokes b0 (map es tot) -> plain_event e ->
  (ek e = k -> es e = Up -> ends b0 tot = false) ->
  Forall good (s_seq s) -> (D = false -> closed (other k) (s_seq s)) -> tno s -> s_onrel s = [] -> s_hist s = [] ->
  owes b0 tot s ->
  exists b p, held D b p (finish_input cs e s) /\ b = ends b0 (kbuf k (finish_input cs e s)) /\
    kbuf k (finish_input cs e s) ++ p = tot.
Proof.
  intros b0 tot e D s Hst He Hlast H1 H2 H3 H4 H5 Ho. unfold finish_input.
  set (s1 := if kstate_eqb (es e) Up then release_triggered (ek e) None s else s).
  assert (A : s_seq s1 = s_seq s /\ tno s1 /\ s_onrel s1 = [] /\ s_hist s1 = []).
  { unfold s1. destruct (kstate_eqb (es e) Up); [|auto].
    pose proof (release_frame (ek e) None s) as F. unfold same_rel in F.
    destruct (release_tn anykind (ek e) None s) as [T1 T2].
    split; [tauto|]. split; [apply T1; exact H3|]. split; [congruence|]. destruct F as [F F']. intuition congruence. }
  destruct A as [A1 [A2 [A3 A4]]].
  assert (O1 : owes b0 tot s1).
  { unfold s1 in *. destruct (kstate_eqb (es e) Up) eqn:Eu; [|exact Ho]. apply kstate_eqb_eq in Eu.
    destruct (N.eq_dec (ek e) k) as [Ek|Ek].
    - apply (owes_last b0 tot s); auto; [|apply good_plain; exact H1]. rewrite Ek. intros b Hb. exact (release_this k Hk b s Hb).
    - apply (owes_same b0 tot s); [rewrite A1; reflexivity| |exact Ho]. apply release_other. exact Ek. }
  clearbody s1. rewrite <- A1 in H1, H2. clear s A1 H3 H4 H5 Ho.
  destruct (update_active_k k Hk anykind cs Hout s1 A3) as [U1 [U2 U3]]. specialize (U2 A2).
  pose proof (update_active_frame cs s1) as F. unfold same_ctx in F.
  set (s2 := update_active_contexts cs s1) in *.
  assert (E2 : s_seq s2 = s_seq s1 /\ s_hist s2 = s_hist s1) by tauto. clearbody s2. clear F.
  destruct E2 as [E2 E3]. rewrite <- E2 in H1, H2. rewrite <- E3 in A4.
  assert (O2 : owes b0 tot s2) by (apply (owes_same b0 tot s1); [rewrite E2; reflexivity|exact U1|exact O1]).
  destruct (drop_suffix (s_seq s2)) as [p [Ep Hp]].
  assert (Hq : q (drop_up_matched (s_seq s2)) = q (s_seq s2)).
  { rewrite Ep at 2. rewrite q_app. replace (q p) with (@nil event); [reflexivity|]. clear - Hp.
    induction p as [|x p IHp]; [reflexivity|]. rewrite q_cons; [apply IHp; exact (Forall_inv_tail Hp)|].
    unfold waits. rewrite (Forall_inv Hp). apply andb_false_r. }
  set (s3 := set_seq (drop_up_matched (s_seq s2)) s2).
  set (s4 := match s_seq s3 with [] => set_timeout None s3 | _ => s3 end).
  assert (E4 : s_seq s4 = drop_up_matched (s_seq s2) /\ s_down s4 = s_down s2 /\ s_buf s4 = s_buf s2 /\
    tno s4 /\ s_onrel s4 = [] /\ s_hist s4 = []).
  { unfold s4. destruct (s_seq s3) eqn:E; [|auto 10]. split; [reflexivity|].
    split; [reflexivity|]. split; [reflexivity|]. split; [apply tn_none; reflexivity|]. auto. }
  destruct E4 as [B1 [B2 [B3 [B4 [B5 B6]]]]]. clearbody s4. clear s3.
  set (s5 := set_reapplied false s4).
  assert (E5 : clean_up_history cs (length (s_hist s5)) s5 = s5).
  { assert (Eh : s_hist s5 = []) by exact B6. rewrite Eh. cbn [length clean_up_history]. rewrite Eh. reflexivity. }
  rewrite E5.
  assert (O5 : owes b0 tot s5).
  { apply (owes_same b0 tot s2); [change (s_seq s5) with (s_seq s4); rewrite B1; exact Hq| |exact O2].
    apply ksame_eq; [exact B2|exact B3]. }
  destruct O5 as [b [O5 [O6 O7]]]. exists b, (wait b (s_seq s5)). split; [|auto].
  constructor; try (change (s_seq s5) with (s_seq s4); rewrite B1); auto.
  - rewrite Ep in H1. apply Forall_app in H1. apply H1.
  - intros HD. specialize (H2 HD). rewrite Ep in H2. eapply closed_app_r; exact H2.
Qed.

Lemma skip_snoc : forall l x, es x = Down -> skip (l ++ [x]) = skip l ++ [x].
Proof.
  induction l as [|y l IH]; intros x Hx; [cbn; rewrite Hx; reflexivity|]. cbn [app skip].
  destruct (kstate_eqb (es y) Up); [apply IH; exact Hx|reflexivity].
Qed.
Lemma skip_snoc_some : forall l x, skip l <> [] -> skip (l ++ [x]) = skip l ++ [x].
Proof.
  induction l as [|y l IH]; intros x Hx; [contradiction|]. cbn [app skip] in *.
  destruct (kstate_eqb (es y) Up); [apply IH; exact Hx|reflexivity].
Qed.

Lemma held_process : forall e dev D b p s, plain_event e -> held D b p s -> kbuf k s = [] ->
  D = ends b p -> strokes b (map es (p ++ kev e)) ->
  let s' := process_input cs e dev s in
  exists b' p', held (knext k D e) b' p' s' /\ b' = ends b (kbuf k s') /\ kbuf k s' ++ p' = p ++ kev e.
Proof.
  intros e dev D b p s He [R1 R2 R3 R4 R5 R6 R7] Hbuf HD Hst. cbn zeta. unfold process_input.
  destruct He as [Hwf [He1 [He2 [He3 He4]]]].
  assert (Hu : es e = Down \/ es e = Up) by (destruct Hwf as [_ [[? _]|[? _]]]; [left|right]; assumption).
  assert (Hek : ek e <> k_none) by apply Hwf.
  assert (Hval : ek e = k -> ev e = 0).
  { intros E. destruct Hk as [_ [_ [Ht [_ [_ Hw]]]]]. destruct Hwf as [_ [[_ [_ [H|H]]]|[_ [H|[H|H]]]]]; auto; congruence. }
  assert (Hg : good e).
  { repeat (split; [assumption|]). intros Ek. specialize (Hval Ek). destruct e as [ke se ve]. cbn in *. subst.
    destruct Hu as [-> | ->]; auto. }
  set (s1 := set_seq (s_seq s ++ [e]) s).
  assert (Eh : add_to_history cs e s1 = s1) by (unfold add_to_history; rewrite no_nmm_held; reflexivity).
  rewrite Eh. clear Eh.
  assert (O1 : owes b (p ++ kev e) s1).
  { exists b. split; [exact R6|]. change (kbuf k s1) with (kbuf k s). rewrite Hbuf. split; [reflexivity|].
    cbn [app]. unfold wait in *. change (s_seq s1) with (s_seq s ++ [e]). rewrite q_app. unfold kev in *.
    destruct (N.eqb_spec (ek e) k) as [Ek|Ek].
    - assert (Eq : q [e] = [e]).
      { unfold q. cbn [filter]. unfold waits. rewrite Ek, N.eqb_refl. destruct Hu as [-> | ->]; reflexivity. }
      rewrite Eq. destruct b; [congruence|]. rewrite <- R7. destruct Hu as [Ed|Eu]; [apply skip_snoc; exact Ed|].
      apply skip_snoc_some. intros E0. rewrite E0 in R7. subst p. cbn in Hst. rewrite Eu in Hst. destruct Hst; discriminate.
    - rewrite (q_cons e []) by (apply waits_other; exact Ek). cbn [q filter]. rewrite !app_nil_r. exact R7. }
  assert (G1 : Forall good (s_seq s1)) by (apply Forall_app; split; [exact R1|constructor; [exact Hg|constructor]]).
  assert (C1 : knext k D e = false -> closed (other k) (s_seq s1)).
  { unfold knext. change (s_seq s1) with (s_seq s ++ [e]). intros HD'. destruct (N.eqb_spec (ek e) k) as [Ek|Ek].
    - destruct Hu as [Ed|Eu]; [rewrite Ed in HD'; discriminate|].
      assert (Ee : e = up k) by (specialize (Hval Ek); destruct e; cbn in *; subst; reflexivity).
      rewrite Ee. apply closed_last. intros y [].
    - eapply closed_snoc; [exact (R2 HD')| |].
      + intros x _ _ Hx. left. exact Hx.
      + intros _. unfold other. destruct (N.eqb_spec (ek e) k); [contradiction|reflexivity]. }
  assert (T1 : tno s1) by exact R3. assert (H1 : s_hist s1 = []) by exact R5.
  destruct (update_active_k k Hk anykind cs Hout s1 R4) as [U1 [U2 U3]]. specialize (U2 T1).
  pose proof (update_active_frame cs s1) as F. unfold same_ctx in F.
  set (s2 := update_active_contexts cs s1) in *.
  assert (E2 : s_seq s2 = s_seq s1 /\ s_hist s2 = []) by (rewrite <- H1; tauto).
  destruct E2 as [E2 H2]. rewrite <- E2 in G1, C1.
  assert (O2 : owes b (p ++ kev e) s2) by (apply (owes_same b _ s1); [rewrite E2; reflexivity|exact U1|exact O1]).
  clearbody s2. clear s1 U1 O1 T1 H1 F E2.
  pose proof (prepare_q e s2 U2) as Pq.
  destruct (prepare_k k e s2) as [P1 [P2 [P3 [P4 [P5 [P6 [P7 P8]]]]]]].
  set (s3 := prepare_up e s2) in *. clearbody s3.
  assert (O3 : owes b (p ++ kev e) s3) by (apply (owes_same b _ s2); [exact Pq|apply ksame_eq; assumption|exact O2]).
  assert (G3 : Forall good (s_seq s3)) by (apply P6; [exact good_stable|exact G1]).
  assert (C3 : knext k D e = false -> closed (other k) (s_seq s3)) by auto.
  assert (T3 : tno s3) by (eapply tn_same; eauto).
  assert (L3 : s_onrel s3 = []) by congruence. assert (H3 : s_hist s3 = []) by congruence.
  set (s4 := unsuppress s3).
  assert (O4 : owes b (p ++ kev e) s4) by (apply (owes_same b _ s3); [reflexivity|apply unsuppress_k|exact O3]).
  assert (G4 : Forall good (s_seq s4)) by exact G3.
  assert (C4 : knext k D e = false -> closed (other k) (s_seq s4)) by exact C3.
  assert (T4 : tno s4) by exact T3. assert (L4 : s_onrel s4 = []) by exact L3. assert (H4 : s_hist s4 = []) by exact H3.
  clearbody s4. clear s2 s3 G1 C1 U2 U3 H2 O2 Pq P1 P2 P3 P4 P5 P6 P7 P8 O3 G3 C3 T3 L3 H3.
  assert (N4h : no_none (s_hist s4)) by (rewrite H4; constructor).
  destruct (apply_loop_run cs e dev (weight (s_seq s4)) s4 (Nat.le_refl _) (good_some _ G4) N4h) as [n [_ [Hrun [_ [H5 _]]]]].
  set (s5 := apply_loop cs (weight (s_seq s4)) e dev s4) in *. clearbody s5. rewrite H4 in H5.
  destruct (loop_owes _ _ _ _ _ _ _ Hrun Hst He2 He4 G4 T4 L4 O4) as [Q1 [Q2 [Q3 [Q4 Q5]]]].
  destruct (held_finish b (p ++ kev e) e (knext k D e) s5 Hst) as [b' [p' [F1 [F2 F3]]]]; auto.
  - repeat (split; [assumption|]). exact He4.
  - intros Ek Eu. unfold kev. rewrite Ek, N.eqb_refl, ends_app. cbn. rewrite Eu. reflexivity.
  - apply Q4; [exact good_stable|exact G4].
  - exists b', p'. auto.
Qed.

Lemma held_same : forall D b p s s', q (s_seq s') = q (s_seq s) -> (forall P, Forall P (s_seq s) -> Forall P (s_seq s')) ->
  (closed (other k) (s_seq s) -> closed (other k) (s_seq s')) -> s_down s' = s_down s ->
  s_hist s' = s_hist s -> s_onrel s' = s_onrel s -> tno s' -> held D b p s -> held D b p s'.
Proof.
  intros D b p s s' E1 E2 E3 E4 E5 E6 Ht [R1 R2 R3 R4 R5 R6 R7].
  constructor; auto; try congruence.
  - eapply khold_same; [|exact R6]. unfold kd. rewrite E4. reflexivity.
  - unfold wait in *. rewrite E1. exact R7.
Qed.

Lemma held_remove : forall D b p s i x, nth_error (s_seq s) i = Some x -> es x <> Up -> ek x <> k -> held D b p s ->
  held D b p (set_seq (remove_at i (s_seq s)) s).
Proof.
  intros D b p s i x Hx Hu Hxk R. destruct (nth_error_split _ _ Hx) as [a [c [El Ea]]].
  refine (held_same D b p s (set_seq (remove_at i (s_seq s)) s) _ _ _ eq_refl eq_refl eq_refl (he_tno _ _ _ _ R) R);
    cbn [s_seq set_seq]; rewrite El, <- Ea, remove_at_split.
  - symmetry. apply q_mid, waits_other. exact Hxk.
  - intros P H. apply Forall_app in H. destruct H as [H1 H2]. apply Forall_app. split; [exact H1|exact (Forall_inv_tail H2)].
  - apply closed_drop. intros ->. contradiction.
Qed.

Lemma held_merge : forall e dev D b p s, held D b p s -> (ek e = k -> es e = Down -> D = false) ->
  let s' := fst (merge_repeat e dev s) in
  held D b p s' /\ s_buf s' = s_buf s /\ (snd (merge_repeat e dev s) = false -> ek e <> k).
Proof.
  intros e dev D b p s R HD.
  assert (G : forall s' : state, s_seq s' = s_seq s -> s_down s' = s_down s -> s_hist s' = s_hist s ->
    s_onrel s' = s_onrel s -> s_timeout s' = s_timeout s -> held D b p s').
  { intros s' E1 E2 E3 E4 E5.
    refine (held_same D b p s s' _ _ _ E2 E3 E4 (tn_same anykind s s' E5 (he_tno _ _ _ _ R)) R); rewrite E1; auto. }
  cbn zeta. unfold merge_repeat. destruct (es e) eqn:Ee;
    try (destruct (dev =? s_rdev s)%Z; cbn [fst snd]; (split; [apply G; reflexivity|split; [reflexivity|discriminate]]); fail).
  assert (Hother : let s' := if (dev =? no_device)%Z then s
             else set_pdev dev (if (dev =? s_rdev s)%Z then set_rdev no_device s else s) in
    held D b p s' /\ s_buf s' = s_buf s).
  { cbn zeta. destruct (dev =? no_device)%Z; [auto|]. destruct (dev =? s_rdev s)%Z; split; auto; apply G; reflexivity. }
  cbn zeta in Hother. destruct Hother as [O1 O2].
  destruct (rfind_key (s_seq s) (ek e)) as [i|] eqn:Ei.
  2:{ cbn [fst snd]. split; [exact O1|split; [exact O2|discriminate]]. }
  destruct (nth_error (s_seq s) i) as [x|] eqn:Ex.
  2:{ cbn [fst snd]. split; [exact O1|split; [exact O2|discriminate]]. }
  destruct (kstate_eqb (es x) Up) eqn:Eu; cbn [negb].
  { cbn [fst snd]. split; [exact O1|split; [exact O2|discriminate]]. }
  assert (Hx : es x <> Up) by (intros E; rewrite E in Eu; discriminate).
  destruct (rfind_last _ _ _ _ Ei Ex) as [a [c [El [Hxk [_ Hb]]]]].
  assert (Hdown : ek e <> k).
  { intros Ek. specialize (HD Ek eq_refl). destruct R as [R1 R2 _ _ _ _ _]. specialize (R2 HD).
    assert (Hin' : In x (s_seq s)) by (rewrite El; apply in_or_app; right; left; reflexivity).
    assert (Hp : StuckMatch.is_press x).
    { destruct (proj1 (Forall_forall _ _) R1 x Hin') as [_ [_ [_ H]]].
      destruct (H (eq_trans Hxk Ek)) as [->|[->| ->]]; [left|right|contradiction]; reflexivity. }
    rewrite El in R2. apply closed_after in R2; [|exact Hp|congruence].
    apply (Hb _ R2). symmetry; exact Ek. }
  assert (Hxk' : ek x <> k) by congruence.
  destruct (s_might s); [cbn [fst snd]; auto|].
  destruct (negb (dev =? no_device)%Z).
  2:{ cbn [fst snd]. split; [eapply held_remove; eauto|]. split; [reflexivity|discriminate]. }
  set (s1 := if (dev =? s_pdev s)%Z then set_rdev dev s else s).
  assert (G1 : held D b p s1 /\ s_buf s1 = s_buf s /\ s_seq s1 = s_seq s).
  { unfold s1. destruct (dev =? s_pdev s)%Z; [|auto]. split; [apply G; reflexivity|auto]. }
  clearbody s1. destruct G1 as [G1 [G2 G3]].
  destruct (negb (dev =? s_rdev s1)%Z); cbn [fst snd]; [auto|].
  split; [|split; [exact G2|discriminate]]. rewrite <- G3 in Ex. eapply held_remove; eauto.
Qed.

Lemma held_update : forall e dev D b p s, plain_event e -> held D b p s -> kbuf k s = [] ->
  D = ends b p -> strokes b (map es (p ++ kev e)) ->
  let s' := fst (update cs e dev s) in
  let o := filter (has_key k) (snd (update cs e dev s)) in
  exists b' p', held (knext k D e) b' p' s' /\ s_buf s' = [] /\ b' = ends b o /\ o ++ p' = p ++ kev e.
Proof.
  intros e dev D b p s He R Hb HD Hst. unfold update. cbn [fst snd].
  set (s0 := set_exit (advance_exit e (s_exit s)) s).
  assert (R0 : held D b p s0) by (refine (held_same D b p s _ _ _ _ _ _ _ _ R); try reflexivity; auto; apply R).
  assert (B0 : kbuf k s0 = []) by exact Hb.
  clearbody s0. clear s R Hb. cbn zeta.
  cut (exists b' p', held (knext k D e) b' p' (apply_input cs e dev s0) /\
    b' = ends b (kbuf k (apply_input cs e dev s0)) /\ kbuf k (apply_input cs e dev s0) ++ p' = p ++ kev e).
  { intros [b' [p' [X1 [X2 X3]]]]. exists b', p'. split; [|split; [reflexivity|split; [exact X2|exact X3]]].
    refine (held_same _ b' p' (apply_input cs e dev s0) _ _ _ _ _ _ _ _ X1); try reflexivity; auto; apply X1. }
  unfold apply_input.
  assert (E0 : continue_output_on_release e None s0 = (s0, true)).
  { unfold continue_output_on_release. rewrite (he_rel _ _ _ _ R0). reflexivity. }
  rewrite E0. cbn [negb]. clear E0.
  destruct (suppress_k anykind e s0) as [S1 [S2 [S3 [S4 [S5 [S6 S7]]]]]].
  destruct (suppress_not_timeout e s0) as [s1 go1]. cbn [fst snd] in *.
  assert (R1 : held D b p s1) by (refine (held_same D b p s0 _ _ _ _ S2 S3 S4 (S6 (he_tno _ _ _ _ R0)) R0); rewrite S1; auto).
  assert (B1 : kbuf k s1 = []) by (unfold kbuf; rewrite S5; exact B0).
  destruct go1; cbn [negb].
  2:{ exfalso. specialize (S7 eq_refl). unfold plain_event in He. tauto. }
  assert (HD0 : ek e = k -> es e = Down -> D = false).
  { intros Ek Ed. apply strokes_ends in Hst. rewrite <- HD in Hst. unfold kev in Hst. rewrite Ek, N.eqb_refl in Hst.
    cbn in Hst. rewrite Ed in Hst. tauto. }
  destruct (held_merge e dev D b p s1 R1 HD0) as [M1 [M2 M3]].
  destruct (merge_repeat e dev s1) as [s2 go2]. cbn [fst snd] in *.
  assert (B2 : kbuf k s2 = []) by (unfold kbuf; rewrite M2; exact B1).
  destruct go2; cbn [negb]; [exact (held_process e dev D b p s2 He M1 B2 HD Hst)|].
  specialize (M3 eq_refl). exists b, p. unfold knext, kev. destruct (N.eqb_spec (ek e) k); [contradiction|].
  rewrite B2, app_nil_r. auto.
Qed.

Lemma held_contexts : forall il D b p s, held D b p s -> s_buf s = [] ->
  held D b p (fst (set_active_client_contexts cs il s)) /\ s_buf (fst (set_active_client_contexts cs il s)) = [] /\
  filter (has_key k) (snd (set_active_client_contexts cs il s)) = [].
Proof.
  intros il D b p s R Hb. unfold set_active_client_contexts. cbn [fst snd].
  set (s0 := set_client il s).
  assert (R0 : held D b p s0) by (refine (held_same D b p s _ _ _ _ _ _ _ _ R); try reflexivity; auto; apply R).
  assert (B0 : kbuf k s0 = []) by (unfold kbuf; change (s_buf s0) with (s_buf s); rewrite Hb; reflexivity).
  clearbody s0. clear s R Hb.
  destruct (update_active_k k Hk anykind cs Hout s0 (he_rel _ _ _ _ R0)) as [U1 [U2 U3]].
  pose proof (update_active_frame cs s0) as F. unfold same_ctx in F.
  destruct (U1 b (he_hold _ _ _ _ R0)) as [K1 K2]. specialize (U2 (he_tno _ _ _ _ R0)).
  set (s1 := update_active_contexts cs s0) in *.
  assert (E : s_seq s1 = s_seq s0 /\ s_hist s1 = s_hist s0) by tauto. clearbody s1. clear F. destruct E as [E1 E2].
  unfold cancel_inactive_output_on_release. rewrite U3. cbn [filter].
  split; [|split; [reflexivity|]].
  - destruct R0 as [R1 R2 R3 R4 R5 R6 R7]. constructor; cbn; rewrite ?E1; auto. congruence.
  - cbn. fold (kbuf k s1). congruence.
Qed.

Lemma ends_kev : forall D e, ends D (kev e) = knext k D e.
Proof. intros D e. unfold kev, knext. destruct (ek e =? k); reflexivity. Qed.

Lemma held_run : forall l D b p s, Forall (fun c => is_validate c = false) l ->
  Forall plain_event (inputs l) -> held D b p s -> s_buf s = [] -> D = ends b p ->
  strokes b (map es (p ++ filter (has_key k) (inputs l))) ->
  let o := filter (has_key k) (snd (run cs l s)) in
  exists D' b' p', held D' b' p' (fst (run cs l s)) /\ o ++ p' = p ++ filter (has_key k) (inputs l).
Proof.
  induction l as [|c l IH]; intros D b p s Hv Hp R Hb HD Hst; cbn zeta.
  { exists D, b, p. split; [exact R|]. rewrite app_nil_r. reflexivity. }
  pose proof (Forall_inv Hv) as Hcv. cbn beta in Hcv. apply Forall_inv_tail in Hv.
  cbn [run]. destruct c as [e dev|il|f]; cbn [do_call]; [| |discriminate].
  - cbn [inputs flat_map app] in *. fold (inputs l) in *.
    pose proof (Forall_inv Hp) as He. apply Forall_inv_tail in Hp.
    assert (Ef : filter (has_key k) (e :: inputs l) = kev e ++ filter (has_key k) (inputs l)).
    { unfold kev. cbn [filter]. unfold has_key at 1. destruct (ek e =? k); reflexivity. }
    rewrite Ef in *. clear Ef. rewrite app_assoc in Hst.
    assert (Hst1 : strokes b (map es (p ++ kev e))).
    { rewrite map_app in Hst. revert Hst. generalize (map es (p ++ kev e)). generalize (map es (filter (has_key k) (inputs l))). clear. intros r l. revert b.
      induction l as [|x l IHl]; intros b H; [exact Logic.I|]. cbn [app strokes] in *.
      destruct x; try contradiction; destruct H; auto. }
    assert (Hbk : kbuf k s = []) by (unfold kbuf; rewrite Hb; reflexivity).
    destruct (held_update e dev D b p s He R Hbk HD Hst1) as [b1 [p1 [U1 [U2 [U3 U4]]]]].
    destruct (update cs e dev s) as [s1 o1]. cbn [fst snd] in *.
    assert (HD1 : knext k D e = ends b1 p1).
    { rewrite <- ends_kev, HD, <- ends_app, <- U4, ends_app, <- U3. reflexivity. }
    assert (Hst2 : strokes b1 (map es (p1 ++ filter (has_key k) (inputs l)))).
    { rewrite <- U4, <- app_assoc in Hst. apply strokes_ends in Hst. rewrite <- U3 in Hst. exact Hst. }
    destruct (IH _ _ _ _ Hv Hp U1 U2 HD1 Hst2) as [D' [b' [p' [Q1 Q2]]]]. clear IH.
    destruct (run cs l s1) as [s2 o2]. cbn [fst snd] in *. exists D', b', p'. split; [exact Q1|].
    rewrite filter_app, <- app_assoc, Q2, !app_assoc, U4. reflexivity.
  - destruct (held_contexts il D b p s R Hb) as [U1 [U2 U3]].
    destruct (set_active_client_contexts cs il s) as [s1 o1]. cbn [fst snd] in *.
    destruct (IH _ _ _ _ Hv Hp U1 U2 HD Hst) as [D' [b' [p' [Q1 Q2]]]].
    destruct (run cs l s1) as [s2 o2]. cbn [fst snd] in *. exists D', b', p'. split; [exact Q1|].
    rewrite filter_app, U3. exact Q2.
Qed.

Lemma held_init : held false false [] init_state.
Proof. constructor; cbn; auto. intros c Hc. discriminate. Qed.

End Calls.
End Held.

(** * A key which no mapping mentions releases what is held back *)

Section Flush.
Variable m : key.
Hypothesis Hm : device_button m.
Variable cs : list context.
Hypothesis Hin : forall c i, In c cs -> In i (cx_inputs c) -> input_k m (in_seq i).
Hypothesis Hout : forall c o, In c cs -> In o (context_outputs c) -> Forall (outer m) o.

Definition notkind (te : event) : Prop := is_not_timeout (es te) = true.
Lemma not_kind : forall te, is_not_timeout (es te) = true -> notkind te.
Proof. auto. Qed.
Lemma timing_not : forall e, timing notkind e.
Proof. intros e _ te H. exact H. Qed.
Definition done (x : event) : Prop := es x = DownMatched.

Lemma forward_flush : forall l pre, Forall done pre ->
  (exists a, forward_seq pre (l ++ [ev0 m Down]) = a ++ [ev0 m Down]) \/ Forall done (forward_seq pre (l ++ [ev0 m Down])).
Proof.
  induction l as [|y l IH]; intros pre Hp.
  - right. cbn [app forward_seq es ev0 ek].
    assert (E : contains_ev [ev0 m Down] (ev0 m Up) = false).
    { cbn. unfold event_eqb. cbn. rewrite andb_false_r. reflexivity. }
    change {| ek := m; es := Down; ev := 0 |} with (ev0 m Down). rewrite E.
    apply Forall_app. split; [exact Hp|]. repeat constructor.
  - cbn [app forward_seq].
    assert (Hdrop : exists a, pre ++ l ++ [ev0 m Down] = a ++ [ev0 m Down]) by (exists (pre ++ l); apply app_assoc).
    destruct (es y) eqn:Ey; try (left; exact Hdrop); destruct (contains_ev _ _); try (left; exact Hdrop).
    + left. exists (pre ++ set_es DownMatched y :: l). rewrite <- app_assoc. reflexivity.
    + apply IH. apply Forall_app. auto.
Qed.

Lemma round_flush : forall dev s s' brk a, apply_round cs (ev0 m Down) dev s = (s', brk) ->
  Forall some_key (s_seq s) -> tn notkind s -> s_seq s = a ++ [ev0 m Down] -> ~ hmatch cs (s_hist s) ->
  brk = false /\ Forall some_key (s_seq s') /\ tn notkind s' /\
  ((exists a', s_seq s' = a' ++ [ev0 m Down]) \/ Forall done (s_seq s')).
Proof.
  intros dev s s' brk a H Hsq Ht Ha Hhm.
  destruct (round_outcome m Hm notkind not_kind cs Hin Hout timing_not _ _ _ _ _ H Hsq Ht)
    as [s1 n V S1 K1 T1 E|s1 N1 S1 K1 T1 E|s1 len o t ci N1 O1 S1 K1 T1 E|s1 S1 K1 T1 C1 E].
  { exfalso. cbn in V. unfold device_button in Hm. destruct Hm as [_ [_ [_ [_ [X _]]]]]. congruence. }
  { exfalso. rewrite Ha in N1. apply Forall_app in N1. apply (Forall_inv (proj2 N1)). auto. }
  all: assert (E1 : s_seq s1 = s_seq s) by (unfold same_match in S1; tauto).
  all: split; [reflexivity|].
  - pose proof (apply_output_frame o t ci s1) as F.
    assert (Hlen : (len <= length a)%nat).
    { destruct (le_lt_dec len (length a)) as [L|L]; [exact L|exfalso].
      destruct N1 as [N1|N1]; [|contradiction].
      rewrite Ha, firstn_all2 in N1 by (rewrite app_length; cbn; lia).
      apply Forall_app in N1. apply (Forall_inv (proj2 N1)). auto. }
    assert (Es : s_seq s' = finish_loop len (s_seq s) /\ s_timeout s' = s_timeout s1).
    { destruct E as [-> | ->]; unfold finish_sequence; cbn [s_seq set_seq set_might s_timeout];
        unfold same_app in F; intuition congruence. }
    destruct Es as [X1 X2]. rewrite X1. split; [apply finish_stable; [exact some_key_stable|exact Hsq]|].
    split; [eapply tn_same; eauto|]. left. rewrite Ha.
    destruct (finish_front len a [ev0 m Down] Hlen) as [a' [Ea' _]]. exists a'. exact Ea'.
  - destruct (forward_frame s1) as [F1 F2]. rewrite E1 in F2.
    assert (F4 : tn notkind (forward_from_sequence s1)).
    { destruct (forward_tn notkind (s_seq s1) [] s1) as [X _]. apply X. exact T1. }
    assert (Es : s_seq s' = forward_seq [] (s_seq s) /\ tn notkind s').
    { destruct E as [-> | ->]; cbn [s_seq set_might]; rewrite F2; auto. }
    destruct Es as [X1 X2]. rewrite X1. split; [apply forward_stable; [exact some_key_stable|exact Hsq]|].
    split; [exact X2|]. rewrite Ha. apply forward_flush. constructor.
Qed.

Lemma loop_flush : forall e dev s n s', loop_run cs e dev s n s' -> e = ev0 m Down ->
  Forall some_key (s_seq s) -> tn notkind s -> no_none (s_hist s) -> ~ hmatch cs (s_hist s) ->
  ((exists a', s_seq s = a' ++ [ev0 m Down]) \/ Forall done (s_seq s)) -> Forall done (s_seq s').
Proof.
  assert (Hdone : forall l, Forall done l -> has_non_optional l = false).
  { intros l H. induction H as [|x l Hx H IH]; [reflexivity|]. cbn. unfold has_non_optional in IH. rewrite IH.
    unfold is_non_optional. rewrite Hx. reflexivity. }
  induction 1 as [s Hn|s s' Hn Hr|s s1 n s' Hn Hr Hl IH]; intros -> Hsq Ht Hnh Hhm [[a Ha]|Hd]; auto;
    try (rewrite (Hdone _ Hd) in Hn; discriminate).
  - exfalso. unfold has_non_optional in Hn. rewrite Ha, existsb_app in Hn. cbn in Hn. rewrite orb_true_r in Hn. discriminate.
  - exfalso. destruct (round_flush _ _ _ _ _ Hr Hsq Ht Ha Hhm) as [X _]. discriminate.
  - destruct (round_flush _ _ _ _ _ Hr Hsq Ht Ha Hhm) as [_ [P1 [P2 P3]]].
    destruct (round_progress _ _ _ _ _ _ Hr Hsq Hnh Hn) as [_ [Eh _]]. apply IH; auto; rewrite Eh; auto.
Qed.

Lemma flush_update : forall dev s, krest m notkind cs false s -> Forall done (s_seq (fst (update cs (ev0 m Down) dev s))).
Proof.
  intros dev s R. unfold update. cbn [fst].
  set (s0 := set_exit (advance_exit (ev0 m Down) (s_exit s)) s).
  assert (R0 : krest m notkind cs false s0) by (eapply krest_same; [| | | | |exact R]; try reflexivity; apply R).
  clearbody s0. clear s R. cbn [s_seq set_buf].
  change (Forall done (s_seq (apply_input cs (ev0 m Down) dev s0))). unfold apply_input.
  assert (E0 : continue_output_on_release (ev0 m Down) None s0 = (s0, true)).
  { unfold continue_output_on_release. rewrite (kr_rel _ _ _ _ _ R0). reflexivity. }
  rewrite E0. cbn [negb]. clear E0.
  destruct (suppress_k notkind (ev0 m Down) s0) as [S1 [S2 [S3 [S4 [S5 [S6 S7]]]]]].
  destruct (suppress_not_timeout (ev0 m Down) s0) as [s1 go1]. cbn [fst snd] in *.
  assert (R1 : krest m notkind cs false s1) by (eapply krest_same; eauto; apply S6; apply R0).
  destruct go1; cbn [negb].
  2:{ exfalso. specialize (S7 eq_refl). cbn in S7. unfold device_button in Hm. tauto. }
  destruct (merge_k m notkind cs (ev0 m Down) dev false s1 R1) as [M1 [M2 M3]].
  destruct (merge_repeat (ev0 m Down) dev s1) as [s2 go2]. cbn [fst snd] in *.
  destruct go2; cbn [negb].
  2:{ exfalso. destruct (M3 eq_refl) as [_ X]. specialize (X eq_refl). discriminate. }
  destruct M1 as [Q1 _ _ _ _ _ Q7 Q8 Q9]. clear M2 M3 s0 s1 R0 R1 S1 S2 S3 S4 S5 S6 S7.
  unfold process_input.
  destruct (add_k m Hm cs Hin (ev0 m Down) false (set_seq (s_seq s2 ++ [ev0 m Down]) s2)) as [[A1 [_ [_ [A4 A5]]]] [A6 A7]];
    [apply Hm|left; reflexivity|reflexivity|exact Q9|].
  set (s3 := add_to_history cs (ev0 m Down) (set_seq (s_seq s2 ++ [ev0 m Down]) s2)) in *.
  cbn [s_seq s_onrel s_timeout set_seq] in A1, A4, A5. clearbody s3. specialize (A7 eq_refl eq_refl).
  assert (Q8' : s_onrel s3 = []) by congruence.
  assert (Q7' : tn notkind s3) by (eapply tn_same; [exact A5|exact Q7]).
  destruct (update_active_k m Hm notkind cs Hout s3 Q8') as [_ [U2 _]].
  pose proof (update_active_frame cs s3) as F. unfold same_ctx in F.
  set (s4 := update_active_contexts cs s3) in *.
  assert (E4 : s_seq s4 = s_seq s2 ++ [ev0 m Down] /\ s_hist s4 = s_hist s3) by (rewrite <- A1; tauto).
  assert (T4 : tn notkind s4) by (apply U2; exact Q7'). clearbody s4. clear U2 F. destruct E4 as [E4 H4].
  assert (Ep : prepare_up (ev0 m Down) s4 = s4) by reflexivity. rewrite Ep. clear Ep.
  set (s5 := unsuppress s4).
  assert (E5 : s_seq s5 = s_seq s2 ++ [ev0 m Down]) by exact E4.
  assert (H5 : s_hist s5 = s_hist s3) by exact H4. assert (T5 : tn notkind s5) by exact T4. clearbody s5.
  assert (N5 : Forall some_key (s_seq s5)).
  { rewrite E5. apply Forall_app. split; [exact Q1|]. constructor; [|constructor]. unfold some_key. cbn. apply Hm. }
  assert (N5h : no_none (s_hist s5)) by (rewrite H5; exact (proj1 A6)).
  assert (Hhm : ~ hmatch cs (s_hist s5)) by (rewrite H5; exact A7).
  destruct (apply_loop_run cs (ev0 m Down) dev (weight (s_seq s5)) s5 (Nat.le_refl _) N5 N5h) as [n [_ [Hrun [_ [H6 _]]]]].
  set (s6 := apply_loop cs (weight (s_seq s5)) (ev0 m Down) dev s5) in *. clearbody s6. clear H6.
  assert (Hd : Forall done (s_seq s6)) by (eapply loop_flush; eauto).
  unfold finish_input. cbn [es ev0 kstate_eqb].
  pose proof (update_active_frame cs s6) as F. unfold same_ctx in F.
  set (s7 := update_active_contexts cs s6) in *.
  assert (E7 : s_seq s7 = s_seq s6) by tauto. clearbody s7. clear F.
  rewrite <- E7 in Hd.
  set (s8 := set_seq (drop_up_matched (s_seq s7)) s7).
  set (s9 := match s_seq s8 with [] => set_timeout None s8 | _ => s8 end).
  assert (E9 : s_seq s9 = drop_up_matched (s_seq s7)) by (unfold s9; destruct (s_seq s8) eqn:E; auto).
  clearbody s9. set (s10 := set_reapplied false s9).
  destruct (clean_up_history_frame cs (fun _ => True) (length (s_hist s10)) s10) as [_ ->];
    [apply Forall_forall; auto|].
  change (s_seq s10) with (s_seq s9). rewrite E9.
  destruct (drop_suffix (s_seq s7)) as [p [Ep _]]. rewrite Ep in Hd. apply Forall_app in Hd. apply Hd.
Qed.

End Flush.
