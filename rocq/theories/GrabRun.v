(** The devices which are grabbed throughout a session *)
From Coq Require Import String Ascii List Arith NArith ZArith Bool Lia FinFun.
From Verif Require Import Base Key Text ClientProofs Stage Config Client ClientSpec ClientInject Device Grab GrabSpec GrabProofs.
Import ListNotations.
Local Open Scope Z_scope.

Definition devs (l : list gdevice) : list nat := map (fun d => n_dev (gd_node d)) l.
Definition logged (s : gstate) (l : list nat) : Prop := forall dev, is_grabbed (gs_log s) dev = true <-> In dev l.

Lemma is_grabbed_snoc l c dev : is_grabbed (l ++ [c]) dev =
  match c with
  | GGrab d _ => if (d =? dev)%nat then true else is_grabbed l dev
  | GUngrab d _ => if (d =? dev)%nat then false else is_grabbed l dev
  end.
Proof. unfold is_grabbed. rewrite fold_left_app. reflexivity. Qed.

Lemma reappear_devs id l : devs (reappear id l) = devs l.
Proof. unfold devs. induction l as [|d l IH]; [reflexivity|]. cbn [reappear]. destruct (gd_event d =? id); cbn [map gd_node]; [reflexivity|]. now rewrite IH. Qed.
Lemma devs_marked f l : devs (map (fun d => marked (f d) d) l) = devs l.
Proof. unfold devs. rewrite map_map. reflexivity. Qed.
Lemma events_marked f l : map gd_event (map (fun d => marked (f d) d) l) = map gd_event l.
Proof. rewrite map_map. reflexivity. Qed.

Section Run.
Variable search : text -> text -> bool.
Variable held_keys : nat -> nat -> option (list N).
Notation scan_entry := (scan_entry search held_keys).
Notation ungrab_loop := (ungrab_loop held_keys).

Lemma scan_logged n s : logged s (devs (gs_devices s)) -> logged (scan_entry n s) (devs (gs_devices (scan_entry n s))).
Proof.
  intro L. unfold Grab.scan_entry. destruct (n_opens n); [|exact L].
  destruct (is_supported_device n && negb (is_virtual_device (n_name n))); [|exact L].
  destruct (selected search n s); [|exact L]. destruct (existsb _ _).
  - cbn [put_gdevices gs_devices]. rewrite reappear_devs. exact L.
  - unfold grab_device, wait_until_keys_released. match goal with |- context [put_polls ?x s] => generalize x end. intro polls.
    destruct (n_grabs n); [|exact L]. intro dev. cbn [put_gdevices glog gs_log gs_devices put_polls]. unfold devs. rewrite map_app. cbn [map gd_node].
    rewrite is_grabbed_snoc, in_app_iff. destruct (Nat.eqb_spec (n_dev n) dev) as [->|Q]; [split; [right; now left|auto]|].
    rewrite (L dev). unfold devs. cbn [In]. tauto.
Qed.
Lemma scans_logged w : forall s, logged s (devs (gs_devices s)) ->
  let s' := fold_left (fun s n => scan_entry n s) w s in logged s' (devs (gs_devices s')).
Proof. induction w as [|n w IH]; intros s L; [exact L|]. cbn [fold_left]. apply IH, scan_logged, L. Qed.

Lemma ungrab_logged : forall l kept s, NoDup (devs kept ++ devs l) -> logged s (devs kept ++ devs l) ->
  logged (snd (ungrab_loop l kept s)) (devs (fst (ungrab_loop l kept s))).
Proof.
  induction l as [|d l IH]; intros kept s ND L; cbn [Grab.ungrab_loop].
  - cbn [fst snd]. unfold devs in L at 2. cbn [map] in L. now rewrite app_nil_r in L.
  - assert (Q : devs kept ++ devs (d :: l) = devs (kept ++ [d]) ++ devs l).
    { unfold devs. rewrite map_app, <- app_assoc. reflexivity. }
    destruct (gd_disappeared d); [|rewrite Q in *; now apply IH].
    change (devs (d :: l)) with (n_dev (gd_node d) :: devs l) in *. apply IH.
    + now apply NoDup_remove_1 in ND.
    + apply NoDup_remove_2 in ND. intro dev. unfold ungrab_device. cbn [glog gs_log wait_until_keys_released put_polls]. rewrite is_grabbed_snoc.
      destruct (Nat.eqb_spec (n_dev (gd_node d)) dev) as [E1|E1].
      * split; [discriminate|]. intro X. subst dev. contradiction.
      * rewrite (L dev), !in_app_iff. cbn [In]. tauto.
Qed.

(** What holds of the grabbed devices at all times *)
Record sound (s : gstate) : Prop := {
  so_event : forall d, In d (gs_devices s) -> gd_event d = n_event (gd_node d);
  so_events : NoDup (map gd_event (gs_devices s));
  so_devs : NoDup (devs (gs_devices s));
  so_logged : logged s (devs (gs_devices s))
}.

Lemma newcomers_nodup {B} (f : node -> B) filters mice old w : NoDup (map f w) -> NoDup (map f (newcomers search filters mice old w)).
Proof.
  unfold newcomers. induction w as [|x w IH]; intro H; [constructor|]. cbn [map] in H. apply NoDup_cons_iff in H. destruct H as [H1 H2].
  cbn [List.filter]. destruct (_ && _ && _); [|auto]. cbn [map]. constructor; [|auto].
  intro X. apply H1. apply in_map_iff in X. destruct X as (m & X1 & X2). apply filter_In in X2. rewrite <- X1. apply in_map. tauto.
Qed.

Lemma newcomers_apart filters mice old w n m : (forall d, In d old -> gd_event d = n_event (gd_node d)) ->
  keeps_numbers w (map gd_node old) -> In n (newcomers search filters mice old w) -> In m old ->
  n_dev n <> n_dev (gd_node m).
Proof.
  intros E K Hn Hm X. apply newcomers_event in Hn. destruct Hn as [H1 H2]. apply H2. apply (K n (gd_node m)) in X; [|exact H1|now apply in_map].
  rewrite X, <- E by exact Hm. now apply in_map.
Qed.

Lemma updated_devs filters mice old w : devs (updated search filters mice old w) =
  devs (List.filter (reports search filters mice w) old) ++ map n_dev (newcomers search filters mice old w).
Proof. unfold updated, devs. rewrite map_app, !map_map. reflexivity. Qed.

Lemma nodup_filter_map {A B} (f : A -> B) p (l : list A) : NoDup (map f l) -> NoDup (map f (List.filter p l)).
Proof.
  induction l as [|x l IH]; intro H; [constructor|]. cbn [map List.filter] in *. apply NoDup_cons_iff in H. destruct H as [H1 H2].
  destruct (p x); [|auto]. cbn [map]. constructor; [|auto]. intro X. apply H1. apply in_map_iff in X. destruct X as (y & Y1 & Y2).
  apply filter_In in Y2. rewrite <- Y1. apply in_map. tauto.
Qed.

Lemma update_sound w s : sound s -> proper w -> keeps_numbers w (open_nodes s) -> sound (update_scan search held_keys w s).
Proof.
  intros [I1 I2 I3 I4] [P1 P2] K. pose proof (update_scan_devices search held_keys w s P1 I2) as (D & DD & SS). cbn zeta in *.
  assert (A : forall n d, In n (newcomers search (gs_filters s) (gs_mice s) (gs_devices s) w) -> In d (gs_devices s) -> n_dev n <> n_dev (gd_node d)).
  { intros n d Hn Hd. eapply newcomers_apart; eauto. }
  constructor.
  - rewrite D. unfold updated. intros d Hd. apply in_app_or in Hd. destruct Hd as [Hd|Hd]; apply in_map_iff in Hd; destruct Hd as (x & <- & Hx).
    + apply filter_In in Hx. cbn. apply I1. tauto.
    + reflexivity.
  - rewrite D. unfold updated. rewrite map_app, !map_map. cbn [marked gd_event]. apply nodup_app_both.
    + apply nodup_filter_map. exact I2.
    + apply (newcomers_nodup n_event). exact P1.
    + intros id H1 H2. apply in_map_iff in H1, H2. destruct H1 as (d & D1 & D2), H2 as (n & N1 & N2). apply filter_In in D2.
      apply newcomers_event in N2. apply (proj2 N2). rewrite N1, <- D1. apply in_map. tauto.
  - rewrite D, updated_devs. apply nodup_app_both.
    + apply nodup_filter_map. exact I3.
    + apply (newcomers_nodup n_dev). exact P2.
    + intros id H1 H2. apply in_map_iff in H1, H2. destruct H1 as (d & D1 & D2), H2 as (n & N1 & N2). apply filter_In in D2.
      eapply A; [exact N2|apply D2|congruence].
  - unfold update_scan in *. match goal with |- context [fold_left _ w ?x] => set (s0 := x) in * end.
    assert (L0 : logged s0 (devs (gs_devices s0))).
    { unfold s0, logged. cbn [put_gdevices gs_devices gs_log].
      change (map (fun d => GD (gd_event d) (gd_node d) (gd_caps d) true) (gs_devices s)) with (map (fun d => marked ((fun _ => true) d) d) (gs_devices s)).
      rewrite devs_marked. exact I4. }
    pose proof (scans_logged w s0 L0) as L1. cbn zeta in L1.
    pose proof (scan_snoc search held_keys (gs_filters s) (gs_mice s) (gs_devices s) w s0 P1 I2 eq_refl eq_refl eq_refl) as [D1 _]. cbn zeta in D1.
    set (s1 := fold_left _ w s0) in *. clearbody s1.
    assert (ND : NoDup (devs [] ++ devs (gs_devices s1))).
    { cbn [devs map app]. rewrite D1. unfold scanned, devs. rewrite map_app, !map_map. cbn [marked gd_node]. apply nodup_app_both.
      - exact I3.
      - apply (newcomers_nodup n_dev). exact P2.
      - intros id H1 H2. apply in_map_iff in H1, H2. destruct H1 as (d & E1 & E2), H2 as (n & N1 & N2). eapply A; [exact N2|exact E2|congruence]. }
    pose proof (ungrab_logged (gs_devices s1) [] s1 ND L1) as L2.
    destruct (ungrab_loop (gs_devices s1) [] s1) as [kept s2]. exact L2.
Qed.

(** The open devices are those which are wanted. *)
Definition fits (w : list node) (s : gstate) : Prop :=
  (forall n, In n w -> In (n_dev n) (devs (gs_devices s)) -> wanted search (gs_filters s) (gs_mice s) n) /\
  (forall n, In n w -> wanted search (gs_filters s) (gs_mice s) n -> n_grabs n = true -> In (n_dev n) (devs (gs_devices s))) /\
  (forall dev, In dev (devs (gs_devices s)) -> exists n, In n w /\ n_dev n = dev).

Lemma nodup_same {B} (f : node -> B) (w : list node) a b : NoDup (map f w) -> In a w -> In b w -> f a = f b -> a = b.
Proof.
  induction w as [|x w IH]; intros ND Ha Hb Q; [destruct Ha|]. cbn [map] in ND. apply NoDup_cons_iff in ND. destruct ND as [N1 N2].
  destruct Ha as [->|Ha], Hb as [->|Hb]; auto; exfalso; apply N1; [rewrite Q|rewrite <- Q]; now apply in_map.
Qed.

Lemma update_fits w s : sound s -> proper w -> keeps_numbers w (open_nodes s) -> fits w (update_scan search held_keys w s).
Proof.
  intros [I1 I2 I3 I4] [P1 P2] K. pose proof (update_scan_devices search held_keys w s P1 I2) as (D & _ & (S1 & S2 & _)). cbn zeta in *.
  unfold fits. rewrite S1, S2, D, updated_devs.
  assert (R : forall d, In d (gs_devices s) -> reports search (gs_filters s) (gs_mice s) w d = true ->
            exists n, In n w /\ wanted search (gs_filters s) (gs_mice s) n /\ n_dev n = n_dev (gd_node d)).
  { intros d Hd Q. unfold reports in Q. apply existsb_exists in Q. destruct Q as (n & H1 & H2). apply andb_prop in H2. destruct H2 as [H2 H3].
    exists n. split; [exact H1|]. split; [now apply accepted_iff|]. apply (K n (gd_node d)); [exact H1|now apply in_map|].
    rewrite <- I1 by exact Hd. now apply Z.eqb_eq. }
  assert (A : forall dev, In dev (devs (List.filter (reports search (gs_filters s) (gs_mice s) w) (gs_devices s)) ++
                                  map n_dev (newcomers search (gs_filters s) (gs_mice s) (gs_devices s) w)) ->
            exists n, In n w /\ wanted search (gs_filters s) (gs_mice s) n /\ n_dev n = dev).
  { intros dev H. apply in_app_or in H. destruct H as [H|H]; apply in_map_iff in H; destruct H as (x & H1 & H2); apply filter_In in H2; destruct H2 as [H2 H3].
    - destruct (R x H2 H3) as (n & A1 & A2 & A3). exists n. split; [exact A1|split; [exact A2|congruence]].
    - apply andb_prop in H3. destruct H3 as [H3 _]. apply andb_prop in H3. destruct H3 as [H3 _]. exists x.
      split; [exact H2|]. split; [now apply accepted_iff|exact H1]. }
  split; [|split].
  - intros n Hn H. destruct (A _ H) as (m & M1 & M2 & M3). replace n with m; [exact M2|]. eapply (nodup_same n_dev); eauto.
  - intros n Hn W G. apply in_or_app. destruct (has_event (n_event n) (gs_devices s)) eqn:HE.
    + left. apply has_event_in, in_map_iff in HE. destruct HE as (d & E1 & E2). apply in_map_iff. exists d. split.
      * symmetry. apply (K n (gd_node d)); [exact Hn|now apply in_map|]. rewrite <- I1 by exact E2. congruence.
      * apply filter_In. split; [exact E2|]. unfold reports. apply existsb_exists. exists n. split; [exact Hn|].
        apply andb_true_iff. split; [now apply accepted_iff|]. apply Z.eqb_eq. congruence.
    + right. apply in_map. unfold newcomers. apply filter_In. split; [exact Hn|]. rewrite G, HE.
      apply accepted_iff in W. now rewrite W.
  - intros dev H. destruct (A _ H) as (m & M1 & M2 & M3). eauto.
Qed.

(** Afterwards the numbers of open devices are those of the directory. *)
Lemma update_keeps w s : sound s -> proper w -> keeps_numbers w (open_nodes s) -> keeps_numbers w (open_nodes (update_scan search held_keys w s)).
Proof.
  intros [I1 I2 I3 I4] [P1 P2] K. pose proof (update_scan_devices search held_keys w s P1 I2) as (D & _). cbn zeta in *.
  intros n m Hn Hm. unfold open_nodes in Hm. rewrite D in Hm. unfold updated in Hm. rewrite map_app, !map_map in Hm. cbn [marked gd_node] in Hm.
  apply in_app_or in Hm. destruct Hm as [Hm|Hm]; apply in_map_iff in Hm; destruct Hm as (x & <- & Hx).
  - apply filter_In in Hx. apply K; [exact Hn|]. apply in_map. tauto.
  - apply newcomers_event in Hx. split; intro Q; [apply (nodup_same n_event w) in Q|apply (nodup_same n_dev w) in Q]; try (now subst n); tauto.
Qed.

Lemma update_properties w s : sound s -> proper w -> keeps_properties w (open_nodes s) -> keeps_properties w (open_nodes (update_scan search held_keys w s)).
Proof.
  intros [I1 I2 I3 I4] [P1 P2] K. pose proof (update_scan_devices search held_keys w s P1 I2) as (D & _). cbn zeta in *.
  intros n m Hn Hm. unfold open_nodes in Hm. rewrite D in Hm. unfold updated in Hm. rewrite map_app, !map_map in Hm. cbn [marked gd_node] in Hm.
  apply in_app_or in Hm. destruct Hm as [Hm|Hm]; apply in_map_iff in Hm; destruct Hm as (x & <- & Hx).
  - apply filter_In in Hx. apply K; [exact Hn|]. apply in_map. tauto.
  - apply newcomers_event in Hx. intro Q. apply (nodup_same n_dev w) in Q; try tauto. now subst n.
Qed.

(** ** Sessions *)
Variable write_ok create_ok : nat -> bool.
Notation devices_updated := (devices_updated create_ok).
Notation update_devices := (update_devices search held_keys true create_ok).
Notation loop_turn := (loop_turn search held_keys true write_ok create_ok).
Notation dstep_run := (dstep_run search held_keys true write_ok create_ok).
Notation drun := (drun search held_keys true write_ok create_ok).
Notation orderly := (orderly search held_keys true write_ok create_ok).

Record settled (mice : bool) (filters : list (filter * bool)) (y : dsys) : Prop := {
  se_sound : sound (ds_grab y);
  se_mice : gs_mice (ds_grab y) = mice;
  se_filters : gs_filters (ds_grab y) = filters;
  se_monitor : gs_monitor (ds_grab y) = true;
  se_proper : proper (ds_world y);
  se_numbers : keeps_numbers (ds_world y) (open_nodes (ds_grab y));
  se_properties : keeps_properties (ds_world y) (open_nodes (ds_grab y));
  se_changed : gs_changed (ds_grab y) = false;
  se_fits : ds_pending y = false -> fits (ds_world y) (ds_grab y)
}.

Lemma updated_parts y : ds_world (devices_updated y) = ds_world y /\ ds_pending (devices_updated y) = ds_pending y /\
  ds_grab (devices_updated y) = ds_grab y /\ ds_reads (devices_updated y) = ds_reads y.
Proof. unfold Grab.devices_updated. destruct (update_forward_devices _ _ _) as [v []]; auto. Qed.

Lemma settle_scan mice filters w p y g :
  sound g -> gs_mice g = mice -> gs_filters g = filters -> gs_monitor g = true -> proper w -> keeps_numbers w (open_nodes g) ->
  keeps_properties w (open_nodes g) -> ds_world y = w -> ds_pending y = p ->
  settled mice filters (devices_updated (put_grab (put_changed false (update_scan search held_keys w g)) y)).
Proof.
  intros I1 Em Ef Mo P K KP Ew Ep.
  pose proof (update_scan_devices search held_keys w g (proj1 P) (so_events _ I1)) as (_ & _ & (S1 & S2 & S3 & S4)). cbn zeta in *.
  match goal with |- settled _ _ (devices_updated ?x) => destruct (updated_parts x) as (U1 & U2 & U3 & U4) end.
  constructor; rewrite ?U1, ?U2, ?U3; cbn [put_grab ds_grab ds_world ds_pending]; rewrite ?Ew, ?Ep; cbn; try congruence.
  - pose proof (update_sound w g I1 P K) as [A1 A2 A3 A4]. constructor; auto.
  - apply update_keeps; auto.
  - apply update_properties; auto.
  - intros _. apply update_fits; auto.
Qed.

Lemma settled_update mice filters during y :
  sound (ds_grab y) -> gs_mice (ds_grab y) = mice -> gs_filters (ds_grab y) = filters -> gs_changed (ds_grab y) = true ->
  proper (ds_world y) -> keeps_numbers (ds_world y) (open_nodes (ds_grab y)) ->
  keeps_properties (ds_world y) (open_nodes (ds_grab y)) ->
  (forall w, during = Some w -> proper w /\ keeps_numbers w (open_nodes (ds_grab y)) /\ keeps_properties w (open_nodes (ds_grab y))) ->
  settled mice filters (update_devices during y).
Proof.
  intros I1 Em Ef Ch P K KP Du. unfold Grab.update_devices. rewrite Ch. destruct during as [w|]; cbn [world_may_change].
  - destruct (Du w eq_refl) as (P' & K' & KP'). apply settle_scan with (p := true); auto; destruct I1 as [A1 A2 A3 A4]; constructor; auto.
  - apply settle_scan with (p := false); auto; destruct I1 as [A1 A2 A3 A4]; constructor; auto.
Qed.

Lemma unchanged_update during y : gs_changed (ds_grab y) = false -> update_devices during y = y.
Proof. intro H. unfold Grab.update_devices. now rewrite H. Qed.

Lemma settled_put_read mice filters r v y : settled mice filters y -> settled mice filters (put_read r v y).
Proof. intros []. constructor; auto. Qed.
Lemma put_grab_same y : put_grab (ds_grab y) y = y.
Proof. now destruct y. Qed.

Lemma settled_turn mice filters r during y : settled mice filters y -> step_orderly (DTurn r during) y ->
  settled mice filters (loop_turn r during y).
Proof.
  intros S0 O. pose proof S0 as S1. destruct S1 as [I1 Em Ef Mo P K KP Ch Fi]. unfold Grab.loop_turn.
  destruct (ds_over y); [exact S0|]. destruct r as [r|]; cbn [option_map read_input_event].
  2:{ rewrite put_grab_same. constructor; auto. }
  rewrite Mo. cbn [andb sl_monitor sl_client]. destruct (ds_pending y) eqn:Pe.
  - apply settled_update; cbn; auto.
    + destruct I1 as [A1 A2 A3 A4]; constructor; auto.
    + intros w ->. exact O.
  - destruct (sl_client r); rewrite put_grab_same; [rewrite unchanged_update by exact Ch; exact S0|].
    destruct (read_devices _ _ _) as [| |i e|].
    + constructor; auto.
    + rewrite unchanged_update by exact Ch. exact S0.
    + destruct (to_key_event e) as [k|]; [|now apply settled_put_read].
      destruct (N.eqb (ek k) k_none); rewrite unchanged_update by exact Ch; [exact S0|now apply settled_put_read].
    + constructor; auto.
Qed.

Lemma settled_step mice filters x y : settled mice filters y -> step_orderly x y -> settled mice filters (dstep_run x y).
Proof.
  intros S0 O. destruct x as [r during|e|w|w]; cbn [Grab.dstep_run].
  - now apply settled_turn.
  - destruct S0. constructor; auto.
  - destruct S0 as [I1 Em Ef Mo P K KP Ch Fi], O as (O1 & O2 & O3). constructor; auto. cbn. rewrite Mo. discriminate.
  - destruct O.
Qed.

Lemma settled_run mice filters l : forall y, settled mice filters y -> orderly l y -> settled mice filters (drun l y).
Proof.
  induction l as [|x l IH]; intros y S0 O; [exact S0|]. destruct O as [O1 O2]. unfold Grab.drun in *. cbn [fold_left]. apply IH; [now apply settled_step|exact O2].
Qed.

Lemma settled_session w mice filters during : proper w -> (forall v, during = Some v -> proper v) ->
  settled mice filters (session search held_keys true create_ok w mice filters during).
Proof.
  intros P Du. unfold session. set (y := DS w false _ _ _ _ _).
  assert (Q : forall v y', proper v -> ds_world y' = v -> gs_devices (ds_grab y') = [] -> ds_grab y' = grab_begin true mice filters ->
    settled mice filters (devices_updated (put_grab (update_scan search held_keys (ds_world y') (ds_grab y')) y'))).
  { intros v y' Pv Ev _ Eg. rewrite Eg, Ev.
    assert (SG : sound (grab_begin true mice filters)).
    { constructor; cbn; try (now constructor); try tauto. }
    assert (KG : keeps_numbers v (open_nodes (grab_begin true mice filters))) by (intros n m _ []).
    assert (KP : keeps_properties v (open_nodes (grab_begin true mice filters))) by (intros n m _ []).
    pose proof (settle_scan mice filters v (ds_pending y') y' (grab_begin true mice filters) SG eq_refl eq_refl eq_refl Pv KG KP Ev eq_refl) as R.
    assert (E1 : put_changed false (update_scan search held_keys v (grab_begin true mice filters)) = update_scan search held_keys v (grab_begin true mice filters)).
    { pose proof (update_scan_devices search held_keys v (grab_begin true mice filters) (proj1 Pv) (so_events _ SG)) as (_ & _ & (_ & _ & _ & S4)). cbn zeta in S4.
      destruct (update_scan _ _ _ _). cbn in *. now subst. }
    rewrite E1 in R. exact R. }
  destruct during as [v|]; cbn [world_may_change].
  - apply (Q v); auto.
  - apply (Q w); auto.
Qed.
End Run.
