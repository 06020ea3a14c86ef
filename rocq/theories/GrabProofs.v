(** Proofs about grabbed devices *)
From Coq Require Import String Ascii List Arith NArith ZArith Bool Lia FinFun.
From Verif Require Import Base Key Text ClientProofs Stage Config Client ClientSpec ClientInject Device Grab GrabSpec.
Import ListNotations.
Local Open Scope Z_scope.

Lemma nodup_app_l {A} (a b : list A) : NoDup (a ++ b) -> NoDup a.
Proof.
  induction a as [|x a IH]; intro H; [constructor|]. cbn [app] in H. apply NoDup_cons_iff in H. destruct H as [H1 H2].
  constructor; [|auto]. intro X. apply H1, in_or_app. now left.
Qed.
Lemma nodup_app_both {A} (a b : list A) : NoDup a -> NoDup b -> (forall x, In x a -> In x b -> False) -> NoDup (a ++ b).
Proof.
  induction a as [|x a IH]; intros Ha Hb D; [exact Hb|]. cbn [app]. apply NoDup_cons_iff in Ha. destruct Ha as [H1 H2]. constructor.
  - intro X. apply in_app_or in X. destruct X as [X|X]; [contradiction|]. eapply D; [now left|exact X].
  - apply IH; auto. intros y Y1 Y2. eapply D; [right; exact Y1|exact Y2].
Qed.

(** ** Which devices *)

Lemma key_bits_in n k : In k (key_bits n) <-> has_key_code n k.
Proof.
  unfold key_bits, has_key_code. rewrite filter_In, in_map_iff, existsb_exists. split.
  - intros [(i & Hi & Hs) (x & Hx & Ex)]. apply N.eqb_eq in Ex. subst x. apply List.in_seq in Hs. split; [exact Hx|lia].
  - intros [Hk Hl]. split; [exists (N.to_nat k); split; [lia|apply List.in_seq; lia]|exists k; split; [exact Hk|apply N.eqb_refl]].
Qed.
Lemma key_bits_nodup n : NoDup (key_bits n).
Proof. apply NoDup_filter. apply FinFun.Injective_map_NoDup; [intros a b H; lia|apply seq_NoDup]. Qed.
Local Opaque key_bits.
Lemma keyboard_dec n : (32 <=? get_num_keys n)%nat = true <-> is_keyboard n.
Proof.
  unfold get_num_keys. rewrite Nat.leb_le. split.
  - intro H. exists (firstn 32 (key_bits n)). split; [|split].
    + pose proof (key_bits_nodup n) as K. rewrite <- (firstn_skipn 32 (key_bits n)) in K. now apply nodup_app_l in K.
    + now rewrite firstn_length_le.
    + intros k Hk. apply (proj1 (key_bits_in n k)). rewrite <- (firstn_skipn 32 (key_bits n)). apply in_or_app. now left.
  - intros (ks & N1 & L & F). rewrite <- L. apply NoDup_incl_length; [exact N1|]. intros k Hk. apply (proj2 (key_bits_in n k)). auto.
Qed.
Lemma no_keys_dec n : (get_num_keys n =? 0)%nat = true <-> ~ exists k, has_key_code n k.
Proof.
  unfold get_num_keys. rewrite Nat.eqb_eq. split.
  - intros H (k & Hk). apply (proj2 (key_bits_in n k)) in Hk. destruct (key_bits n); [destruct Hk|discriminate].
  - intros H. destruct (key_bits n) as [|k r] eqn:K; [reflexivity|]. exfalso. apply H. exists k. apply (proj1 (key_bits_in n k)). rewrite K. now left.
Qed.
Lemma some_key_dec n : (get_num_keys n =? 0)%nat = false -> exists k, has_key_code n k.
Proof.
  unfold get_num_keys. rewrite Nat.eqb_neq. intros H. destruct (key_bits n) as [|k r] eqn:K; [now destruct H|].
  exists k. apply (proj1 (key_bits_in n k)). rewrite K. now left.
Qed.
Local Opaque get_num_keys.
Lemma mouse_dec n : has_mouse_axes n = true <-> is_mouse n.
Proof.
  unfold has_mouse_axes, is_mouse. rewrite negb_true_iff, N.eqb_neq. split.
  - intros H. destruct (N.testbit (n_rel n) 0) eqn:B0; [auto|]. destruct (N.testbit (n_rel n) 1) eqn:B1; [auto|].
    exfalso. apply H. apply N.bits_inj. intros i. rewrite N.land_spec, N.bits_0.
    destruct (N.eq_dec i 0) as [->|]; [now rewrite B0|]. destruct (N.eq_dec i 1) as [->|]; [now rewrite B1|].
    rewrite (N.bits_above_log2 3 i); [apply andb_false_r|]. change (N.log2 3) with 1%N. lia.
  - intros H Z. assert (Q : forall i, (i < 2)%N -> N.testbit (n_rel n) i = true -> False).
    { intros i Hi B. assert (X : N.testbit (N.land (n_rel n) 3) i = false) by (rewrite Z; apply N.bits_0).
      rewrite N.land_spec, B in X. assert (i = 0 \/ i = 1)%N as [->| ->] by lia; discriminate X. }
    destruct H as [H|H]; eapply Q; try exact H; lia.
Qed.
Lemma axes_dec n : has_uncommon_abs_axes n = true <-> has_axes n.
Proof.
  unfold has_uncommon_abs_axes, has_axes. rewrite existsb_exists.
  split; intros (a & Ha & Q); exists a; (split; [exact Ha|]).
  - apply negb_true_iff, orb_false_iff in Q. now rewrite !N.eqb_neq in Q.
  - apply negb_true_iff, orb_false_iff. now rewrite !N.eqb_neq.
Qed.
Lemma switches_dec n : has_switches n = true <-> has_switch n.
Proof. unfold has_switches, has_switch. now rewrite negb_true_iff, N.eqb_neq. Qed.

Lemma keyboard_has_key n : is_keyboard n -> exists k, has_key_code n k.
Proof. intros (ks & _ & L & F). destruct ks as [|k ks]; [discriminate|]. exists k. apply F. now left. Qed.
Lemma default_dec n mice : is_grabbed_by_default n mice = true <-> by_default mice n.
Proof.
  unfold is_grabbed_by_default, by_default. pose proof (keyboard_has_key n) as KK.
  destruct (get_num_keys n =? 0)%nat eqn:K0.
  { apply no_keys_dec in K0. split; [discriminate|]. intros [H|[H _]]; [now apply KK in H|contradiction]. }
  pose proof (some_key_dec n K0) as K1.
  destruct (32 <=? get_num_keys n)%nat eqn:K2.
  { apply keyboard_dec in K2. tauto. }
  assert (K3 : ~ is_keyboard n) by (intro X; apply keyboard_dec in X; congruence).
  destruct (has_mouse_axes n) eqn:K4.
  { apply mouse_dec in K4. split; [auto|]. intros [H|[_ [[_ H]|[H _]]]]; tauto. }
  assert (K5 : ~ is_mouse n) by (intro X; apply mouse_dec in X; congruence).
  destruct (has_uncommon_abs_axes n) eqn:K6.
  { apply axes_dec in K6. split; [discriminate|]. tauto. }
  assert (K7 : ~ has_axes n) by (intro X; apply axes_dec in X; congruence).
  destruct (has_switches n) eqn:K8.
  { apply switches_dec in K8. split; [discriminate|]. tauto. }
  assert (K9 : ~ has_switch n) by (intro X; apply switches_dec in X; congruence). tauto.
Qed.

Lemma ends_with_iff t e : ends_with t e = true <-> exists p, t = p ++ e.
Proof.
  unfold ends_with. rewrite andb_true_iff, Nat.leb_le, text_eqb_eq. split.
  - intros [L Q]. exists (firstn (length t - length e) t). rewrite <- Q at 2. symmetry. apply firstn_skipn.
  - intros (p & ->). rewrite app_length. split; [lia|]. replace (length p + length e - length e)%nat with (length p) by lia.
    now rewrite skipn_app, Nat.sub_diag, skipn_all.
Qed.
Lemma virtual_dec t : is_virtual_device t = true <-> own_name t.
Proof. apply ends_with_iff. Qed.

Section Run.
Variable search : text -> text -> bool.
Variable held_keys : nat -> nat -> option (list N).
Variable monitor_ok : bool.

Definition accepted (filters : list (filter * bool)) (mice : bool) (n : node) : bool :=
  n_opens n && (is_supported_device n && negb (is_virtual_device (n_name n))) &&
  evaluate_grab_filters search filters (n_name n) (n_link n) (is_grabbed_by_default n mice).

Lemma decides_unique l name id d a b : decides search l name id d a -> decides search l name id d b -> a = b.
Proof.
  intros [(p & f & q & E1 & E2 & E3 & E4)|[E1 E2]] [(p' & f' & q' & F1 & F2 & F3 & F4)|[F1 F2]].
  - assert (f = f').
    { clear E4 F4. subst l. revert p' F1. induction p as [|x p IH]; intros p' F1.
      - destruct p' as [|x' p']; cbn [app] in F1; injection F1; [auto|]. intros X1 X2. subst.
        exfalso. eapply E3; [|exact F2]. apply in_or_app. right. now left.
      - destruct p' as [|x' p']; cbn [app] in F1; injection F1; intros X1 X2; subst.
        + exfalso. eapply F3; [|exact E2]. apply in_or_app. right. now left.
        + eapply IH. exact X1. }
    subst f'. congruence.
  - subst l. exfalso. eapply F1; [|exact E2]. apply in_or_app. right. now left.
  - subst l. exfalso. eapply E1; [|exact F2]. apply in_or_app. right. now left.
  - congruence.
Qed.

Lemma accepted_iff filters mice n : accepted filters mice n = true <-> wanted search filters mice n.
Proof.
  unfold accepted, wanted, is_supported_device. change EV_SYN with 0%N. change EV_KEY with 1%N.
  rewrite !andb_true_iff, negb_true_iff.
  assert (V : is_virtual_device (n_name n) = false <-> ~ own_name (n_name n)).
  { rewrite <- virtual_dec. destruct (is_virtual_device (n_name n)); split; intros; try congruence; try (now destruct H). }
  assert (W : evaluate_grab_filters search filters (n_name n) (n_link n) (is_grabbed_by_default n mice) = true <->
    exists d, (d = true <-> by_default mice n) /\ decides search filters (n_name n) (n_link n) d true).
  { pose proof (grab_decides search filters (n_name n) (n_link n) (is_grabbed_by_default n mice)) as D. split.
    - intros X. exists (is_grabbed_by_default n mice). split; [apply default_dec|]. now rewrite X in D.
    - intros (d & D1 & D2). assert (d = is_grabbed_by_default n mice).
      { destruct d, (is_grabbed_by_default n mice) eqn:Q; auto.
        - assert (is_grabbed_by_default n mice = true) by (apply default_dec, D1; reflexivity). congruence.
        - assert (X : by_default mice n) by (apply default_dec; exact Q). apply D1 in X. discriminate X. }
      subst d. eapply decides_unique; eauto. }
  rewrite V, W. tauto.
Qed.

(** ** update *)

Notation fresh n := (GD (n_event n) n
  (G (get_device_abs_axis_range n ABS_VOLUME) (get_device_abs_axis_range n ABS_MISC) (has_highres_wheel (n_rel n))) false).
Definition marked (b : bool) (d : gdevice) : gdevice := GD (gd_event d) (gd_node d) (gd_caps d) b.
Definition reports (filters : list (filter * bool)) (mice : bool) (p : list node) (d : gdevice) : bool :=
  existsb (fun n => accepted filters mice n && (n_event n =? gd_event d)) p.
Definition has_event (id : Z) (l : list gdevice) : bool := existsb (fun d => gd_event d =? id) l.
Definition newcomers (filters : list (filter * bool)) (mice : bool) (old : list gdevice) (p : list node) : list node :=
  List.filter (fun n => accepted filters mice n && n_grabs n && negb (has_event (n_event n) old)) p.

(** What stays the same while scanning *)
Definition same_settings (s s' : gstate) : Prop :=
  gs_mice s' = gs_mice s /\ gs_filters s' = gs_filters s /\ gs_monitor s' = gs_monitor s /\ gs_changed s' = gs_changed s.

Lemma has_event_in id l : has_event id l = true <-> In id (map gd_event l).
Proof.
  unfold has_event. rewrite existsb_exists, in_map_iff. split; intros (d & A & B); exists d; [|rewrite Z.eqb_eq]; [|tauto].
  apply Z.eqb_eq in B. tauto.
Qed.
Lemma reappear_marked id : forall l, NoDup (map gd_event l) ->
  reappear id l = map (fun d => if gd_event d =? id then marked false d else d) l.
Proof.
  induction l as [|d l IH]; intro ND; [reflexivity|]. cbn [reappear map] in *. apply NoDup_cons_iff in ND. destruct ND as [N1 N2].
  destruct (gd_event d =? id) eqn:Q; [|now rewrite IH].
  f_equal. apply Z.eqb_eq in Q. subst id. rewrite <- (map_id l) at 1. apply map_ext_in. intros x Hx.
  destruct (gd_event x =? gd_event d) eqn:Q; [|reflexivity]. apply Z.eqb_eq in Q. exfalso. apply N1. rewrite <- Q. now apply in_map.
Qed.

Lemma newcomers_event filters mice old p n : In n (newcomers filters mice old p) -> In n p /\ ~ In (n_event n) (map gd_event old).
Proof.
  unfold newcomers. rewrite filter_In, !andb_true_iff, negb_true_iff. intros [H [_ Q]]. split; [exact H|].
  rewrite <- has_event_in. congruence.
Qed.

Definition scanned (filters : list (filter * bool)) (mice : bool) (old : list gdevice) (p : list node) : list gdevice :=
  map (fun d => marked (negb (reports filters mice p d)) d) old ++ map (fun n => fresh n) (newcomers filters mice old p).

Lemma scan_snoc filters mice old : forall p s,
  NoDup (map n_event p) -> NoDup (map gd_event old) -> gs_mice s = mice -> gs_filters s = filters ->
  gs_devices s = map (marked true) old ->
  let s' := fold_left (fun s n => scan_entry search held_keys n s) p s in
  gs_devices s' = scanned filters mice old p /\ same_settings s s'.
Proof.
  intros p s NP NO Em Ef Ed. induction p as [|n p IH] using rev_ind.
  - cbn. unfold scanned, newcomers. cbn. rewrite app_nil_r. split; [exact Ed|]. repeat split.
  - rewrite map_app in NP. cbn [map] in NP. pose proof (NoDup_remove_1 _ _ _ NP) as NP1. rewrite app_nil_r in NP1.
    pose proof (NoDup_remove_2 _ _ _ NP) as NP2. rewrite app_nil_r in NP2.
    destruct (IH NP1) as [D SS]. cbn zeta. rewrite fold_left_app. cbn [fold_left].
    set (s' := fold_left _ p s) in *. clearbody s'. destruct SS as (S1 & S2 & S3 & S4).
    assert (ND : NoDup (map gd_event (gs_devices s'))).
    { rewrite D. unfold scanned. rewrite map_app, !map_map. cbn [gd_event marked]. apply nodup_app_both.
      - exact NO.
      - unfold newcomers. clear -NP1. induction p as [|x p IH]; [constructor|]. cbn [map] in NP1. apply NoDup_cons_iff in NP1. destruct NP1 as [A B].
        cbn [List.filter]. destruct (_ && _ && _); [|auto]. cbn [map]. constructor; [|auto].
        intro X. apply A. apply in_map_iff in X. destruct X as (m & X1 & X2). apply filter_In in X2. rewrite <- X1. apply in_map. tauto.
      - intros id H1 H2. apply in_map_iff in H2. destruct H2 as (m & X1 & X2). apply newcomers_event in X2. subst id. tauto. }
    assert (HE : has_event (n_event n) (gs_devices s') = has_event (n_event n) old).
    { apply eq_true_iff_eq. rewrite !has_event_in. rewrite D. unfold scanned. rewrite map_app, !map_map. cbn [gd_event marked].
      rewrite in_app_iff. split; [|auto]. intros [H|H]; [exact H|]. exfalso. apply NP2.
      apply in_map_iff in H. destruct H as (m & X1 & X2). apply newcomers_event in X2. rewrite <- X1. apply in_map. tauto. }
    assert (A : scan_entry search held_keys n s' =
      if accepted filters mice n then if has_event (n_event n) (gs_devices s') then put_gdevices (reappear (n_event n) (gs_devices s')) s'
                                      else grab_device held_keys n s' else s').
    { unfold scan_entry, accepted, selected. rewrite S1, S2, Em, Ef. destruct (n_opens n); [|reflexivity]. cbn [andb].
      destruct (is_supported_device n && negb (is_virtual_device (n_name n))); [|reflexivity]. cbn [andb].
      destruct (evaluate_grab_filters search filters (n_name n) (n_link n) (is_grabbed_by_default n mice)); reflexivity. }
    rewrite A. clear A. unfold scanned, newcomers. rewrite filter_app, map_app. cbn [List.filter].
    destruct (accepted filters mice n) eqn:Acc.
    + rewrite HE. destruct (has_event (n_event n) old) eqn:HO.
      * rewrite andb_false_r. cbn [map negb]. rewrite app_nil_r. split; [|unfold put_gdevices; repeat split; assumption].
        cbn [gs_devices put_gdevices]. rewrite reappear_marked by exact ND. rewrite D. unfold scanned. rewrite map_app, !map_map. f_equal.
        -- apply map_ext. intros d. cbn [gd_event marked]. unfold reports. rewrite existsb_app. cbn [existsb]. rewrite Acc. cbn [andb orb].
           rewrite orb_false_r, Z.eqb_sym. destruct (n_event n =? gd_event d); [now rewrite orb_true_r|now rewrite orb_false_r].
        -- apply map_ext_in. intros m Hm. apply newcomers_event in Hm. cbn [gd_event].
           destruct (n_event m =? n_event n) eqn:Q; [|reflexivity]. apply Z.eqb_eq in Q. reflexivity.
      * cbn [andb negb]. rewrite !andb_true_r.
        assert (R : map (fun d => marked (negb (reports filters mice (p ++ [n]) d)) d) old = map (fun d => marked (negb (reports filters mice p d)) d) old).
        { apply map_ext_in. intros d Hd. unfold reports. rewrite existsb_app. cbn [existsb]. rewrite Acc. cbn [andb orb].
          destruct (n_event n =? gd_event d) eqn:Q; [|now rewrite !orb_false_r]. apply Z.eqb_eq in Q.
          assert (has_event (n_event n) old = true) by (apply has_event_in; rewrite Q; now apply in_map). congruence. }
        rewrite R. unfold grab_device, wait_until_keys_released.
        match goal with |- context [put_polls ?x s'] => generalize x end. intro polls. destruct (n_grabs n).
        -- cbn. rewrite D. unfold scanned, newcomers. rewrite <- app_assoc. split; [reflexivity|]. repeat split; assumption.
        -- cbn. rewrite app_nil_r, D. split; [reflexivity|]. repeat split; assumption.
    + cbn [andb map]. rewrite app_nil_r.
      assert (R : map (fun d => marked (negb (reports filters mice (p ++ [n]) d)) d) old = map (fun d => marked (negb (reports filters mice p d)) d) old).
      { apply map_ext. intros d. unfold reports. rewrite existsb_app. cbn [existsb]. rewrite Acc. cbn [andb orb]. now rewrite orb_false_r. }
      rewrite R. split; [exact D|]. repeat split; assumption.
Qed.

Lemma ungrab_loop_kept : forall l kept s, fst (ungrab_loop held_keys l kept s) = kept ++ List.filter (fun d => negb (gd_disappeared d)) l.
Proof.
  induction l as [|d l IH]; intros kept s; cbn [ungrab_loop List.filter]; [now rewrite app_nil_r|].
  destruct (gd_disappeared d); cbn [negb]; rewrite IH; [reflexivity|]. now rewrite <- app_assoc.
Qed.
Lemma ungrab_loop_settings : forall l kept s, same_settings s (snd (ungrab_loop held_keys l kept s)).
Proof.
  induction l as [|d l IH]; intros kept s; cbn [ungrab_loop]; [repeat split|]. destruct (gd_disappeared d); [|apply IH].
  exact (IH kept (ungrab_device held_keys d s)).
Qed.

(** The devices after an update: those of before which are still reported, and newcomers *)
Definition updated (filters : list (filter * bool)) (mice : bool) (old : list gdevice) (w : list node) : list gdevice :=
  map (marked false) (List.filter (reports filters mice w) old) ++ map (fun n => fresh n) (newcomers filters mice old w).

Lemma update_scan_devices w s : NoDup (map n_event w) -> NoDup (map gd_event (gs_devices s)) ->
  let s' := update_scan search held_keys w s in
  gs_devices s' = updated (gs_filters s) (gs_mice s) (gs_devices s) w /\
  gs_descs s' = map (describe w) (gs_devices s') /\ same_settings s s'.
Proof.
  intros NW NO. cbn zeta. unfold update_scan.
  match goal with |- context [fold_left _ w ?x] => set (s0 := x) end.
  pose proof (scan_snoc (gs_filters s) (gs_mice s) (gs_devices s) w s0 NW NO eq_refl eq_refl eq_refl) as [D SS]. cbn zeta in D, SS.
  set (s1 := fold_left _ w s0) in *. clearbody s1.
  pose proof (ungrab_loop_kept (gs_devices s1) [] s1) as K. pose proof (ungrab_loop_settings (gs_devices s1) [] s1) as T2.
  destruct (ungrab_loop held_keys (gs_devices s1) [] s1) as [kept s2]. cbn [fst snd] in K, T2. cbn [put_descs put_gdevices gs_devices gs_descs].
  split; [|split; [reflexivity|]].
  - rewrite K, D. unfold scanned, updated. cbn [app]. rewrite filter_app. f_equal.
    + clear. induction (gs_devices s) as [|d l IH]; [reflexivity|]. cbn [map List.filter]. unfold marked at 1 3. cbn [gd_disappeared].
      rewrite negb_involutive. destruct (reports (gs_filters s) (gs_mice s) w d); cbn [map]; rewrite <- IH; reflexivity.
    + clear. induction (newcomers (gs_filters s) (gs_mice s) (gs_devices s) w) as [|n l IH]; [reflexivity|]. cbn [map List.filter gd_disappeared negb]. now rewrite IH.
  - destruct SS as (A1 & A2 & A3 & A4), T2 as (B1 & B2 & B3 & B4).
    change (gs_mice s0) with (gs_mice s) in A1. change (gs_filters s0) with (gs_filters s) in A2.
    change (gs_monitor s0) with (gs_monitor s) in A3. change (gs_changed s0) with (gs_changed s) in A4.
    unfold same_settings. cbn [gs_mice gs_filters gs_monitor gs_changed put_descs put_gdevices]. repeat split; congruence.
Qed.
End Run.
