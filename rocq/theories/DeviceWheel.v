(** Proofs about the wheel and the absolute axes of the virtual devices of Linux. *)
From Coq Require Import List Arith NArith ZArith Bool Lia.
From Verif Require Import Base Key Device DeviceSpec DeviceProofs.
Import ListNotations.
Local Open Scope Z_scope.

Definition acc (vertical : bool) (x : vdevice) : Z := if vertical then vd_vertical x else vd_horizontal x.

Lemma written_snoc d h v t w : written d h v (t ++ [w]) =
  match w with
  | WEvent d' e _ => if vid_eqb d' d && N.eqb (ie_type e) EV_REL && N.eqb (ie_code e) (wheel_code h v)
                     then written d h v t + ie_value e else written d h v t
  | WCreate x => if vid_eqb (VForward (d_id x)) d then 0 else written d h v t
  | WDestroy id => if vid_eqb (VForward id) d then 0 else written d h v t
  end.
Proof. unfold written. rewrite fold_left_app. reflexivity. Qed.

Lemma steps_snoc h v t t' : steps_written h v (t ++ t') = steps_written h v t ++ steps_written h v t'.
Proof. unfold steps_written. apply flat_map_app. Qed.

Lemma sent_snoc v l c : wheel_sent v (l ++ [c]) = wheel_sent v l ++ wheel_sent v [c].
Proof. unfold wheel_sent. apply flat_map_app. Qed.

Definition wheel_event (h v : bool) (z : Z) : ievent := IE EV_REL (wheel_code h v) z.

Lemma wheel_code_eqb h v h' v' : N.eqb (wheel_code h v) (wheel_code h' v') = Bool.eqb h h' && Bool.eqb v v'.
Proof. destruct h, v, h', v'; reflexivity. Qed.

Lemma written_wheel d h v t d' h' v' z ok :
  written d h v (t ++ [WEvent d' (wheel_event h' v' z) ok]) =
  if vid_eqb d' d && Bool.eqb h' h && Bool.eqb v' v then written d h v t + z else written d h v t.
Proof.
  rewrite written_snoc. cbn [wheel_event ie_type ie_code ie_value]. rewrite N.eqb_refl, andb_true_r, wheel_code_eqb, andb_assoc. reflexivity.
Qed.
Lemma written_type d h v t d' e ok : ie_type e <> EV_REL ->
  written d h v (t ++ [WEvent d' e ok]) = written d h v t.
Proof. intros H. rewrite written_snoc. apply N.eqb_neq in H. rewrite H, andb_false_r. reflexivity. Qed.

Lemma quot_small a : Z.abs (a - Z.quot a 120 * 120) < 120.
Proof. pose proof (Z.quot_rem' a 120). pose proof (Z.rem_bound_abs a 120). lia. Qed.

Section Wheel.
Variable write_ok : nat -> bool.
Variable create_ok : nat -> bool.
Hypothesis writes : forall n, write_ok n = true.
Hypothesis creates : forall n, create_ok n = true.

Lemma send_wheel_eq e s : is_mouse_wheel (ek e) = true ->
  let d := target (ek e) s in let v := vertical_wheel (ek e) in
  let '(lo, x) := update_lowres_wheel v (motion e) (get_vdevice d s) in
  let s' := fst (send_key_event write_ok e s) in
  vs_log s' = vs_log s ++ [WEvent d (wheel_event true v (motion e)) true] ++
              (if lo =? 0 then [] else [WEvent d (wheel_event false v lo) true]) ++ [WEvent d syn true] /\
  vs_keyboard s' = vs_keyboard (put_vdevice d x s) /\ vs_forward s' = vs_forward (put_vdevice d x s) /\
  vs_devices s' = vs_devices s /\ vs_last s' = vs_last s.
Proof.
  intros W d v. unfold send_key_event. fold (target (ek e) s). rewrite W. fold (vertical_wheel (ek e)). fold v. fold d.
  rewrite Z.mul_comm. fold (motion e).
  rewrite !sent by exact writes. cbn [fst].
  assert (Eg : forall i, get_vdevice d (vlog (WEvent d i true) s) = get_vdevice d s) by (intros; destruct d; reflexivity). rewrite Eg.
  assert (Ew : IE EV_REL (if v then REL_WHEEL_HI_RES else REL_HWHEEL_HI_RES) (motion e) = wheel_event true v (motion e)) by (destruct v; reflexivity).
  rewrite Ew.
  destruct (update_lowres_wheel v (motion e) (get_vdevice d s)) as [lo x].
  assert (El : IE EV_REL (if v then REL_WHEEL else REL_HWHEEL) lo = wheel_event false v lo) by (destruct v; reflexivity).
  rewrite El. destruct (lo =? 0); rewrite !sent by exact writes; cbn [fst]; unfold vlog;
    destruct d; cbn [put_vdevice vs_log vs_keyboard vs_forward vs_devices vs_last]; rewrite <- !app_assoc; repeat split; reflexivity.
Qed.

Record wheeled (l : list vcall) (s : vdevices) : Prop := {
  wh_exists : forall d, In d (vs_devices s) \/ vs_last s = Some d ->
     match d with VForward id => In id (map fst (vs_forward s)) | VKeyboard => True end;
  wh_sum : forall d v, written d true v (vs_log s) = 120 * written d false v (vs_log s) + acc v (get_vdevice d s);
  wh_small : forall d v, Z.abs (acc v (get_vdevice d s)) < 120;
  wh_high : forall v, steps_written true v (vs_log s) = wheel_sent v l
}.

Lemma target_exists l s k : wheeled l s ->
  match target k s with VForward id => In id (map fst (vs_forward s)) | VKeyboard => True end.
Proof.
  intros W. unfold target. destruct (vs_last s) as [m|] eqn:L; [|exact Logic.I].
  destruct (is_mouse_button k || is_mouse_wheel k); [|exact Logic.I]. apply (wh_exists _ _ W). now right.
Qed.

Lemma wheeled_wheel l s e : is_mouse_wheel (ek e) = true -> wheeled l s ->
  wheeled (l ++ [VSend e]) (fst (send_key_event write_ok e s)).
Proof.
  intros W H. pose proof (target_exists _ _ (ek e) H) as TE. pose proof (send_wheel_eq e s W) as SW.
  cbn zeta in SW. set (d := target (ek e) s) in *. set (v := vertical_wheel (ek e)) in *.
  destruct (update_lowres_wheel v (motion e) (get_vdevice d s)) as [lo x] eqn:U.
  destruct SW as (L & K & F & D & La). set (s' := fst (send_key_event write_ok e s)) in *.
  assert (G : forall d', get_vdevice d' s' = get_vdevice d' (put_vdevice d x s)) by (intros; now apply get_same).
  assert (X : acc v x = acc v (get_vdevice d s) + motion e - lo * 120 /\ acc (negb v) x = acc (negb v) (get_vdevice d s) /\ Z.abs (acc v x) < 120).
  { unfold update_lowres_wheel in U. fold (acc v (get_vdevice d s)) in U. injection U as U1 U2.
    pose proof (quot_small (acc v (get_vdevice d s) + motion e)) as Q. rewrite U1 in *.
    destruct v; cbn [acc negb] in *; subst x; cbn [vd_vertical vd_horizontal]; auto. }
  destruct X as (X1 & X2 & X3).
  assert (A : forall d' v', acc v' (get_vdevice d' s') =
            if vid_eqb d d' && Bool.eqb v v' then acc v (get_vdevice d s) + motion e - lo * 120 else acc v' (get_vdevice d' s)).
  { intros d' v'. rewrite G. destruct (vid_eqb d d') eqn:Q; cbn [andb].
    - apply vid_eqb_eq in Q. subst d'. rewrite get_put_same by exact TE. destruct v, v'; cbn [Bool.eqb negb] in *; assumption.
    - apply vid_eqb_neq in Q. rewrite get_put_other by congruence. reflexivity. }
  destruct H as [H1 H2 H3 H4]. split.
  - intros d'. rewrite D, La, F, put_ids. apply H1.
  - intros d' v'. rewrite L, A, !app_assoc.
    assert (N1 : ie_type syn <> EV_REL) by discriminate. rewrite !written_type by exact N1.
    specialize (H2 d' v'). destruct (lo =? 0) eqn:Z0; rewrite ?app_nil_r, !written_wheel; cbn [Bool.eqb andb]; rewrite ?andb_false_r, ?andb_true_r; cbn [andb].
    + apply Z.eqb_eq in Z0. destruct (vid_eqb d d') eqn:Q; cbn [andb]; [|exact H2]. apply vid_eqb_eq in Q. subst d'.
      destruct (Bool.eqb v v') eqn:Qv; [|exact H2]. apply eqb_prop in Qv. subst v'. lia.
    + destruct (vid_eqb d d') eqn:Q; cbn [andb]; [|exact H2]. apply vid_eqb_eq in Q. subst d'.
      destruct (Bool.eqb v v') eqn:Qv; [|exact H2]. apply eqb_prop in Qv. subst v'. lia.
  - intros d' v'. rewrite A. destruct (vid_eqb d d' && Bool.eqb v v'); [rewrite <- X1; exact X3|apply H3].
  - intros v'. rewrite L, sent_snoc, !steps_snoc, H4. f_equal. unfold wheel_sent. cbn [flat_map]. rewrite W. fold v. cbn [andb].
    unfold steps_written. cbn [flat_map wheel_event ie_type ie_code ie_value]. rewrite N.eqb_refl, wheel_code_eqb. cbn [andb Bool.eqb app].
    destruct (lo =? 0); cbn [flat_map wheel_event ie_type ie_code ie_value]; rewrite ?N.eqb_refl, ?wheel_code_eqb; cbn [andb Bool.eqb app];
      change (N.eqb (ie_type syn) EV_REL) with false; cbn [andb app]; rewrite ?app_nil_r; reflexivity.
Qed.

Lemma wheeled_key l s e : is_mouse_wheel (ek e) = false -> wheeled l s ->
  wheeled (l ++ [VSend e]) (fst (send_key_event write_ok e s)).
Proof.
  intros W H. pose proof (target_exists _ _ (ek e) H) as TE. pose proof (send_key write_ok writes e s W) as SK. cbn zeta in SK.
  set (d := target (ek e) s) in *.
  pose proof (key_state (ek e + 1)%N e (get_vdevice d s)) as KS.
  destruct (update_key_state e (get_vdevice d s)) as [z x]. destruct KS as (_ & _ & _ & KH & KV & _); [lia|].
  rewrite SK. clear SK.
  assert (A : forall d' v', acc v' (get_vdevice d' (vlog (WEvent d syn true) (vlog (WEvent d (IE EV_KEY (ek e) z) true) (put_vdevice d x s)))) = acc v' (get_vdevice d' s)).
  { intros d' v'. transitivity (acc v' (get_vdevice d' (put_vdevice d x s))); [f_equal; apply get_same; reflexivity|].
    destruct (vid_eqb d d') eqn:Q.
    - apply vid_eqb_eq in Q. subst d'. rewrite get_put_same by exact TE. destruct v'; cbn [acc]; assumption.
    - apply vid_eqb_neq in Q. rewrite get_put_other by congruence. reflexivity. }
  assert (EL : vs_log (vlog (WEvent d syn true) (vlog (WEvent d (IE EV_KEY (ek e) z) true) (put_vdevice d x s))) = (vs_log s ++ [WEvent d (IE EV_KEY (ek e) z) true]) ++ [WEvent d syn true])
    by (destruct d; reflexivity).
  destruct H as [H1 H2 H3 H4]. split.
  - intros d'. unfold vlog. cbn [vs_devices vs_last vs_forward]. rewrite put_ids. destruct d; apply H1.
  - intros d' v'. rewrite EL, A, !written_type by discriminate. apply H2.
  - intros d' v'. rewrite A. apply H3.
  - intros v'. rewrite EL, sent_snoc, !steps_snoc, H4, <- app_assoc. f_equal. unfold wheel_sent. cbn [flat_map]. rewrite W. reflexivity.
Qed.

Lemma wheeled_forward l s i e : to_key_event e = None -> wheeled l s ->
  wheeled (l ++ [VForwarded i e]) (fst (forward_event write_ok i e s)).
Proof.
  intros T [H1 H2 H3 H4].
  assert (NE : forall h v, N.eqb (ie_type e) EV_REL && N.eqb (ie_code e) (wheel_code h v) = false).
  { intros h v. unfold to_key_event in T. destruct (N.eqb (ie_type e) EV_KEY); [discriminate|].
    destruct (N.eqb (ie_type e) EV_REL); [|reflexivity]. cbn [andb].
    destruct (N.eqb (ie_code e) REL_WHEEL) eqn:A; [discriminate|]. destruct (N.eqb (ie_code e) REL_HWHEEL) eqn:B; [discriminate|].
    cbn [orb] in T. destruct (N.eqb (ie_code e) REL_WHEEL_HI_RES) eqn:C; [discriminate|].
    destruct (N.eqb (ie_code e) REL_HWHEEL_HI_RES) eqn:D; [discriminate|]. destruct h, v; assumption. }
  unfold forward_event. destruct (nth_error (vs_devices s) i) as [d|] eqn:Nth; cbn [fst].
  - rewrite sent by exact writes. cbn [fst]. set (s1 := if vd_mouse (get_vdevice d s) then set_last (Some d) s else s).
    assert (E : vs_log s1 = vs_log s /\ vs_keyboard s1 = vs_keyboard s /\ vs_forward s1 = vs_forward s /\ vs_devices s1 = vs_devices s /\
                (vs_last s1 = vs_last s \/ vs_last s1 = Some d)) by (unfold s1; destruct (vd_mouse _); cbn; auto 10).
    destruct E as (E1 & E2 & E3 & E4 & E5).
    assert (G : forall d', get_vdevice d' (vlog (WEvent d e true) s1) = get_vdevice d' s) by (intros; now apply get_same).
    split.
    + intros d' H. unfold vlog in *. cbn [vs_devices vs_last vs_forward] in *. rewrite E3. apply H1. rewrite E4 in H.
      destruct H as [H|H]; [now left|]. destruct E5 as [E5|E5]; rewrite E5 in H; [now right|]. left. injection H as <-. now apply nth_error_In in Nth.
    + intros d' v. unfold vlog at 1 2. cbn [vs_log]. rewrite G, E1, !written_snoc, <- !andb_assoc, !NE, !andb_false_r. apply H2.
    + intros d' v. rewrite G. apply H3.
    + intros v. unfold vlog. cbn [vs_log]. rewrite E1, steps_snoc, sent_snoc, H4. unfold steps_written. cbn [flat_map]. rewrite NE. reflexivity.
  - split.
    + intros d'. cbn [vs_devices vs_last vs_forward]. apply H1.
    + intros d' v. cbn [vs_log]. rewrite H2. destruct d'; reflexivity.
    + intros d' v. specialize (H3 d' v). destruct d'; exact H3.
    + intros v. cbn [vs_log]. rewrite sent_snoc, H4. cbn. now rewrite app_nil_r.
Qed.

Lemma written_created h v prev l : forall t d,
  written d h v (t ++ flat_map (created prev) l) =
  if existsb (fun x => vid_eqb (VForward (d_id x)) d && match get_forward (d_id x) prev with None => true | _ => false end) l
  then 0 else written d h v t.
Proof.
  induction l as [|x l IH] using rev_ind; intros t d; [cbn; now rewrite app_nil_r|].
  rewrite flat_map_app, existsb_app. cbn [flat_map existsb]. rewrite app_nil_r, orb_false_r, app_assoc. unfold created at 2.
  destruct (get_forward (d_id x) prev) eqn:G.
  - rewrite app_nil_r, IH, andb_false_r, orb_false_r. reflexivity.
  - rewrite written_snoc, IH, andb_true_r. destruct (vid_eqb (VForward (d_id x)) d); [now rewrite orb_true_r|]. now rewrite orb_false_r.
Qed.
Lemma written_destroyed h v ids : forall t d,
  written d h v (t ++ map WDestroy ids) = if existsb (fun i => vid_eqb (VForward i) d) ids then 0 else written d h v t.
Proof.
  induction ids as [|x l IH] using rev_ind; intros t d; [cbn; now rewrite app_nil_r|].
  rewrite map_app, existsb_app. cbn [map existsb]. rewrite orb_false_r, app_assoc, written_snoc, IH.
  destruct (vid_eqb (VForward x) d); [now rewrite orb_true_r|]. now rewrite orb_false_r.
Qed.
Lemma steps_devices h v t : Forall is_device t -> steps_written h v t = [].
Proof. induction 1 as [|w t H _ IH]; [reflexivity|]. unfold steps_written in *. cbn [flat_map]. rewrite IH. destruct w; [contradiction|reflexivity|reflexivity]. Qed.

Lemma wheeled_update l s ds : NoDup (map d_id (somes ds)) -> wheeled l s ->
  wheeled (l ++ [VUpdate ds]) (fst (update_forward_devices create_ok ds s)).
Proof.
  intros ND [H1 H2 H3 H4]. destruct (update_eq create_ok creates ds s ND) as (ids & DI & UE). rewrite UE. clear UE.
  set (fw := map (forwarded (vs_forward s)) (somes ds)).
  assert (IDS : forall id, In id (map fst fw) <-> In id (map d_id (somes ds))) by (intros; unfold fw; rewrite map_map; reflexivity).
  (* what happens to a device *)
  assert (C : forall id,
    let x := match get_forward id fw with Some x => x | None => new_vdevice false end in
    (x = get_vdevice (VForward id) s /\
      (forall h v, written (VForward id) h v (vs_log s ++ flat_map (created (vs_forward s)) (somes ds) ++ map WDestroy ids) = written (VForward id) h v (vs_log s)))
    \/ (acc true x = 0 /\ acc false x = 0 /\
      (forall h v, written (VForward id) h v (vs_log s ++ flat_map (created (vs_forward s)) (somes ds) ++ map WDestroy ids) = 0))).
  { intros id x. destruct (in_dec Z.eq_dec id ids) as [I1|I1].
    - right. assert (X : x = new_vdevice false).
      { unfold x. destruct (get_forward id fw) eqn:G; [|reflexivity]. apply DI in I1. destruct I1 as [_ I2].
        rewrite <- IDS in I2. apply get_forward_none in I2. congruence. }
      rewrite X. split; [reflexivity|]. split; [reflexivity|]. intros h v. rewrite app_assoc, written_destroyed.
      assert (B : existsb (fun i => vid_eqb (VForward i) (VForward id)) ids = true) by (apply existsb_exists; exists id; split; [exact I1|apply vid_eqb_refl]).
      rewrite B. reflexivity.
    - assert (WD : forall h v, written (VForward id) h v (vs_log s ++ flat_map (created (vs_forward s)) (somes ds) ++ map WDestroy ids) =
                   written (VForward id) h v (vs_log s ++ flat_map (created (vs_forward s)) (somes ds))).
      { intros h v. rewrite app_assoc, written_destroyed.
        destruct (existsb _ ids) eqn:B; [|reflexivity]. apply existsb_exists in B. destruct B as (i & B1 & B2). apply vid_eqb_eq in B2. injection B2 as ->. contradiction. }
      destruct (in_dec Z.eq_dec id (map d_id (somes ds))) as [I2|I2].
      + apply in_map_iff in I2. destruct I2 as (y & <- & Hy). unfold x, fw. rewrite (get_forwarded _ _ _ ND Hy). unfold forwarded. cbn [snd].
        destruct (get_forward (d_id y) (vs_forward s)) as [z|] eqn:G.
        * left. cbn [get_vdevice]. rewrite G. split; [reflexivity|]. intros h v. rewrite WD, written_created.
          destruct (existsb _ (somes ds)) eqn:B; [|reflexivity]. apply existsb_exists in B. destruct B as (y' & B1 & B2). apply andb_prop in B2. destruct B2 as [B2 B3].
          apply vid_eqb_eq in B2. injection B2 as B2. rewrite B2, G in B3. discriminate.
        * right. split; [reflexivity|]. split; [reflexivity|]. intros h v. rewrite WD, written_created.
          assert (B : existsb (fun x => vid_eqb (VForward (d_id x)) (VForward (d_id y)) && match get_forward (d_id x) (vs_forward s) with None => true | _ => false end) (somes ds) = true).
          { apply existsb_exists. exists y. split; [exact Hy|]. rewrite vid_eqb_refl, G. reflexivity. }
          rewrite B. reflexivity.
      + left. assert (X : x = new_vdevice false).
        { unfold x. destruct (get_forward id fw) eqn:G; [|reflexivity]. rewrite <- IDS in I2. apply get_forward_none in I2. congruence. }
        rewrite X. split.
        * cbn [get_vdevice]. destruct (get_forward id (vs_forward s)) eqn:G; [|reflexivity]. exfalso. apply I1, DI. split; [|exact I2].
          destruct (in_dec Z.eq_dec id (map fst (vs_forward s))) as [?|Nn]; [assumption|]. apply get_forward_none in Nn. congruence.
        * intros h v. rewrite WD, written_created. destruct (existsb _ (somes ds)) eqn:B; [|reflexivity].
          apply existsb_exists in B. destruct B as (y' & B1 & B2). apply andb_prop in B2. destruct B2 as [B2 B3].
          apply vid_eqb_eq in B2. injection B2 as <-. exfalso. apply I2. now apply in_map. }
  assert (KB : forall h v, written VKeyboard h v (vs_log s ++ flat_map (created (vs_forward s)) (somes ds) ++ map WDestroy ids) = written VKeyboard h v (vs_log s)).
  { intros h v. rewrite app_assoc, written_destroyed, written_created. cbn [vid_eqb andb].
    assert (B1 : forall A (l : list A), existsb (fun _ => false) l = false) by (induction l0; auto). rewrite !B1. reflexivity. }
  split; cbn [vs_devices vs_last vs_forward vs_log].
  - intros d [H|H]; [|discriminate]. apply in_map_iff in H. destruct H as ([x|] & <- & H); cbn [vid_of]; [|exact Logic.I].
    apply IDS, in_map. now apply in_somes.
  - intros d v. destruct d as [|id]; cbn [get_vdevice vs_keyboard vs_forward].
    + rewrite !KB. apply (H2 VKeyboard).
    + destruct (C id) as [(X & Wr)|(X1 & X2 & Wr)].
      * rewrite !Wr, X. apply H2.
      * rewrite !Wr. destruct v; [rewrite X1|rewrite X2]; reflexivity.
  - intros d v. destruct d as [|id]; cbn [get_vdevice vs_keyboard vs_forward].
    + apply (H3 VKeyboard).
    + destruct (C id) as [(X & Wr)|(X1 & X2 & Wr)].
      * rewrite X. apply H3.
      * destruct v; [rewrite X1|rewrite X2]; reflexivity.
  - intros v. rewrite sent_snoc, steps_snoc, H4. f_equal. apply steps_devices. apply Forall_app. split; [apply created_is_device|].
    apply Forall_forall. intros w H. apply in_map_iff in H. destruct H as (i & <- & _). exact Logic.I.
Qed.

Lemma wheeled_run l : Forall loop_call l -> listed_once l -> wheeled l (vrun write_ok create_ok l new_vdevices).
Proof.
  induction l as [|c l IH] using rev_ind; intros F SD.
  - split; try reflexivity.
    + intros d [[]|H]. discriminate H.
    + intros [|id] []; reflexivity.
    + intros [|id] []; reflexivity.
  - apply Forall_app in F. destruct F as [F F']. rewrite vrun_snoc. apply Forall_inv in F'.
    assert (SD' : listed_once l) by (intros x Hx; apply SD, in_or_app; now left). specialize (IH F SD').
    destruct c as [e|i e|ds]; cbn [vstep loop_call] in *.
    + destruct (is_mouse_wheel (ek e)) eqn:W; [now apply wheeled_wheel|now apply wheeled_key].
    + now apply wheeled_forward.
    + apply wheeled_update; [|exact IH]. rewrite <- devices_update. apply SD, in_or_app. right. now left.
Qed.
End Wheel.

(** *** Whole steps *)

Lemma written_divides d v t : Forall (fun z => (120 | z)) (steps_written true v t) -> (120 | written d true v t).
Proof.
  induction t as [|w t IH] using rev_ind; intros F; [exists 0; reflexivity|].
  rewrite steps_snoc in F. apply Forall_app in F. destruct F as [F1 F2]. specialize (IH F1). rewrite written_snoc.
  destruct w as [d' e ok|x|id].
  - unfold steps_written in F2. cbn [flat_map] in F2. rewrite <- andb_assoc. destruct (vid_eqb d' d); cbn [andb]; [|exact IH].
    destruct (N.eqb (ie_type e) EV_REL && N.eqb (ie_code e) (wheel_code true v)); [|exact IH].
    apply Forall_inv in F2. now apply Z.divide_add_r.
  - destruct (vid_eqb _ d); [exists 0; reflexivity|exact IH].
  - destruct (vid_eqb _ d); [exists 0; reflexivity|exact IH].
Qed.

Lemma motion_nonzero e : motion e <> 0.
Proof. unfold motion. destruct (N.eqb (ek e) WheelDown || N.eqb (ek e) WheelLeft), (N.eqb (ev e) 0) eqn:Q; try lia; apply N.eqb_neq in Q; lia. Qed.

Section Whole.
Variable write_ok : nat -> bool.
Variable create_ok : nat -> bool.
Hypothesis writes : forall n, write_ok n = true.
Hypothesis creates : forall n, create_ok n = true.

Lemma lows_run l : Forall loop_call l -> listed_once l ->
  (forall v, Forall (fun z => (120 | z)) (wheel_sent v l)) ->
  forall v, steps_written false v (vs_log (vrun write_ok create_ok l new_vdevices)) = map (fun z => z / 120) (wheel_sent v l).
Proof.
  induction l as [|c l IH] using rev_ind; intros F SD M v; [reflexivity|].
  apply Forall_app in F. destruct F as [F F']. apply Forall_inv in F'.
  assert (SD' : listed_once l) by (intros x Hx; apply SD, in_or_app; now left).
  assert (M' : forall v, Forall (fun z => (120 | z)) (wheel_sent v l)).
  { intros v'. specialize (M v'). rewrite sent_snoc in M. now apply Forall_app in M. }
  pose proof (wheeled_run write_ok create_ok writes creates l F SD') as [W1 W2 W3 W4].
  specialize (IH F SD' M'). specialize (M v). rewrite sent_snoc in *. rewrite map_app, <- IH. clear IH.
  rewrite vrun_snoc. set (s := vrun write_ok create_ok l new_vdevices) in *.
  assert (A : forall d v, acc v (get_vdevice d s) = 0).
  { intros d v'. specialize (W3 d v'). specialize (W2 d v').
    assert (D : (120 | written d true v' (vs_log s))) by (apply written_divides; rewrite W4; apply M').
    destruct D as [z D]. lia. }
  apply Forall_app in M. destruct M as [_ M].
  destruct c as [e|i e|ds]; cbn [vstep loop_call] in *.
  - destruct (is_mouse_wheel (ek e)) eqn:W.
    + pose proof (send_wheel_eq write_ok writes e s W) as SW. cbn zeta in SW. set (d := target (ek e) s) in *.
      unfold update_lowres_wheel in SW. fold (acc (vertical_wheel (ek e)) (get_vdevice d s)) in SW. rewrite A in SW. rewrite Z.add_0_l in SW.
      destruct SW as (L & _). rewrite L, !steps_snoc. f_equal. unfold wheel_sent in *. cbn [flat_map] in *. rewrite W in *. cbn [andb] in *.
      destruct (Bool.eqb (vertical_wheel (ek e)) v) eqn:V.
      * cbn [app] in M. apply Forall_inv in M. destruct M as [z M].
        assert (Q : Z.quot (motion e) 120 = z) by (rewrite M; apply Z.quot_mul; lia). rewrite Q.
        pose proof (motion_nonzero e). assert (Z0 : z =? 0 = false) by (apply Z.eqb_neq; intros ->; lia). rewrite Z0.
        unfold steps_written. cbn [flat_map wheel_event ie_type ie_code ie_value]. rewrite !N.eqb_refl, !wheel_code_eqb, V.
        cbn [andb Bool.eqb app map]. rewrite M, Z.div_mul by lia. reflexivity.
      * unfold steps_written. cbn [flat_map app]. destruct (Z.quot (motion e) 120 =? 0); cbn [flat_map wheel_event ie_type ie_code ie_value];
          rewrite ?N.eqb_refl, ?wheel_code_eqb, ?V; reflexivity.
    + pose proof (send_key write_ok writes e s W) as SK. cbn zeta in SK. set (d := target (ek e) s) in *.
      destruct (update_key_state e (get_vdevice d s)) as [z x]. rewrite SK. unfold vlog. cbn [vs_log].
      assert (EL : vs_log (put_vdevice d x s) = vs_log s) by (destruct d; reflexivity). rewrite EL, !steps_snoc, <- app_assoc. f_equal.
      unfold wheel_sent. cbn [flat_map]. rewrite W. reflexivity.
  - unfold forward_event. cbn [wheel_sent flat_map map app]. rewrite app_nil_r.
    destruct (nth_error (vs_devices s) i) as [d|]; cbn [fst]; [|reflexivity].
    rewrite sent by exact writes. cbn [fst]. unfold vlog. cbn [vs_log].
    assert (E1 : vs_log (if vd_mouse (get_vdevice d s) then set_last (Some d) s else s) = vs_log s) by (destruct (vd_mouse _); reflexivity).
    rewrite E1, steps_snoc. unfold steps_written at 2. cbn [flat_map].
    assert (NE : N.eqb (ie_type e) EV_REL && N.eqb (ie_code e) (wheel_code false v) = false).
    { unfold to_key_event in F'. destruct (N.eqb (ie_type e) EV_KEY); [discriminate|].
      destruct (N.eqb (ie_type e) EV_REL); [|reflexivity]. cbn [andb].
      destruct (N.eqb (ie_code e) REL_WHEEL) eqn:B1; [discriminate|]. destruct (N.eqb (ie_code e) REL_HWHEEL) eqn:B2; [discriminate|].
      destruct v; assumption. }
    rewrite NE. cbn [app]. now rewrite app_nil_r.
  - destruct (update_devices_shape create_ok ds s) as (_ & _ & t & L & FD). cbn zeta in L. rewrite L, steps_snoc. f_equal. now apply steps_devices.
Qed.
End Whole.

(** *** Absolute axes *)

Lemma map_mid v r z : in_axis r v -> map_to_range v r default_abs_range = Some z ->
  z = if r_max r - r_min r =? 0 then 0 else (v - r_min r) * 1023 / (r_max r - r_min r).
Proof.
  intros [A B]. unfold map_to_range. cbn [default_abs_range r_min r_max].
  destruct (negb (int_fits (r_max r - r_min r))); [discriminate|].
  destruct (r_max r - r_min r =? 0) eqn:D; [intros [= <-]; reflexivity|]. apply Z.eqb_neq in D.
  destruct (negb _ || negb _); [discriminate|]. intros [= <-]. rewrite ?Z.add_0_r, ?Z.sub_0_r.
  apply Z.quot_div_nonneg; nia.
Qed.

Lemma map_fits v r z : in_axis r v -> map_to_range v r default_abs_range = Some z -> in_axis default_abs_range z.
Proof.
  intros A M. rewrite (map_mid _ _ _ A M). destruct A as [A B]. unfold in_axis. cbn [default_abs_range r_min r_max].
  destruct (r_max r - r_min r =? 0) eqn:D; [lia|]. apply Z.eqb_neq in D. split.
  - apply Z.div_pos; nia.
  - apply Z.div_le_upper_bound; nia.
Qed.

Lemma map_monotone v v' r z z' : in_axis r v -> in_axis r v' -> v <= v' ->
  map_to_range v r default_abs_range = Some z -> map_to_range v' r default_abs_range = Some z' -> z <= z'.
Proof.
  intros A A' L M M'. rewrite (map_mid _ _ _ A M), (map_mid _ _ _ A' M'). destruct A as [A B].
  destruct (r_max r - r_min r =? 0) eqn:D; [lia|]. apply Z.eqb_neq in D. apply Z.div_le_mono; nia.
Qed.

Lemma map_total v r : in_axis r v -> r_max r - r_min r <= 2099202 ->
  exists z, map_to_range v r default_abs_range = Some z.
Proof.
  intros [A B] D. unfold map_to_range. cbn [default_abs_range r_min r_max].
  assert (F1 : int_fits (r_max r - r_min r) = true) by (unfold int_fits; rewrite andb_true_iff, !Z.leb_le; lia).
  rewrite F1. cbn [negb]. destruct (r_max r - r_min r =? 0); [eauto|].
  assert (F2 : int_fits (v - r_min r) = true) by (unfold int_fits; rewrite andb_true_iff, !Z.leb_le; lia).
  assert (F3 : int_fits ((v - r_min r) * (1023 - 0)) = true) by (unfold int_fits; rewrite andb_true_iff, !Z.leb_le; lia).
  rewrite F2, F3. cbn [negb orb]. eauto.
Qed.

Lemma map_ends r : r_min r < r_max r -> r_max r - r_min r <= 2099202 ->
  map_to_range (r_min r) r default_abs_range = Some 0 /\ map_to_range (r_max r) r default_abs_range = Some 1023.
Proof.
  intros L D.
  destruct (map_total (r_min r) r) as [z M]; [split; lia|exact D|]. destruct (map_total (r_max r) r) as [z' M']; [split; lia|exact D|].
  rewrite M, M'. assert (A : in_axis r (r_min r)) by (split; lia). assert (A' : in_axis r (r_max r)) by (split; lia).
  rewrite (map_mid _ _ _ A M), (map_mid _ _ _ A' M').
  assert (Q : r_max r - r_min r =? 0 = false) by (apply Z.eqb_neq; lia). rewrite Q.
  rewrite Z.sub_diag, Z.mul_0_l, Z.div_0_l by lia. rewrite Z.mul_comm, Z.div_mul by lia. auto.
Qed.

Lemma fit_snoc t w : positions_fit t ->
  (forall d e x r, w = WEvent d e true -> ie_type e = EV_ABS -> kn_desc (kernel_run t) d = Some x -> In (ie_code e, r) (d_abs x) -> in_axis r (ie_value e)) ->
  positions_fit (t ++ [w]).
Proof.
  intros P H a d e b x r E T K R. destruct b as [|w' b _] using rev_ind.
  - apply app_inj_tail in E. destruct E as [-> ->]. eauto.
  - change (WEvent d e true :: b ++ [w']) with ((WEvent d e true :: b) ++ [w']) in E. rewrite app_assoc in E.
    apply app_inj_tail in E. destruct E as [-> ->]. eapply P; eauto.
Qed.
Lemma fit_app t' : forall t, positions_fit t ->
  Forall (fun w => match w with WEvent _ e _ => ie_type e <> EV_ABS | _ => True end) t' -> positions_fit (t ++ t').
Proof.
  induction t' as [|w t' IH]; intros t P F; [now rewrite app_nil_r|]. inversion_clear F as [|? ? F1 F2].
  change (w :: t') with ([w] ++ t'). rewrite app_assoc. apply IH; [|exact F2]. apply fit_snoc; [exact P|].
  intros d e x r -> T. contradiction.
Qed.

Lemma desc_from t : forall id x, kn_desc (kernel_run t) (VForward id) = Some x -> In (WCreate x) t /\ d_id x = id.
Proof.
  induction t as [|w t IH] using rev_ind; intros id x; [discriminate|]. rewrite kernel_snoc. destruct w as [d e ok|y|i].
  - rewrite desc_event. intros H. apply IH in H. split; [apply in_or_app; now left|apply H].
  - cbn [kernel_step change_device kn_desc vid_eqb]. destruct (Z.eqb_spec id (d_id y)).
    + intros [= ->]. split; [apply in_or_app; right; now left|now symmetry].
    + intros H. apply IH in H. split; [apply in_or_app; now left|apply H].
  - cbn [kernel_step change_device kn_desc vid_eqb]. destruct (id =? i); [discriminate|].
    intros H. apply IH in H. split; [apply in_or_app; now left|apply H].
Qed.

Section Positions.
Variable write_ok : nat -> bool.
Variable create_ok : nat -> bool.
Hypothesis writes : forall n, write_ok n = true.
Hypothesis creates : forall n, create_ok n = true.

Record placed (l : list vcall) (s : vdevices) : Prop := {
  pl_devices : vs_devices s = map vid_of (listed l);
  pl_created : forall x, In (WCreate x) (vs_log s) -> In x (devices_of l);
  pl_fit : positions_fit (vs_log s)
}.

Lemma placed_run l : Forall loop_call l -> same_devices l -> no_mapped_axes l -> read_positions l ->
  placed l (vrun write_ok create_ok l new_vdevices).
Proof.
  induction l as [|c l IH] using rev_ind; intros F SD NM RP.
  - split; [reflexivity|intros x []|]. intros a d e b x r E. destruct a; discriminate E.
  - apply Forall_app in F. destruct F as [F F']. apply Forall_inv in F'.
    assert (NM' : no_mapped_axes l) by (intros x r H; apply NM; rewrite devices_snoc; apply in_or_app; now left).
    assert (RP' : read_positions l).
    { intros a i e b x E. apply (RP a i e (b ++ [c]) x). rewrite E, <- app_assoc. reflexivity. }
    destruct (IH F (same_prefix _ _ SD) NM' RP') as [P1 P2 P3]. clear IH. rewrite vrun_snoc.
    set (s := vrun write_ok create_ok l new_vdevices) in *.
    assert (PD : forall c' t, Forall (fun w => match w with WCreate _ => False | _ => True end) t ->
              forall x, In (WCreate x) (vs_log s ++ t) -> In x (devices_of (l ++ [c']))).
    { intros c' t Ft x H. rewrite devices_snoc. apply in_or_app. left. apply P2. apply in_app_or in H. destruct H as [H|H]; [exact H|].
      rewrite Forall_forall in Ft. apply Ft in H. contradiction. }
    destruct c as [e|i e|ds]; cbn [vstep loop_call] in *.
    + destruct (is_mouse_wheel (ek e)) eqn:W.
      * pose proof (send_wheel_eq write_ok writes e s W) as SW. cbn zeta in SW. set (d := target (ek e) s) in *.
        destruct (update_lowres_wheel (vertical_wheel (ek e)) (motion e) (get_vdevice d s)) as [lo x].
        destruct SW as (L & _ & _ & D & _). split.
        -- now rewrite D, listed_snoc.
        -- rewrite L. apply PD. destruct (lo =? 0); repeat constructor.
        -- rewrite L. apply fit_app; [exact P3|]. destruct (lo =? 0); repeat constructor; discriminate.
      * pose proof (send_key write_ok writes e s W) as SK. cbn zeta in SK. set (d := target (ek e) s) in *.
        destruct (update_key_state e (get_vdevice d s)) as [z x]. rewrite SK.
        assert (EL : vs_log (vlog (WEvent d syn true) (vlog (WEvent d (IE EV_KEY (ek e) z) true) (put_vdevice d x s))) = vs_log s ++ [WEvent d (IE EV_KEY (ek e) z) true; WEvent d syn true]).
        { unfold vlog. cbn [vs_log]. rewrite <- app_assoc. destruct d; reflexivity. }
        split.
        -- rewrite listed_snoc. unfold vlog. cbn [vs_devices]. destruct d; exact P1.
        -- rewrite EL. apply PD. repeat constructor.
        -- rewrite EL. apply fit_app; [exact P3|]. repeat constructor; discriminate.
    + unfold forward_event. destruct (nth_error (vs_devices s) i) as [d|] eqn:Nth; cbn [fst].
      * rewrite sent by exact writes. cbn [fst].
        set (s1 := if vd_mouse (get_vdevice d s) then set_last (Some d) s else s).
        assert (E1 : vs_log s1 = vs_log s /\ vs_devices s1 = vs_devices s) by (unfold s1; destruct (vd_mouse _); split; reflexivity).
        destruct E1 as [E1 E2]. split; unfold vlog; cbn [vs_log vs_devices].
        -- now rewrite E2, listed_snoc.
        -- rewrite E1. apply PD. repeat constructor.
        -- rewrite E1. apply fit_snoc; [exact P3|]. intros d' e' x r [= <- <-] T K R.
           rewrite P1, nth_error_map in Nth. destruct (nth_error (listed l) i) as [o|] eqn:No; [|discriminate]. injection Nth as <-.
           destruct (RP l i e [] o eq_refl No T) as (g & raw & RC & (R1 & R2 & R3)).
           destruct o as [y|]; cbn [vid_of] in K.
           ++ apply desc_from in K. destruct K as [K1 K2]. apply P2 in K1.
              assert (y = x).
              { destruct SD as [SD _]. apply SD; [|rewrite devices_snoc; apply in_or_app; now left|congruence].
                rewrite devices_snoc. apply in_or_app. left. apply listed_in. now apply nth_error_In in No. }
              subst y. destruct (NM' x r K1) as [N1 N2].
              assert (raw = e).
              { unfold read_conversion in RC. destruct (N.eqb (ie_type raw) EV_ABS) eqn:TA.
                - destruct (N.eqb (ie_code raw) ABS_VOLUME) eqn:CV; [apply N.eqb_eq in CV|destruct (N.eqb (ie_code raw) ABS_MISC) eqn:CM; [apply N.eqb_eq in CM|congruence]].
                  + destruct (map_to_range _ _ _); [|discriminate]. injection RC as <-. cbn [ie_code] in R. rewrite CV in R. contradiction.
                  + destruct (map_to_range _ _ _); [|discriminate]. injection RC as <-. cbn [ie_code] in R. rewrite CM in R. contradiction.
                - destruct (N.eqb (ie_type raw) EV_REL) eqn:TR; [|congruence].
                  assert (ie_type e <> EV_ABS -> raw = e) by contradiction.
                  exfalso. apply N.eqb_eq in TR. assert (TE : ie_type e = ie_type raw).
                  { destruct (N.eqb (ie_code raw) REL_WHEEL && negb (g_highres g)); [destruct (int_fits _); [|discriminate]; injection RC as <-; reflexivity|].
                    destruct (N.eqb (ie_code raw) REL_HWHEEL && negb (g_highres g)); [destruct (int_fits _); [|discriminate]; injection RC as <-; reflexivity|].
                    injection RC as <-. reflexivity. }
                  rewrite T, TR in TE. discriminate TE. }
              subst raw. eapply R3; eauto.
           ++ rewrite keyboard_always in K. injection K as <-. cbn [keyboard_desc d_abs In] in R.
              assert (CE : ie_code raw = ie_code e /\ ie_type raw = EV_ABS \/ ie_type raw = EV_REL).
              { unfold read_conversion in RC. destruct (N.eqb (ie_type raw) EV_ABS) eqn:TA.
                - apply N.eqb_eq in TA. left. split; [|exact TA]. destruct (N.eqb (ie_code raw) ABS_VOLUME); [|destruct (N.eqb (ie_code raw) ABS_MISC); [|congruence]];
                    destruct (map_to_range _ _ _); try discriminate; injection RC as <-; reflexivity.
                - destruct (N.eqb (ie_type raw) EV_REL) eqn:TR; [right; now apply N.eqb_eq in TR|]. injection RC as <-. rewrite T in TA. discriminate TA. }
              destruct CE as [[CE TA]|TR].
              ** unfold read_conversion in RC. rewrite TA in RC. cbn [N.eqb EV_ABS Pos.eqb] in RC. rewrite CE in RC.
                 destruct R as [R|[R|[]]]; injection R as Rc <-; rewrite <- Rc in RC, CE.
                 --- rewrite N.eqb_refl in RC. destruct (map_to_range (ie_value raw) (g_volume g) default_abs_range) as [z|] eqn:MR; [|discriminate].
                     injection RC as <-. cbn [ie_value]. apply (map_fits _ _ _ (R1 CE) MR).
                 --- change (N.eqb ABS_MISC ABS_VOLUME) with false in RC. rewrite N.eqb_refl in RC.
                     destruct (map_to_range (ie_value raw) (g_misc g) default_abs_range) as [z|] eqn:MR; [|discriminate].
                     injection RC as <-. cbn [ie_value]. apply (map_fits _ _ _ (R2 CE) MR).
              ** exfalso. unfold read_conversion in RC. rewrite TR in RC. cbn [N.eqb EV_ABS EV_REL Pos.eqb] in RC.
                 assert (TE : ie_type e = EV_REL).
                 { destruct (N.eqb (ie_code raw) REL_WHEEL && negb (g_highres g)); [destruct (int_fits _); [|discriminate]; injection RC as <-; reflexivity|].
                   destruct (N.eqb (ie_code raw) REL_HWHEEL && negb (g_highres g)); [destruct (int_fits _); [|discriminate]; injection RC as <-; reflexivity|].
                   injection RC as <-. exact TR. }
                 rewrite T in TE. discriminate TE.
      * split; cbn [vs_devices vs_log].
        -- now rewrite listed_snoc.
        -- intros x H. rewrite devices_snoc. apply in_or_app. left. now apply P2.
        -- exact P3.
    + destruct SD as [SD1 SD2].
      assert (ND : NoDup (map d_id (somes ds))) by (rewrite <- devices_update; apply SD2, in_or_app; right; now left).
      destruct (update_eq create_ok creates ds s ND) as (ids & DI & UE). rewrite UE. split; cbn [vs_devices vs_log].
      * now rewrite listed_snoc.
      * intros x H. rewrite devices_snoc. apply in_or_app. apply in_app_or in H. destruct H as [H|H]; [left; auto|]. right.
        rewrite devices_update. apply in_app_or in H. destruct H as [H|H].
        -- apply in_flat_map in H. destruct H as (y & Hy & H). unfold created in H. destruct (get_forward _ _); [contradiction|].
           destruct H as [[= <-]|[]]. exact Hy.
        -- apply in_map_iff in H. destruct H as (i & E & _). discriminate E.
      * apply fit_app; [exact P3|]. apply Forall_app. split.
        -- pose proof (created_is_device (vs_forward s) (somes ds)) as C. eapply Forall_impl; [|exact C]. intros [] ; cbn; tauto.
        -- apply Forall_forall. intros w H. apply in_map_iff in H. destruct H as (i & <- & _). exact Logic.I.
Qed.
End Positions.
