(** Proofs about the virtual devices of Linux. *)
From Coq Require Import List Arith NArith ZArith Bool Lia.
From Verif Require Import Base Key Device DeviceSpec.
Import ListNotations.
Local Open Scope Z_scope.

Lemma vid_eqb_eq a b : vid_eqb a b = true <-> a = b.
Proof.
  destruct a, b; cbn [vid_eqb]; try (split; [discriminate|congruence]); [tauto|].
  rewrite Z.eqb_eq. split; congruence.
Qed.
Lemma vid_eqb_refl a : vid_eqb a a = true.
Proof. now apply vid_eqb_eq. Qed.
Lemma vid_eqb_neq a b : vid_eqb a b = false <-> a <> b.
Proof. rewrite <- vid_eqb_eq. destruct (vid_eqb a b); split; congruence. Qed.

Lemma kernel_snoc t w : kernel_run (t ++ [w]) = kernel_step (kernel_run t) w.
Proof. unfold kernel_run. now rewrite fold_left_app. Qed.

Lemma vrun_snoc wo co l c s : vrun wo co (l ++ [c]) s = vstep wo co c (vrun wo co l s).
Proof. unfold vrun. now rewrite fold_left_app. Qed.

Lemma holds_snoc k l c : holds k (l ++ [c]) =
  match c with
  | VSend e => if N.eqb (ek e) k then kstate_eqb (es e) Down else holds k l
  | _ => holds k l
  end.
Proof. unfold holds. rewrite fold_left_app. reflexivity. Qed.

(** *** The kernel *)

Lemma held_other s d e ok : ie_type e <> EV_KEY -> forall d' k,
  kn_held (kernel_step s (WEvent d e ok)) d' k = kn_held s d' k.
Proof.
  intros H d' k. cbn [kernel_step]. destruct (kn_desc s d); [|reflexivity].
  destruct (ok && announces v e); [|reflexivity]. cbn [kn_held].
  apply N.eqb_neq in H. now rewrite H.
Qed.
Lemma desc_event s d e ok d' : kn_desc (kernel_step s (WEvent d e ok)) d' = kn_desc s d'.
Proof. cbn [kernel_step]. destruct (kn_desc s d); [|reflexivity]. now destruct (ok && announces v e). Qed.

Lemma keyboard_always t : kn_desc (kernel_run t) VKeyboard = Some keyboard_desc.
Proof.
  induction t as [|w t IH] using rev_ind; [reflexivity|]. rewrite kernel_snoc.
  destruct w; [now rewrite desc_event|exact IH|exact IH].
Qed.

Lemma keyboard_announces k v : (0 < k < KEY_NUMERIC_0)%N -> announces keyboard_desc (IE EV_KEY k v) = true.
Proof.
  intros H. change (existsb (N.eqb k) (d_keys keyboard_desc) = true). apply existsb_exists. exists k. split; [|apply N.eqb_refl].
  cbn [d_keys keyboard_desc]. apply in_map_iff. exists (N.to_nat k). split; [apply N2Nat.id|].
  apply in_seq. unfold KEY_NUMERIC_0 in H. lia.
Qed.

(** *** Sending *)

Lemma existsb_snoc k l x : existsb (N.eqb k) (l ++ [x]) = existsb (N.eqb k) l || N.eqb k x.
Proof. rewrite existsb_app. cbn [existsb]. now rewrite orb_false_r. Qed.
Lemma existsb_remove k l x : existsb (N.eqb k) (List.filter (fun y => negb (N.eqb y x)) l) =
  existsb (N.eqb k) l && negb (N.eqb k x).
Proof.
  induction l as [|y l IH]; [reflexivity|]. cbn [List.filter existsb].
  destruct (N.eqb y x) eqn:A; cbn [negb existsb]; rewrite ?IH; destruct (N.eqb k y) eqn:B; cbn [orb andb]; try reflexivity.
  - apply N.eqb_eq in A, B. subst. rewrite N.eqb_refl. cbn [negb]. now rewrite andb_false_r.
  - apply N.eqb_eq in B. subst. now rewrite A.
Qed.

(** The value written and the keys remembered afterwards *)
Lemma key_state k e x : (ek e = k -> es e = Up \/ es e = Down) ->
  let '(v, y) := update_key_state e x in
  (ek e = k -> v = 2 -> es e = Down /\ existsb (N.eqb (ek e)) (vd_down x) = true) /\
  (ek e = k -> v <> 2 -> negb (v =? 0) = kstate_eqb (es e) Down) /\
  vd_mouse y = vd_mouse x /\ vd_horizontal y = vd_horizontal x /\ vd_vertical y = vd_vertical x /\
  existsb (N.eqb k) (vd_down y) =
    if N.eqb (ek e) k then kstate_eqb (es e) Down else existsb (N.eqb k) (vd_down x).
Proof.
  intros SC. unfold update_key_state. destruct (N.eqb (ek e) k) eqn:Ek.
  - apply N.eqb_eq in Ek. subst k. destruct (SC eq_refl) as [S|S]; rewrite S; cbn [kstate_eqb];
      destruct (existsb (N.eqb (ek e)) (vd_down x)) eqn:F; (split; [try discriminate; auto|]); (split; [try congruence; reflexivity|]);
      repeat (split; [reflexivity|]); cbn [vd_down]; try assumption.
    + rewrite existsb_remove, N.eqb_refl. apply andb_false_r.
    + rewrite existsb_snoc, N.eqb_refl. apply orb_true_r.
  - apply N.eqb_neq in Ek. assert (Ne : N.eqb k (ek e) = false) by (apply N.eqb_neq; congruence).
    destruct (kstate_eqb (es e) Up), (existsb (N.eqb (ek e)) (vd_down x)); (split; [congruence|]); (split; [congruence|]);
      repeat (split; [reflexivity|]); cbn [vd_down]; try reflexivity.
    + rewrite existsb_remove, Ne. apply andb_true_r.
    + rewrite existsb_snoc, Ne. apply orb_false_r.
Qed.

Section Always.
Variable write_ok : nat -> bool.
Variable create_ok : nat -> bool.
Hypothesis writes : forall n, write_ok n = true.

Lemma sent d e s : send_event write_ok d e s = (vlog (WEvent d e true) s, true).
Proof. unfold send_event. now rewrite writes. Qed.

Definition target (k : key) (s : vdevices) : vid :=
  match vs_last s with
  | Some m => if is_mouse_button k || is_mouse_wheel k then m else VKeyboard
  | None => VKeyboard
  end.

(** A key other than the wheel is written to its device and remembered there. *)
Lemma send_key e s : is_mouse_wheel (ek e) = false ->
  let d := target (ek e) s in
  let '(v, x) := update_key_state e (get_vdevice d s) in
  fst (send_key_event write_ok e s) =
  vlog (WEvent d syn true) (vlog (WEvent d (IE EV_KEY (ek e) v) true) (put_vdevice d x s)).
Proof.
  intros W d. unfold send_key_event. fold (target (ek e) s). fold d. rewrite W.
  destruct (update_key_state e (get_vdevice d s)) as [v x]. now rewrite !sent.
Qed.

(** The wheel only writes motions. *)
Lemma send_wheel e s : is_mouse_wheel (ek e) = true ->
  exists d x t, let s' := fst (send_key_event write_ok e s) in
    vs_log s' = vs_log s ++ t /\ Forall (fun w => exists i, w = WEvent d i true /\ ie_type i <> EV_KEY) t /\
    d = target (ek e) s /\ vd_down x = vd_down (get_vdevice d s) /\ vd_mouse x = vd_mouse (get_vdevice d s) /\
    s' = VS (vs_keyboard (put_vdevice d x s)) (vs_forward (put_vdevice d x s)) (vs_devices s) (vs_last s) (vs_log s ++ t) (vs_ub s).
Proof.
  intros W. unfold send_key_event. fold (target (ek e) s). rewrite W.
  set (v := (if N.eqb (ev e) 0 then 120 else Z.of_N (ev e)) * (if N.eqb (ek e) WheelDown || N.eqb (ek e) WheelLeft then -1 else 1)).
  set (d := target (ek e) s). rewrite !sent. cbn [fst].
  set (i := IE EV_REL (if N.eqb (ek e) WheelUp || N.eqb (ek e) WheelDown then REL_WHEEL_HI_RES else REL_HWHEEL_HI_RES) v).
  assert (Eg : get_vdevice d (vlog (WEvent d i true) s) = get_vdevice d s) by (destruct d; reflexivity). rewrite Eg.
  destruct (update_lowres_wheel (N.eqb (ek e) WheelUp || N.eqb (ek e) WheelDown) v (get_vdevice d s)) as [lo x] eqn:U.
  assert (X : vd_down x = vd_down (get_vdevice d s) /\ vd_mouse x = vd_mouse (get_vdevice d s)).
  { unfold update_lowres_wheel in U. destruct (N.eqb (ek e) WheelUp || N.eqb (ek e) WheelDown); injection U as _ <-; split; reflexivity. }
  destruct (lo =? 0).
  - exists d, x, [WEvent d i true; WEvent d syn true]. rewrite !sent. cbn [fst].
    split; [destruct d; unfold vlog; cbn [put_vdevice vs_log]; rewrite <- app_assoc; reflexivity|].
    split; [repeat constructor; eexists; (split; [reflexivity|discriminate])|].
    split; [reflexivity|]. split; [apply X|]. split; [apply X|].
    destruct d; unfold vlog; cbn [put_vdevice vs_log vs_keyboard vs_forward vs_devices vs_last vs_ub]; rewrite <- !app_assoc; reflexivity.
  - exists d, x, [WEvent d i true; WEvent d (IE EV_REL (if N.eqb (ek e) WheelUp || N.eqb (ek e) WheelDown then REL_WHEEL else REL_HWHEEL) lo) true; WEvent d syn true].
    rewrite !sent. cbn [fst].
    split; [destruct d; unfold vlog; cbn [put_vdevice vs_log]; rewrite <- !app_assoc; reflexivity|].
    split; [repeat constructor; eexists; (split; [reflexivity|discriminate])|].
    split; [reflexivity|]. split; [apply X|]. split; [apply X|].
    destruct d; unfold vlog; cbn [put_vdevice vs_log vs_keyboard vs_forward vs_devices vs_last vs_ub]; rewrite <- !app_assoc; reflexivity.
Qed.

Lemma held_others t' : forall t d, Forall (fun w => exists i, w = WEvent d i true /\ ie_type i <> EV_KEY) t' ->
  forall d' k, kn_held (kernel_run (t ++ t')) d' k = kn_held (kernel_run t) d' k.
Proof.
  induction t' as [|w r IH] using rev_ind; intros t d F d' k; [now rewrite app_nil_r|].
  rewrite app_assoc, kernel_snoc. apply Forall_app in F. destruct F as [F1 F2].
  destruct (Forall_inv F2) as (i & -> & Hi). rewrite held_other by exact Hi. eapply IH. exact F1.
Qed.

(** *** Updating the devices *)

Definition is_device (w : vwrite) : Prop := match w with WEvent _ _ _ => False | _ => True end.

Lemma update_shape l : forall prev s,
  let '(p, s', ok) := update_loop create_ok l prev s in
  vs_keyboard s' = vs_keyboard s /\ vs_last s' = vs_last s /\
  exists t, vs_log s' = vs_log s ++ t /\ Forall is_device t.
Proof.
  induction l as [|[x|] l IH]; intros prev s; cbn [update_loop].
  - split; [reflexivity|]. split; [reflexivity|]. exists []. now rewrite app_nil_r.
  - destruct (get_forward (d_id x) prev).
    + match goal with |- context [update_loop _ l ?p ?s] => specialize (IH p s); destruct (update_loop create_ok l p s) as [[p' s'] ok] end.
      exact IH.
    + destruct (create_ok (length (vs_log s))).
      * match goal with |- context [update_loop _ l ?p ?s] => specialize (IH p s); destruct (update_loop create_ok l p s) as [[p' s'] ok] end.
        destruct IH as (A & B & t & C & D). split; [exact A|]. split; [exact B|]. exists (WCreate x :: t).
        split; [rewrite C; cbn [vs_log]; now rewrite <- app_assoc|]. constructor; [exact Logic.I|exact D].
      * split; [reflexivity|]. split; [reflexivity|]. exists []. now rewrite app_nil_r.
  - match goal with |- context [update_loop _ l ?p ?s] => specialize (IH p s); destruct (update_loop create_ok l p s) as [[p' s'] ok] end.
    exact IH.
Qed.

Lemma destroy_shape p : forall s, let s' := fold_left (fun s x => vlog (WDestroy (fst x)) s) p s in
  vs_keyboard s' = vs_keyboard s /\ vs_last s' = vs_last s /\ vs_forward s' = vs_forward s /\ vs_devices s' = vs_devices s /\
  vs_log s' = vs_log s ++ map (fun x : Z * vdevice => WDestroy (fst x)) p.
Proof.
  induction p as [|x p IH]; intros s; cbn [fold_left map]; [now rewrite app_nil_r|].
  destruct (IH (vlog (WDestroy (fst x)) s)) as (A & B & C & D & F). cbn beta zeta in *. rewrite A, B, C, D, F.
  cbn [vlog vs_keyboard vs_last vs_forward vs_devices vs_log]. rewrite <- app_assoc. repeat split.
Qed.

Lemma update_devices_shape l s : let s' := fst (update_forward_devices create_ok l s) in
  vs_keyboard s' = vs_keyboard s /\ vs_last s' = None /\
  exists t, vs_log s' = vs_log s ++ t /\ Forall is_device t.
Proof.
  unfold update_forward_devices.
  set (s0 := VS (vs_keyboard s) [] [] None (vs_log s) (vs_ub s)).
  pose proof (update_shape l (vs_forward s) s0) as U.
  destruct (update_loop create_ok l (vs_forward s) s0) as [[p s1] ok].
  destruct U as (A & B & t & C & D). cbn [fst].
  destruct (destroy_shape p s1) as (A2 & B2 & _ & _ & C2). cbn beta zeta in *. rewrite A2, B2, C2, A, B, C.
  split; [reflexivity|]. split; [reflexivity|]. exists (t ++ map (fun x => WDestroy (fst x)) p).
  split; [cbn [s0 vs_log]; now rewrite app_assoc|]. apply Forall_app. split; [exact D|].
  apply Forall_forall. intros w H. apply in_map_iff in H. destruct H as (x & <- & _). exact Logic.I.
Qed.

Lemma device_keyboard t' : forall t, Forall is_device t' -> forall k,
  kn_held (kernel_run (t ++ t')) VKeyboard k = kn_held (kernel_run t) VKeyboard k /\
  (forall d, kn_held (kernel_run (t ++ t')) d k = true -> kn_held (kernel_run t) d k = true).
Proof.
  induction t' as [|w r IH] using rev_ind; intros t F k; [rewrite app_nil_r; auto|].
  apply Forall_app in F. destruct F as [F1 F2]. destruct (IH t F1 k) as [A B].
  rewrite app_assoc, kernel_snoc. apply Forall_inv in F2. destruct w; [contradiction| |]; cbn [kernel_step change_device kn_held vid_eqb];
    (split; [exact A|]); intros d0 H; apply B; destruct (vid_eqb d0 _); congruence.
Qed.

(** *** Keyboard keys (C74) *)

Record keyed (k : key) (l : list vcall) (s : vdevices) : Prop := {
  ky_held : forall d, kn_held (kernel_run (vs_log s)) d k = vid_eqb d VKeyboard && holds k l;
  ky_down : existsb (N.eqb k) (vd_down (vs_keyboard s)) = holds k l
}.

Lemma keyed_step k l c s : (0 < k < KEY_NUMERIC_0)%N -> is_mouse_button k = false -> is_mouse_wheel k = false ->
  loop_call c -> stroke_call k c -> keyed k l s -> keyed k (l ++ [c]) (vstep write_ok create_ok c s).
Proof.
  intros R NB NW LC SC [H D]. destruct c as [e|i e|ds]; cbn [vstep loop_call stroke_call] in *.
  - destruct (is_mouse_wheel (ek e)) eqn:W.
    + assert (Ne : N.eqb (ek e) k = false) by (apply N.eqb_neq; congruence).
      destruct (send_wheel e s W) as (d & x & t & L & F & Ed & X & _ & Es). cbn zeta in *. split.
      * intros d'. rewrite L, (held_others _ _ _ F), H, holds_snoc, Ne. reflexivity.
      * rewrite holds_snoc, Ne, <- D. rewrite Es. cbn [vs_keyboard]. clear -X.
        destruct d; cbn [put_vdevice vs_keyboard]; [|reflexivity]. now rewrite X.
    + pose proof (send_key e s W) as SK. cbn zeta in SK. set (d := target (ek e) s) in *.
      pose proof (key_state k e (get_vdevice d s) SC) as KS.
      destruct (update_key_state e (get_vdevice d s)) as [v x]. destruct KS as (V2 & V1 & _ & _ & _ & KD). rewrite SK.
      pose proof (holds_snoc k l (VSend e)) as HS. cbn iota in HS. destruct (N.eqb (ek e) k) eqn:Ek.
      * apply N.eqb_eq in Ek. assert (Ed : d = VKeyboard).
        { unfold d, target. rewrite Ek, NB, NW. now destruct (vs_last s). }
        rewrite Ed in *. cbn [get_vdevice] in *. split; rewrite HS.
        -- intros d'. cbn [vlog vs_log put_vdevice]. rewrite !kernel_snoc. rewrite held_other by discriminate.
           cbn [kernel_step]. rewrite keyboard_always. rewrite Ek, keyboard_announces by exact R. cbn [andb kn_held ie_type ie_code ie_value].
           rewrite N.eqb_refl. cbn [andb]. rewrite N.eqb_refl, andb_true_r.
           destruct (vid_eqb d' VKeyboard) eqn:Q; cbn [andb]; [|rewrite H, Q; reflexivity].
           destruct (v =? 2) eqn:V; cbn [negb].
           ++ apply Z.eqb_eq in V. destruct (V2 Ek V) as [S1 S2]. rewrite H, Q, S1. cbn [andb kstate_eqb]. rewrite <- D, <- Ek. exact S2.
           ++ apply Z.eqb_neq in V. exact (V1 Ek V).
        -- exact KD.
      * split; rewrite HS.
        -- intros d'. rewrite <- H. cbn [vlog vs_log]. rewrite !kernel_snoc. rewrite held_other by discriminate.
           assert (Q : N.eqb k (ek e) = false) by (rewrite N.eqb_sym; exact Ek).
           assert (EL : vs_log (put_vdevice d x s) = vs_log s) by (destruct d; reflexivity). rewrite EL.
           cbn [kernel_step]. destruct (kn_desc _ d); [|reflexivity]. destruct (true && announces _ _); [|reflexivity].
           cbn [kn_held ie_type ie_code ie_value]. rewrite Q, !andb_false_r. reflexivity.
        -- rewrite <- D. cbn [vlog vs_keyboard]. destruct d; cbn [put_vdevice vs_keyboard get_vdevice] in *; [|reflexivity].
           exact KD.
  - unfold forward_event. destruct (nth_error (vs_devices s) i) as [d|]; cbn [fst]; [|now split; rewrite holds_snoc].
    rewrite sent. cbn [fst]. set (s1 := if vd_mouse (get_vdevice d s) then set_last (Some d) s else s).
    assert (E1 : vs_log s1 = vs_log s /\ vs_keyboard s1 = vs_keyboard s) by (unfold s1; destruct (vd_mouse _); split; reflexivity).
    destruct E1 as [E1 E2]. split; rewrite holds_snoc.
    + intros d'. cbn [vlog vs_log]. rewrite kernel_snoc, E1, held_other; [apply H|].
      intro T. unfold to_key_event in LC. rewrite T in LC. discriminate LC.
    + cbn [vlog vs_keyboard]. rewrite E2. exact D.
  - destruct (update_devices_shape ds s) as (A & _ & t & L & F). cbn zeta in *. split; rewrite holds_snoc.
    + intros d. rewrite L. destruct (device_keyboard t (vs_log s) F k) as [B C].
      destruct (vid_eqb d VKeyboard) eqn:Q.
      * apply vid_eqb_eq in Q. subst d. rewrite B, H. reflexivity.
      * destruct (kn_held (kernel_run (vs_log s ++ t)) d k) eqn:K; [|reflexivity]. apply C in K. rewrite H, Q in K. discriminate K.
    + rewrite A. exact D.
Qed.

Lemma keyed_run k l : (0 < k < KEY_NUMERIC_0)%N -> is_mouse_button k = false -> is_mouse_wheel k = false ->
  Forall loop_call l -> Forall (stroke_call k) l -> keyed k l (vrun write_ok create_ok l new_vdevices).
Proof.
  intros R NB NW. induction l as [|c l IH] using rev_ind; intros F1 F2.
  - split; [|reflexivity]. intros d. cbn. now rewrite andb_false_r.
  - apply Forall_app in F1, F2. destruct F1 as [F1 F1'], F2 as [F2 F2']. rewrite vrun_snoc.
    apply keyed_step; auto; [apply (Forall_inv F1')|apply (Forall_inv F2')].
Qed.

(** *** Buttons (C75) *)

Lemma mouse_axes x : desc_has_mouse_axes x = is_mouse x.
Proof.
  unfold desc_has_mouse_axes, is_mouse. change 1%N with (N.ones 1) at 1. rewrite N.land_ones. change (2 ^ 1)%N with 2%N.
  rewrite <- N.bit0_mod. now destruct (N.testbit (d_rel x) 0).
Qed.

Definition vid_of (x : option vdesc) : vid := match x with Some d => VForward (d_id d) | None => VKeyboard end.
Definition somes (l : list (option vdesc)) : list vdesc := flat_map (fun x => match x with Some d => [d] | None => [] end) l.

Lemma get_forward_app id a b : get_forward id (a ++ b) =
  match get_forward id a with Some x => Some x | None => get_forward id b end.
Proof.
  induction a as [|[i x] a IH]; [reflexivity|]. unfold get_forward in *. cbn [app find fst].
  destruct (i =? id); [reflexivity|exact IH].
Qed.
Lemma get_forward_cons id i x l : get_forward id ((i, x) :: l) = if i =? id then Some x else get_forward id l.
Proof. unfold get_forward. cbn [find fst]. now destruct (i =? id). Qed.
Lemma get_forward_filter id i l : id <> i -> get_forward id (List.filter (fun y => negb (fst y =? i)) l) = get_forward id l.
Proof.
  intros Ne. induction l as [|[j x] l IH]; [reflexivity|]. cbn [List.filter fst]. rewrite get_forward_cons.
  destruct (Z.eqb_spec j i); cbn [negb].
  - subst. rewrite IH. destruct (Z.eqb_spec i id); [congruence|reflexivity].
  - rewrite get_forward_cons, IH. reflexivity.
Qed.
Lemma get_forward_none id l : get_forward id l = None <-> ~ In id (map fst l).
Proof.
  induction l as [|[j x] l IH]; [cbn; tauto|]. rewrite get_forward_cons. cbn [map fst In].
  destruct (Z.eqb_spec j id); [split; [discriminate|tauto]|]. rewrite IH. tauto.
Qed.

Definition forwarded (prev : list (Z * vdevice)) (x : vdesc) : Z * vdevice :=
  (d_id x, match get_forward (d_id x) prev with Some y => y | None => new_vdevice (is_mouse x) end).
Definition created (prev : list (Z * vdevice)) (x : vdesc) : list vwrite :=
  match get_forward (d_id x) prev with Some _ => [] | None => [WCreate x] end.

Hypothesis creates : forall n, create_ok n = true.

Lemma update_loop_eq l : forall prev s, NoDup (map d_id (somes l)) ->
  exists p, update_loop create_ok l prev s =
    (p, VS (vs_keyboard s) (vs_forward s ++ map (forwarded prev) (somes l)) (vs_devices s ++ map vid_of l)
           (vs_last s) (vs_log s ++ flat_map (created prev) (somes l)) (vs_ub s), true) /\
    (forall id, In id (map fst p) <-> In id (map fst prev) /\ ~ In id (map d_id (somes l))).
Proof.
  induction l as [|[x|] l IH]; intros prev s ND.
  - exists prev. cbn [update_loop somes flat_map map]. rewrite !app_nil_r. split; [now destruct s|]. cbn. tauto.
  - assert (ES : somes (Some x :: l) = x :: somes l) by reflexivity. rewrite ES in *. cbn [map flat_map vid_of] in *.
    inversion_clear ND as [|? ? N1 N2]. cbn [update_loop].
    destruct (get_forward (d_id x) prev) eqn:G.
    + match goal with |- context [update_loop _ l ?p ?s] => destruct (IH p s N2) as (p' & Q & P) end.
      exists p'. rewrite Q. cbn [vs_keyboard vs_forward vs_devices vs_last vs_log vs_ub]. split.
      * f_equal. f_equal. f_equal.
        -- rewrite <- app_assoc. f_equal. cbn [app]. unfold forwarded at 2. rewrite G. f_equal. apply map_ext_in.
           intros y Hy. unfold forwarded. rewrite get_forward_filter; [reflexivity|]. intros E. apply N1. rewrite <- E. now apply in_map.
        -- now rewrite <- app_assoc.
        -- unfold created at 2. rewrite G. cbn [app]. f_equal. rewrite !flat_map_concat_map. f_equal. apply map_ext_in.
           intros y Hy. unfold created. rewrite get_forward_filter; [reflexivity|]. intros E. apply N1. rewrite <- E. now apply in_map.
      * intros id. rewrite P. cbn [In]. assert (FI : In id (map fst (List.filter (fun y : Z * vdevice => negb (fst y =? d_id x)) prev)) <->
          In id (map fst prev) /\ d_id x <> id).
        { rewrite !in_map_iff. split.
          - intros (y & <- & Hy). apply filter_In in Hy. destruct Hy as [Hy1 Hy2]. apply negb_true_iff, Z.eqb_neq in Hy2. split; [exists y; auto|congruence].
          - intros ((y & <- & Hy) & Ne). exists y. split; [reflexivity|]. apply filter_In. split; [exact Hy|]. apply negb_true_iff, Z.eqb_neq. congruence. }
        rewrite FI. tauto.
    + rewrite creates. match goal with |- context [update_loop _ l ?p ?s] => destruct (IH p s N2) as (p' & Q & P) end.
      exists p'. rewrite Q. cbn [vs_keyboard vs_forward vs_devices vs_last vs_log vs_ub]. split.
      * rewrite mouse_axes. f_equal. f_equal. f_equal.
        -- rewrite <- app_assoc. f_equal. cbn [app]. unfold forwarded at 2. rewrite G. reflexivity.
        -- now rewrite <- app_assoc.
        -- unfold created at 2. rewrite G. now rewrite <- app_assoc.
      * intros id. rewrite P. cbn [In]. split; [|tauto]. intros [A B]. split; [exact A|]. intros [C|C]; [|tauto].
        subst id. apply get_forward_none in G. tauto.
  - assert (ES : somes (None :: l) = somes l) by reflexivity. rewrite ES in *. cbn [update_loop map vid_of].
    match goal with |- context [update_loop _ l ?p ?s] => destruct (IH p s ND) as (p' & Q & P) end.
    exists p'. rewrite Q. cbn [vs_keyboard vs_forward vs_devices vs_last vs_log vs_ub]. split; [|exact P].
    f_equal. f_equal. f_equal. now rewrite <- app_assoc.
Qed.

Lemma update_eq l s : NoDup (map d_id (somes l)) ->
  exists ids, (forall id, In id ids <-> In id (map fst (vs_forward s)) /\ ~ In id (map d_id (somes l))) /\
  fst (update_forward_devices create_ok l s) =
  VS (vs_keyboard s) (map (forwarded (vs_forward s)) (somes l)) (map vid_of l) None
     (vs_log s ++ flat_map (created (vs_forward s)) (somes l) ++ map WDestroy ids) (vs_ub s).
Proof.
  intros ND. unfold update_forward_devices.
  destruct (update_loop_eq l (vs_forward s) (VS (vs_keyboard s) [] [] None (vs_log s) (vs_ub s)) ND) as (p & Q & P).
  rewrite Q. cbn [fst vs_keyboard vs_forward vs_devices vs_last vs_log vs_ub app].
  exists (map fst p). split; [exact P|].
  assert (G : forall p s, fold_left (fun s (x : Z * vdevice) => vlog (WDestroy (fst x)) s) p s =
     VS (vs_keyboard s) (vs_forward s) (vs_devices s) (vs_last s) (vs_log s ++ map WDestroy (map fst p)) (vs_ub s)).
  { clear. induction p as [|x p IH]; intros s; cbn [fold_left map]; [rewrite app_nil_r; now destruct s|].
    rewrite IH. unfold vlog. cbn [vs_keyboard vs_forward vs_devices vs_last vs_log vs_ub]. now rewrite <- app_assoc. }
  rewrite G. cbn [vs_keyboard vs_forward vs_devices vs_last vs_log vs_ub]. now rewrite <- app_assoc.
Qed.

(** What is known of a device after devices were created and destroyed *)
Lemma desc_created prev : forall l t id,
  kn_desc (kernel_run (t ++ flat_map (created prev) l)) (VForward id) =
  match find (fun x => (d_id x =? id) && match get_forward id prev with None => true | _ => false end) (rev l) with
  | Some x => Some x
  | None => kn_desc (kernel_run t) (VForward id)
  end.
Proof.
  induction l as [|x l IH] using rev_ind; intros t id; [cbn; now rewrite app_nil_r|].
  rewrite flat_map_app, rev_app_distr. cbn [flat_map rev app find]. rewrite app_nil_r, app_assoc.
  unfold created at 2. destruct (d_id x =? id) eqn:Q; cbn [andb].
  - apply Z.eqb_eq in Q. rewrite Q. destruct (get_forward id prev) eqn:G.
    + rewrite app_nil_r. rewrite IH, G. reflexivity.
    + rewrite kernel_snoc. cbn [kernel_step change_device kn_desc vid_eqb]. rewrite Q, Z.eqb_refl. reflexivity.
  - destruct (get_forward (d_id x) prev) eqn:G.
    + rewrite app_nil_r. apply IH.
    + rewrite kernel_snoc. cbn [kernel_step change_device kn_desc vid_eqb]. rewrite Z.eqb_sym, Q. apply IH.
Qed.
Lemma desc_destroyed ids : forall t id, ~ In id ids ->
  kn_desc (kernel_run (t ++ map WDestroy ids)) (VForward id) = kn_desc (kernel_run t) (VForward id).
Proof.
  induction ids as [|i ids IH] using rev_ind; intros t id NI; [cbn; now rewrite app_nil_r|].
  rewrite map_app, app_assoc. cbn [map]. rewrite kernel_snoc. cbn [kernel_step change_device kn_desc vid_eqb].
  assert (Ne : id =? i = false). { apply Z.eqb_neq. intros ->. apply NI, in_or_app. right. now left. }
  rewrite Ne. apply IH. intros H. apply NI, in_or_app. now left.
Qed.

Lemma devices_snoc l c : devices_of (l ++ [c]) = devices_of l ++ devices_of [c].
Proof. unfold devices_of. now rewrite flat_map_app. Qed.
Lemma devices_update l : devices_of [VUpdate l] = somes l.
Proof. unfold devices_of, somes. cbn [flat_map]. now rewrite app_nil_r. Qed.

Lemma mouse_snoc l c : fold_left mouse_step (l ++ [c]) ([], None) = mouse_step (listed l, active_mouse l) c.
Proof. rewrite fold_left_app. cbn [fold_left]. unfold listed, active_mouse. now destruct (fold_left mouse_step l ([], None)). Qed.
Lemma listed_snoc l c : listed (l ++ [c]) = match c with VUpdate x => x | _ => listed l end.
Proof.
  unfold listed at 1. rewrite mouse_snoc. destruct c; cbn [mouse_step fst]; try reflexivity.
  destruct (nth_error (listed l) index) as [[x|]|]; try reflexivity. now destruct (is_mouse x).
Qed.
Lemma active_snoc l c : active_mouse (l ++ [c]) =
  match c with
  | VSend _ => active_mouse l
  | VForwarded i _ =>
      match nth_error (listed l) i with
      | Some (Some x) => if is_mouse x then Some (d_id x) else active_mouse l
      | _ => active_mouse l
      end
  | VUpdate _ => None
  end.
Proof.
  unfold active_mouse at 1. rewrite mouse_snoc. destruct c; cbn [mouse_step fst snd]; try reflexivity.
  destruct (nth_error (listed l) index) as [[x|]|]; try reflexivity. now destruct (is_mouse x).
Qed.
Lemma listed_in l : forall x, In (Some x) (listed l) -> In x (devices_of l).
Proof.
  induction l as [|c l IH] using rev_ind; intros x H; [contradiction|].
  rewrite listed_snoc in H. rewrite devices_snoc. apply in_or_app. destruct c; [left; auto|left; auto|].
  right. rewrite devices_update. unfold somes. apply in_flat_map. exists (Some x). split; [exact H|now left].
Qed.

Definition tgt (l : list vcall) : vid := match active_mouse l with Some id => VForward id | None => VKeyboard end.

Record tracked (k : key) (l : list vcall) (s : vdevices) : Prop := {
  tr_devices : vs_devices s = map vid_of (listed l);
  tr_last : vs_last s = option_map VForward (active_mouse l);
  tr_forward : forall x, In (Some x) (listed l) -> exists y, get_forward (d_id x) (vs_forward s) = Some y /\ vd_mouse y = is_mouse x;
  tr_known : forall x, In (Some x) (listed l) -> kn_desc (kernel_run (vs_log s)) (VForward (d_id x)) = Some x;
  tr_ids : forall id, In id (map fst (vs_forward s)) -> exists x, In (Some x) (listed l) /\ d_id x = id;
  tr_keyboard : vd_mouse (vs_keyboard s) = false;
  tr_active : forall id, active_mouse l = Some id -> exists x, In (Some x) (listed l) /\ d_id x = id /\ is_mouse x = true;
  tr_held : forall d, kn_held (kernel_run (vs_log s)) d k = holds k l && vid_eqb d (tgt l);
  tr_down : forall d, existsb (N.eqb k) (vd_down (get_vdevice d s)) = holds k l && vid_eqb d (tgt l)
}.

Lemma get_put_other d d' x s : d' <> d -> get_vdevice d' (put_vdevice d x s) = get_vdevice d' s.
Proof.
  intros Ne. destruct d, d'; try congruence; try reflexivity. cbn [get_vdevice put_vdevice vs_forward].
  assert (E : get_forward event_id0 (map (fun y : Z * vdevice => if fst y =? event_id then (event_id, x) else y) (vs_forward s)) = get_forward event_id0 (vs_forward s)).
  { induction (vs_forward s) as [|[i y] r IH]; [reflexivity|]. cbn [map fst]. destruct (Z.eqb_spec i event_id).
    - rewrite !get_forward_cons, IH. subst. destruct (Z.eqb_spec event_id event_id0); [congruence|reflexivity].
    - rewrite !get_forward_cons, IH. reflexivity. }
  now rewrite E.
Qed.
Lemma get_put_same d x s : match d with VForward id => In id (map fst (vs_forward s)) | _ => True end ->
  get_vdevice d (put_vdevice d x s) = x.
Proof.
  destruct d; intros H; [reflexivity|]. cbn [get_vdevice put_vdevice vs_forward].
  assert (E : get_forward event_id (map (fun y : Z * vdevice => if fst y =? event_id then (event_id, x) else y) (vs_forward s)) = Some x).
  { induction (vs_forward s) as [|[i y] r IH]; [contradiction|]. cbn [map fst]. destruct (Z.eqb_spec i event_id).
    - rewrite get_forward_cons, Z.eqb_refl. reflexivity.
    - rewrite get_forward_cons. destruct (Z.eqb_spec i event_id); [contradiction|]. apply IH. destruct H as [H|H]; [contradiction|exact H]. }
  now rewrite E.
Qed.
Lemma put_ids d x s : map fst (vs_forward (put_vdevice d x s)) = map fst (vs_forward s).
Proof.
  destruct d; [reflexivity|]. cbn [put_vdevice vs_forward]. rewrite map_map. apply map_ext.
  intros [i y]. cbn [fst]. destruct (Z.eqb_spec i event_id); [cbn; congruence|reflexivity].
Qed.

Lemma desc_events t' : forall t d, Forall (fun w => exists i, w = WEvent d i true /\ ie_type i <> EV_KEY) t' ->
  forall d', kn_desc (kernel_run (t ++ t')) d' = kn_desc (kernel_run t) d'.
Proof.
  induction t' as [|w r IH] using rev_ind; intros t d F d'; [now rewrite app_nil_r|].
  rewrite app_assoc, kernel_snoc. apply Forall_app in F. destruct F as [F1 F2].
  destruct (Forall_inv F2) as (i & -> & Hi). rewrite desc_event. eapply IH. exact F1.
Qed.

(** Sending changes one device, which keeps its kind. *)
Lemma tracked_put k l s s' d x :
  tracked k l s ->
  vs_devices s' = vs_devices s -> vs_last s' = vs_last s ->
  vs_forward s' = vs_forward (put_vdevice d x s) -> vs_keyboard s' = vs_keyboard (put_vdevice d x s) ->
  vd_mouse x = vd_mouse (get_vdevice d s) ->
  (forall d', kn_desc (kernel_run (vs_log s')) d' = kn_desc (kernel_run (vs_log s)) d') ->
  forall e, ((forall d', kn_held (kernel_run (vs_log s')) d' k = holds k (l ++ [VSend e]) && vid_eqb d' (tgt l)) ->
  (forall d', existsb (N.eqb k) (vd_down (get_vdevice d' s')) = holds k (l ++ [VSend e]) && vid_eqb d' (tgt l)) ->
  tracked k (l ++ [VSend e]) s').
Proof.
  intros [T1 T2 T3 T4 T5 T6 T7 T8 T9] E1 E2 E3 E4 EM ED e H1 H2.
  assert (ET : tgt (l ++ [VSend e]) = tgt l) by (unfold tgt; now rewrite active_snoc).
  split; rewrite ?listed_snoc, ?active_snoc, ?ET; try assumption.
  - now rewrite E1.
  - now rewrite E2.
  - intros y Hy. destruct (T3 y Hy) as (z & Z1 & Z2). rewrite E3.
    destruct (vid_eqb (VForward (d_id y)) d) eqn:Q.
    + apply vid_eqb_eq in Q. subst d. exists x. cbn [get_vdevice] in EM. rewrite Z1 in EM. split; [|congruence].
      assert (NI : In (d_id y) (map fst (vs_forward s))).
      { destruct (in_dec Z.eq_dec (d_id y) (map fst (vs_forward s))) as [?|N]; [assumption|].
        apply get_forward_none in N. congruence. }
      pose proof (get_put_same (VForward (d_id y)) x s NI) as GP. cbn [get_vdevice put_vdevice vs_forward] in GP |- *.
      rewrite <- (put_ids (VForward (d_id y)) x s) in NI. cbn [put_vdevice vs_forward] in NI.
      destruct (get_forward (d_id y) (map _ (vs_forward s))) eqn:G; [now rewrite GP|]. apply get_forward_none in G. contradiction.
    + apply vid_eqb_neq in Q. pose proof (get_put_other _ _ x s Q) as GP. exists z. split; [|exact Z2]. rewrite <- Z1.
      destruct d; [reflexivity|]. clear -Q. cbn [put_vdevice vs_forward].
      induction (vs_forward s) as [|[i w] r IH]; [reflexivity|]. cbn [map fst]. destruct (Z.eqb_spec i event_id).
      * rewrite !get_forward_cons, IH. subst. destruct (Z.eqb_spec event_id (d_id y)); [congruence|reflexivity].
      * rewrite !get_forward_cons, IH. reflexivity.
  - intros y Hy. rewrite ED. auto.
  - intros id. rewrite E3, put_ids. auto.
  - rewrite E4. destruct d; [|exact T6]. cbn [put_vdevice vs_keyboard]. cbn [get_vdevice] in EM. congruence.
Qed.

Lemma get_same s s' d : vs_forward s' = vs_forward s -> vs_keyboard s' = vs_keyboard s -> get_vdevice d s' = get_vdevice d s.
Proof. intros A B. destruct d; cbn [get_vdevice]; now rewrite ?A, ?B. Qed.

Lemma tracked_send k l s e : is_mouse_button k = true -> mice_have k l -> (ek e = k -> es e = Up \/ es e = Down) ->
  tracked k l s -> tracked k (l ++ [VSend e]) (fst (send_key_event write_ok e s)).
Proof.
  intros BK MH SC T. pose proof T as [T1 T2 T3 T4 T5 T6 T7 T8 T9].
  assert (KR : (0 < k < KEY_NUMERIC_0)%N /\ is_mouse_wheel k = false).
  { unfold is_mouse_button, in_range, ButtonLeft, ButtonForward in BK. apply andb_prop in BK. destruct BK as [B1 B2].
    apply N.leb_le in B1, B2. split; [unfold KEY_NUMERIC_0; lia|]. unfold is_mouse_wheel, in_range, WheelUp, WheelRight.
    apply andb_false_iff. left. apply N.leb_gt. lia. }
  destruct KR as [KR KW]. pose proof (holds_snoc k l (VSend e)) as HS. cbn iota in HS.
  destruct (is_mouse_wheel (ek e)) eqn:W.
  - assert (Ne : N.eqb (ek e) k = false) by (apply N.eqb_neq; congruence). rewrite Ne in HS.
    destruct (send_wheel e s W) as (d & x & t & L & F & Ed & X & XM & Es). cbn zeta in *.
    apply (tracked_put k l s _ d x T); try (rewrite Es; reflexivity); try exact XM.
    + intros d'. rewrite L. now apply (desc_events t (vs_log s) d F).
    + intros d'. rewrite L, (held_others _ _ _ F), HS. apply T8.
    + intros d'. rewrite HS, <- T9.
      assert (EG : get_vdevice d' (fst (send_key_event write_ok e s)) = get_vdevice d' (put_vdevice d x s)) by (rewrite Es; apply get_same; reflexivity).
      rewrite EG. destruct (vid_eqb d' d) eqn:Q.
      * apply vid_eqb_eq in Q. subst d'. destruct d; [cbn [get_vdevice put_vdevice vs_keyboard] in *; now rewrite X|].
        destruct (in_dec Z.eq_dec event_id (map fst (vs_forward s))) as [NI|NI].
        -- rewrite get_put_same by exact NI. now rewrite X.
        -- apply get_forward_none in NI. assert (NI2 := NI). rewrite get_forward_none, <- (put_ids (VForward event_id) x s), <- get_forward_none in NI2.
           cbn [get_vdevice]. now rewrite NI, NI2.
      * apply vid_eqb_neq in Q. now rewrite get_put_other.
  - pose proof (send_key e s W) as SK. cbn zeta in SK. set (d := target (ek e) s) in *.
    pose proof (key_state k e (get_vdevice d s) SC) as KS.
    destruct (update_key_state e (get_vdevice d s)) as [v x]. destruct KS as (V2 & V1 & XM & _ & _ & KD). rewrite SK.
    assert (EL : vs_log (put_vdevice d x s) = vs_log s) by (destruct d; reflexivity).
    assert (EX : match d with VForward id => In id (map fst (vs_forward s)) | VKeyboard => True end).
    { unfold d, target. rewrite T2. destruct (active_mouse l) as [id|] eqn:A; cbn [option_map]; [|exact Logic.I].
      destruct (is_mouse_button (ek e) || is_mouse_wheel (ek e)); [|exact Logic.I].
      destruct (T7 id eq_refl) as (y & Y1 & Y2 & _). destruct (T3 y Y1) as (z & Z1 & _).
      destruct (in_dec Z.eq_dec id (map fst (vs_forward s))) as [?|N]; [assumption|]. apply get_forward_none in N. congruence. }
    apply (tracked_put k l s _ d x T); try (destruct d; reflexivity); try exact XM.
    + intros d'. unfold vlog. cbn [vs_log]. rewrite !kernel_snoc, !desc_event, EL. reflexivity.
    + intros d'. unfold vlog. cbn [vs_log]. rewrite !kernel_snoc, EL. rewrite held_other by discriminate. rewrite HS.
      destruct (N.eqb (ek e) k) eqn:Ek.
      * apply N.eqb_eq in Ek. assert (Ed : d = tgt l).
        { unfold d, target, tgt. rewrite T2, Ek, BK. now destruct (active_mouse l). }
        assert (KD' : exists y, kn_desc (kernel_run (vs_log s)) d = Some y /\ announces y (IE EV_KEY (ek e) v) = true).
        { rewrite Ed. unfold tgt. destruct (active_mouse l) as [id|] eqn:A.
          - destruct (T7 id eq_refl) as (y & Y1 & Y2 & Y3). exists y. rewrite <- Y2. split; [now apply T4|].
            change (existsb (N.eqb (ek e)) (d_keys y) = true). apply existsb_exists. exists k. split; [|now apply N.eqb_eq].
            apply MH; [now apply listed_in|exact Y3].
          - exists keyboard_desc. split; [apply keyboard_always|]. rewrite Ek. now apply keyboard_announces. }
        destruct KD' as (y & Y1 & Y2). cbn [kernel_step]. rewrite Y1, Y2. cbn [andb kn_held ie_type ie_code ie_value].
        rewrite N.eqb_refl, Ek, N.eqb_refl, andb_true_r. cbn [andb]. rewrite <- Ed.
        destruct (vid_eqb d' d) eqn:Q; cbn [andb]; [|rewrite T8, <- Ed, Q; now rewrite !andb_false_r].
        rewrite andb_true_r. destruct (v =? 2) eqn:V; cbn [negb].
        -- apply Z.eqb_eq in V. destruct (V2 Ek V) as [S1 S2]. rewrite T8, <- Ed, Q, S1. cbn [kstate_eqb]. rewrite andb_true_r.
           rewrite Ek, T9, <- Ed, vid_eqb_refl, andb_true_r in S2. exact S2.
        -- apply Z.eqb_neq in V. exact (V1 Ek V).
      * rewrite <- T8. assert (Q : N.eqb k (ek e) = false) by (rewrite N.eqb_sym; exact Ek).
        cbn [kernel_step]. destruct (kn_desc _ d); [|reflexivity]. destruct (true && announces _ _); [|reflexivity].
        cbn [kn_held ie_type ie_code ie_value]. rewrite Q, !andb_false_r. reflexivity.
    + intros d'. rewrite HS.
      assert (EG : get_vdevice d' (vlog (WEvent d syn true) (vlog (WEvent d (IE EV_KEY (ek e) v) true) (put_vdevice d x s))) = get_vdevice d' (put_vdevice d x s)) by (apply get_same; reflexivity).
      rewrite EG. destruct (vid_eqb d' d) eqn:Q.
      * apply vid_eqb_eq in Q. subst d'. rewrite get_put_same by exact EX. rewrite KD.
        destruct (N.eqb (ek e) k) eqn:Ek; [|apply T9]. apply N.eqb_eq in Ek. assert (Ed : d = tgt l).
        { unfold d, target, tgt. rewrite T2, Ek, BK. now destruct (active_mouse l). }
        rewrite <- Ed, vid_eqb_refl, andb_true_r. reflexivity.
      * pose proof Q as Q'. apply vid_eqb_neq in Q. rewrite get_put_other by exact Q. rewrite T9.
        destruct (N.eqb (ek e) k) eqn:Ek; [|reflexivity]. apply N.eqb_eq in Ek. assert (Ed : d = tgt l).
        { unfold d, target, tgt. rewrite T2, Ek, BK. now destruct (active_mouse l). }
        rewrite <- Ed, Q'. now rewrite !andb_false_r.
Qed.

Lemma tracked_forward k l s i e : (holds k l = true -> active_mouse (l ++ [VForwarded i e]) = active_mouse l) ->
  to_key_event e = None ->
  tracked k l s -> tracked k (l ++ [VForwarded i e]) (fst (forward_event write_ok i e s)).
Proof.
  intros ST LC [T1 T2 T3 T4 T5 T6 T7 T8 T9].
  assert (NK : ie_type e <> EV_KEY). { intros T. unfold to_key_event in LC. rewrite T in LC. discriminate LC. }
  assert (HS : holds k (l ++ [VForwarded i e]) = holds k l) by apply holds_snoc.
  assert (HT : forall d, holds k l && vid_eqb d (tgt (l ++ [VForwarded i e])) = holds k l && vid_eqb d (tgt l)).
  { intros d. destruct (holds k l); [|reflexivity]. unfold tgt. now rewrite ST. }
  unfold forward_event. destruct (nth_error (vs_devices s) i) as [d|] eqn:ND.
  - rewrite sent. cbn [fst]. set (s1 := if vd_mouse (get_vdevice d s) then set_last (Some d) s else s).
    assert (E1 : vs_log s1 = vs_log s /\ vs_keyboard s1 = vs_keyboard s /\ vs_forward s1 = vs_forward s /\ vs_devices s1 = vs_devices s)
      by (unfold s1; destruct (vd_mouse (get_vdevice d s)); auto). destruct E1 as (E1 & E2 & E3 & E4).
    rewrite T1 in ND. rewrite nth_error_map in ND. destruct (nth_error (listed l) i) as [o|] eqn:NO; [|discriminate]. injection ND as <-.
    assert (EA : option_map VForward (active_mouse (l ++ [VForwarded i e])) = vs_last s1).
    { rewrite active_snoc, NO. unfold s1. destruct o as [x|]; cbn [vid_of get_vdevice].
      - destruct (T3 x) as (y & Y1 & Y2); [eapply nth_error_In; eassumption|]. rewrite Y1, Y2. destruct (is_mouse x); [reflexivity|now symmetry].
      - rewrite T6. now symmetry. }
    split; rewrite ?listed_snoc, ?HS; cbn [vlog vs_devices vs_last vs_forward vs_keyboard vs_log]; rewrite ?E1, ?E2, ?E3, ?E4; try assumption.
    + now symmetry.
    + intros x Hx. rewrite kernel_snoc, desc_event. auto.
    + intros id Hid. rewrite active_snoc, NO in Hid. destruct o as [x|]; [|auto]. destruct (is_mouse x) eqn:M; [|auto].
      injection Hid as <-. exists x. split; [eapply nth_error_In; eassumption|auto].
    + intros d'. rewrite kernel_snoc, held_other by exact NK. rewrite HT. apply T8.
    + intros d'. rewrite HT, <- T9. destruct d'; cbn [get_vdevice vs_forward vs_keyboard vlog]; rewrite ?E2, ?E3; reflexivity.
  - cbn [fst]. assert (EA : active_mouse (l ++ [VForwarded i e]) = active_mouse l).
    { rewrite active_snoc. rewrite T1, nth_error_map in ND. destruct (nth_error (listed l) i); [discriminate|reflexivity]. }
    split; rewrite ?listed_snoc, ?HS, ?EA; cbn [vs_devices vs_last vs_forward vs_keyboard vs_log]; try assumption.
    + intros d'. rewrite HT. apply T8.
    + intros d'. rewrite HT, <- T9. destruct d'; reflexivity.
Qed.

Lemma find_rev_nodup (l : list vdesc) id (b : bool) x : NoDup (map d_id l) -> In x l -> d_id x = id ->
  find (fun x => (d_id x =? id) && b) (rev l) = if b then Some x else None.
Proof.
  intros ND Hx E. destruct b.
  - destruct (find _ (rev l)) as [y|] eqn:F.
    + apply find_some in F. destruct F as [F1 F2]. apply andb_prop in F2. destruct F2 as [F2 _]. apply Z.eqb_eq in F2.
      apply in_rev in F1. f_equal. assert (Eid : d_id y = d_id x) by congruence. clear -ND Hx F1 Eid.
      induction l as [|z l IH]; [contradiction|]. cbn [map] in ND. inversion_clear ND as [|? ? N1 N2].
      destruct Hx as [->|Hx], F1 as [->|F1]; try reflexivity.
      * exfalso. apply N1. rewrite <- Eid. now apply in_map.
      * exfalso. apply N1. rewrite Eid. now apply in_map.
      * auto.
    + apply in_rev in Hx. pose proof (find_none _ _ F x Hx) as H. cbn beta in H. rewrite E, Z.eqb_refl in H. discriminate.
  - destruct (find _ (rev l)) as [y|] eqn:F; [|reflexivity]. apply find_some in F. rewrite andb_false_r in F. now destruct F.
Qed.

Lemma get_forwarded prev l : forall x, NoDup (map d_id l) -> In x l ->
  get_forward (d_id x) (map (forwarded prev) l) = Some (snd (forwarded prev x)).
Proof.
  induction l as [|y l IH]; intros x ND Hx; [contradiction|]. cbn [map] in *. inversion_clear ND as [|? ? N1 N2].
  unfold forwarded at 1. rewrite get_forward_cons. destruct (Z.eqb_spec (d_id y) (d_id x)).
  - destruct Hx as [->|Hx]; [reflexivity|]. exfalso. apply N1. rewrite e. now apply in_map.
  - destruct Hx as [->|Hx]; [contradiction|]. auto.
Qed.

Lemma created_is_device prev l : Forall is_device (flat_map (created prev) l).
Proof.
  induction l as [|x l IH]; [constructor|]. cbn [flat_map]. apply Forall_app. split; [|exact IH].
  unfold created. destruct (get_forward _ _); repeat constructor.
Qed.

Lemma in_somes x l : In x (somes l) <-> In (Some x) l.
Proof.
  unfold somes. rewrite in_flat_map. split.
  - intros ([y|] & H & K); [|contradiction]. destruct K as [->|[]]. exact H.
  - intros H. exists (Some x). split; [exact H|now left].
Qed.

Lemma tracked_update k l s ds : (holds k l = true -> active_mouse l = None) ->
  NoDup (map d_id (somes ds)) ->
  (forall x y, In x (devices_of l) -> In y (somes ds) -> d_id x = d_id y -> x = y) ->
  tracked k l s -> tracked k (l ++ [VUpdate ds]) (fst (update_forward_devices create_ok ds s)).
Proof.
  intros ST ND SD [T1 T2 T3 T4 T5 T6 T7 T8 T9].
  destruct (update_eq ds s ND) as (ids & DI & UE). rewrite UE. clear UE.
  assert (HS : holds k (l ++ [VUpdate ds]) = holds k l) by apply holds_snoc.
  assert (HT : forall d, holds k l && vid_eqb d (tgt (l ++ [VUpdate ds])) = holds k l && vid_eqb d (tgt l)).
  { intros d. destruct (holds k l); [|reflexivity]. unfold tgt. now rewrite active_snoc, ST. }
  split; rewrite ?listed_snoc, ?active_snoc, ?HS; cbn [vs_devices vs_last vs_forward vs_keyboard vs_log option_map]; try assumption; try reflexivity.
  - intros x Hx. apply in_somes in Hx. exists (snd (forwarded (vs_forward s) x)). split; [now apply get_forwarded|].
    unfold forwarded. cbn [snd]. destruct (get_forward (d_id x) (vs_forward s)) as [y|] eqn:G; [|reflexivity].
    destruct (T5 (d_id x)) as (x0 & X1 & X2).
    { destruct (in_dec Z.eq_dec (d_id x) (map fst (vs_forward s))) as [?|N]; [assumption|]. apply get_forward_none in N. congruence. }
    assert (x0 = x) by (apply SD; auto; now apply listed_in). subst x0. destruct (T3 x X1) as (y' & Y1 & Y2). congruence.
  - intros x Hx. apply in_somes in Hx. rewrite app_assoc.
    rewrite desc_destroyed by (rewrite DI; intros [_ N]; apply N; now apply in_map).
    rewrite desc_created. rewrite (find_rev_nodup (somes ds) (d_id x) _ x ND Hx eq_refl).
    destruct (get_forward (d_id x) (vs_forward s)) as [y|] eqn:G; [|reflexivity].
    destruct (T5 (d_id x)) as (x0 & X1 & X2).
    { destruct (in_dec Z.eq_dec (d_id x) (map fst (vs_forward s))) as [?|N]; [assumption|]. apply get_forward_none in N. congruence. }
    assert (x0 = x) by (apply SD; auto; now apply listed_in). subst x0. auto.
  - intros id H. rewrite map_map in H. cbn [forwarded fst] in H. apply in_map_iff in H. destruct H as (x & <- & Hx). exists x.
    split; [now apply in_somes|reflexivity].
  - intros id. discriminate.
  - intros d. rewrite HT. assert (FD : Forall is_device (flat_map (created (vs_forward s)) (somes ds) ++ map WDestroy ids)).
    { apply Forall_app. split; [apply created_is_device|]. apply Forall_forall. intros w H. apply in_map_iff in H. destruct H as (i & <- & _). exact Logic.I. }
    destruct (device_keyboard _ (vs_log s) FD k) as [B C].
    destruct (vid_eqb d VKeyboard) eqn:Q.
    + apply vid_eqb_eq in Q. subst d. rewrite B, T8. reflexivity.
    + destruct (kn_held (kernel_run (vs_log s ++ _)) d k) eqn:K.
      * apply C in K. rewrite T8 in K. now symmetry.
      * destruct (holds k l) eqn:HO; [|reflexivity]. unfold tgt. rewrite (ST eq_refl). rewrite Q. reflexivity.
  - intros d. rewrite HT, <- T9. destruct d; [reflexivity|]. cbn [get_vdevice vs_forward].
    destruct (in_dec Z.eq_dec event_id (map d_id (somes ds))) as [NI|NI].
    + apply in_map_iff in NI. destruct NI as (x & <- & Hx). rewrite (get_forwarded _ _ _ ND Hx). unfold forwarded. cbn [snd].
      destruct (get_forward (d_id x) (vs_forward s)); reflexivity.
    + assert (NI2 : get_forward event_id (map (forwarded (vs_forward s)) (somes ds)) = None).
      { apply get_forward_none. rewrite map_map. exact NI. }
      rewrite NI2. cbn [new_vdevice vd_down existsb].
      pose proof (T9 (VForward event_id)) as T9'. cbn [get_vdevice] in T9'. rewrite T9'.
      destruct (holds k l) eqn:HO; [|reflexivity]. unfold tgt. rewrite (ST eq_refl). reflexivity.
Qed.

Lemma steady_prefix k l c : steady k (l ++ [c]) -> steady k l.
Proof. intros H a x b E. apply (H a x (b ++ [c])). rewrite E, <- app_assoc. reflexivity. Qed.
Lemma same_prefix l c : same_devices (l ++ [c]) -> same_devices l.
Proof.
  intros [A B]. rewrite devices_snoc in A. split.
  - intros x y Hx Hy. apply A; apply in_or_app; now left.
  - intros x Hx. apply B. apply in_or_app. now left.
Qed.
Lemma mice_prefix k l c : mice_have k (l ++ [c]) -> mice_have k l.
Proof. intros A x Hx. apply A. rewrite devices_snoc. apply in_or_app. now left. Qed.

Lemma tracked_run k l : is_mouse_button k = true -> Forall loop_call l -> Forall (stroke_call k) l ->
  same_devices l -> mice_have k l -> steady k l -> tracked k l (vrun write_ok create_ok l new_vdevices).
Proof.
  intros BK. induction l as [|c l IH] using rev_ind; intros F1 F2 SD MH ST.
  - split; try reflexivity; try (intros x H; contradiction); try (intros id H; discriminate H); try (intros d; destruct d; reflexivity).
  - apply Forall_app in F1, F2. destruct F1 as [F1 F1'], F2 as [F2 F2']. rewrite vrun_snoc.
    specialize (IH F1 F2 (same_prefix _ _ SD) (mice_prefix _ _ _ MH) (steady_prefix _ _ _ ST)).
    apply Forall_inv in F1', F2'. destruct c as [e|i e|ds]; cbn [vstep loop_call stroke_call] in *.
    + apply tracked_send; auto. exact (mice_prefix _ _ _ MH).
    + apply tracked_forward; auto. intros HO. exact (ST l _ [] eq_refl HO).
    + destruct SD as [SD1 SD2]. apply tracked_update; auto.
      * intros HO. pose proof (ST l _ [] eq_refl HO) as S1. rewrite active_snoc in S1. now symmetry.
      * rewrite <- devices_update. apply SD2. apply in_or_app. right. now left.
      * intros x y Hx Hy. apply SD1; rewrite devices_snoc; apply in_or_app; [now left|right]. now rewrite devices_update.
Qed.
End Always.
