(** The indices of grabbed devices, when devices are grabbed, and the server's own devices *)
From Coq Require Import String Ascii List Arith NArith ZArith Bool Lia FinFun.
From Verif Require Import Base Key Text ClientProofs Stage Config Client ClientSpec ClientInject Device Grab GrabSpec GrabProofs GrabRun.
Import ListNotations.
Local Open Scope Z_scope.

(** ** Forward devices *)

Definition vid_of (x : option vdesc) : vid := match x with Some d => VForward (d_id d) | None => VKeyboard end.

Lemma update_loop_devices create_ok : forall l prev s, snd (update_loop create_ok l prev s) = true ->
  vs_devices (snd (fst (update_loop create_ok l prev s))) = vs_devices s ++ map vid_of l.
Proof.
  induction l as [|[d|] l IH]; intros prev s; cbn [update_loop map].
  - cbn [fst snd]. now rewrite app_nil_r.
  - destruct (get_forward (d_id d) prev); [|destruct (create_ok _)].
    + intro H. rewrite IH by exact H. cbn [vs_devices]. now rewrite <- app_assoc.
    + intro H. rewrite IH by exact H. cbn [vs_devices]. now rewrite <- app_assoc.
    + discriminate.
  - intro H. rewrite IH by exact H. cbn [vs_devices]. now rewrite <- app_assoc.
Qed.
Lemma destroys_devices (l : list (Z * vdevice)) : forall s, vs_devices (fold_left (fun s x => vlog (WDestroy (fst x)) s) l s) = vs_devices s.
Proof. induction l as [|x l IH]; intro s; [reflexivity|]. cbn [fold_left]. now rewrite IH. Qed.
Lemma update_forward_aligned create_ok l s v : update_forward_devices create_ok l s = (v, true) -> vs_devices v = map vid_of l.
Proof.
  unfold update_forward_devices. set (s0 := VS _ _ _ _ _ _). pose proof (update_loop_devices create_ok l (vs_forward s) s0) as H.
  destruct (update_loop create_ok l (vs_forward s) s0) as [[prev s1] ok]. cbn [fst snd] in H. intro Q. injection Q as <- ->.
  rewrite destroys_devices. apply H. reflexivity.
Qed.
Lemma update_loop_ok create_ok : (forall n, create_ok n = true) -> forall l prev s, snd (update_loop create_ok l prev s) = true.
Proof.
  intros C. induction l as [|[d|] l IH]; intros prev s; cbn [update_loop]; [reflexivity| |apply IH].
  destruct (get_forward (d_id d) prev); [apply IH|]. rewrite C. apply IH.
Qed.
Lemma update_forward_ok create_ok l s : (forall n, create_ok n = true) -> snd (update_forward_devices create_ok l s) = true.
Proof.
  intro C. unfold update_forward_devices. match goal with |- context [update_loop _ _ _ ?s0] => pose proof (update_loop_ok create_ok C l (vs_forward s) s0) as H end.
  destruct (update_loop _ _ _ _) as [[prev s1] ok]. exact H.
Qed.

Lemma put_vdevice_devices d x s : vs_devices (put_vdevice d x s) = vs_devices s.
Proof. destruct d; reflexivity. Qed.
Lemma send_key_devices write_ok e s : vs_devices (fst (send_key_event write_ok e s)) = vs_devices s.
Proof.
  unfold send_key_event. match goal with |- context [get_vdevice ?d _] => generalize d end. intro d.
  destruct (is_mouse_wheel (ek e)).
  - destruct (update_lowres_wheel _ _ _) as [lowres x]. destruct (lowres =? 0); cbn [fst send_event vlog vs_devices]; now rewrite put_vdevice_devices.
  - destruct (update_key_state _ _) as [value x]. unfold send_event at 1. destruct (write_ok _); cbn [fst send_event vlog vs_devices]; apply put_vdevice_devices.
Qed.

Section Run.
Variable search : text -> text -> bool.
Variable held_keys : nat -> nat -> option (list N).
Variable monitor_ok : bool.
Variable write_ok create_ok : nat -> bool.
Notation update_scan := (update_scan search held_keys).
Notation devices_updated := (devices_updated create_ok).
Notation update_devices := (update_devices search held_keys monitor_ok create_ok).
Notation loop_turn := (loop_turn search held_keys monitor_ok write_ok create_ok).
Notation dstep_run := (dstep_run search held_keys monitor_ok write_ok create_ok).
Notation drun := (drun search held_keys monitor_ok write_ok create_ok).

(** ** The rest of the server knows the devices by the same indices *)

Definition aligned (y : dsys) : Prop := ds_over y = false ->
  ds_server y = gs_descs (ds_grab y) /\ vs_devices (ds_virtual y) = map vid_of (map gx_ext (ds_server y)) /\
  length (gs_descs (ds_grab y)) = length (gs_devices (ds_grab y)).

Lemma scan_descs w s : gs_descs (update_scan w s) = map (describe w) (gs_devices (update_scan w s)).
Proof. unfold Grab.update_scan. destruct (ungrab_loop _ _ _ _) as [kept s']. reflexivity. Qed.

Lemma aligned_updated y : gs_descs (ds_grab y) = map (describe (ds_world y)) (gs_devices (ds_grab y)) -> aligned (devices_updated y).
Proof.
  intro D. unfold Grab.devices_updated. pose proof (update_forward_aligned create_ok (map gx_ext (gs_descs (ds_grab y))) (ds_virtual y)) as A.
  destruct (update_forward_devices _ _ _) as [v [|]]; intro O; [|discriminate O]. cbn [ds_server ds_grab ds_virtual]. split; [reflexivity|].
  split; [now apply A|]. now rewrite D, map_length.
Qed.
Lemma aligned_session w mice filters during : aligned (session search held_keys monitor_ok create_ok w mice filters during).
Proof. unfold session. apply aligned_updated. apply scan_descs. Qed.
Lemma aligned_update during y : aligned y -> aligned (update_devices during y).
Proof. intro A. unfold Grab.update_devices. destruct (gs_changed _); [|exact A]. apply aligned_updated. apply scan_descs. Qed.
Lemma aligned_put_changed y b : aligned y -> aligned (put_grab (put_changed b (ds_grab y)) y).
Proof. intros A O. exact (A O). Qed.
Lemma forward_devices i e v : vs_devices (fst (forward_event write_ok i e v)) = vs_devices v.
Proof. unfold forward_event. destruct (nth_error _ _); [|reflexivity]. destruct (vd_mouse _); reflexivity. Qed.

Lemma read_state r s : exists b, snd (read_input_event r s) = put_changed b s.
Proof.
  unfold read_input_event. assert (X : s = put_changed (gs_changed s) s) by now destruct s.
  destruct r as [r|]; [|exists (gs_changed s); exact X]. destruct (gs_monitor s && sl_monitor r); [exists true; reflexivity|].
  destruct (sl_client r); exists (gs_changed s); exact X.
Qed.
Lemma aligned_turn r during y : aligned y -> aligned (loop_turn r during y).
Proof.
  intro A. unfold Grab.loop_turn. destruct (ds_over y) eqn:O; [exact A|].
  match goal with |- context [read_input_event ?r _] => destruct (read_state r (ds_grab y)) as (b & B); destruct (read_input_event r (ds_grab y)) as [res g] end.
  cbn [snd] in B. subst g. destruct res as [| |i e|]; try (intro X; discriminate X).
  - apply aligned_update, aligned_put_changed, A.
  - destruct (to_key_event e) as [k|].
    + apply aligned_update. destruct (N.eqb _ _); [apply aligned_put_changed, A|]. intro X. exact (A X).
    + intro X. destruct (A X) as (A1 & A2 & A3). cbn [put_read put_grab ds_server ds_grab ds_virtual]. split; [exact A1|]. split; [|exact A3].
      rewrite forward_devices. exact A2.
Qed.
Lemma aligned_step x y : aligned y -> aligned (dstep_run x y).
Proof.
  intro A. destruct x; cbn [Grab.dstep_run]; [now apply aligned_turn| | |]; intro O; try exact (A O).
  destruct (A O) as (A1 & A2 & A3). cbn [ds_server ds_grab ds_virtual]. rewrite send_key_devices. auto.
Qed.
Lemma aligned_run l : forall y, aligned y -> aligned (drun l y).
Proof. induction l as [|x l IH]; intros y A; [exact A|]. unfold Grab.drun in *. cbn [fold_left]. now apply IH, aligned_step. Qed.

(** ** When devices are grabbed *)

(** The keys of the device were released, or could not be asked for, or were held each
    time the server looked. *)
Definition waited (dev p : nat) : Prop :=
  held_keys p dev = Some [] \/ held_keys p dev = None \/
  (1000 <= p)%nat /\ forall q, (p - 1000 <= q < p)%nat -> exists k ks, held_keys q dev = Some (k :: ks).
Definition patient (l : list gcall) : Prop :=
  forall dev p, In (GGrab dev p) l \/ In (GUngrab dev p) l -> waited dev p.

Lemma wait_loop_waited dev : forall retries start p, fst (wait_loop held_keys retries dev start) = p ->
  held_keys p dev = Some [] \/ held_keys p dev = None \/
  p = (start + retries)%nat /\ forall q, (start <= q < p)%nat -> exists k ks, held_keys q dev = Some (k :: ks).
Proof.
  induction retries as [|r IH]; intros start p Q; cbn [wait_loop] in Q.
  - cbn [fst] in Q. right. right. split; [lia|]. intros q Hq. lia.
  - destruct (held_keys start dev) as [[|k ks]|] eqn:H; cbn [fst] in Q; [subst p; auto| |subst p; auto].
    destruct (IH _ _ Q) as [X|[X|[X1 X2]]]; [auto|auto|]. right. right. split; [lia|]. intros q Hq.
    destruct (Nat.eq_dec q start) as [->|]; [eauto|]. apply X2. lia.
Qed.
Lemma wait_waited dev s : waited dev (gs_polls (wait_until_keys_released held_keys dev s)).
Proof.
  unfold waited, wait_until_keys_released. unfold put_polls, gs_polls.
  destruct (wait_loop_waited dev wait_retries (gs_polls s) _ eq_refl) as [X|[X|[X1 X2]]]; [auto|auto|]. right. right.
  fold (gs_polls s). set (p := fst (wait_loop held_keys wait_retries dev (gs_polls s))) in *.
  assert (R : wait_retries = 1000%nat) by reflexivity. rewrite R in X1. clear R. split; [lia|]. intros q Hq. apply X2. lia.
Qed.

Lemma patient_snoc l c : patient l -> (forall dev p, c = GGrab dev p \/ c = GUngrab dev p -> waited dev p) -> patient (l ++ [c]).
Proof.
  intros P H dev p [X|X]; apply in_app_or in X; destruct X as [X|[X|[]]]; [apply P; now left|apply H; now left|apply P; now right|apply H; now right].
Qed.
Lemma patient_scan n s : patient (gs_log s) -> patient (gs_log (scan_entry search held_keys n s)).
Proof.
  intro P. unfold scan_entry. destruct (n_opens n); [|exact P]. destruct (_ && _); [|exact P]. destruct (selected _ _ _); [|exact P].
  destruct (existsb _ _); [exact P|]. unfold grab_device. destruct (n_grabs n); [|exact P].
  change (patient (gs_log s ++ [GGrab (n_dev n) (gs_polls (wait_until_keys_released held_keys (n_dev n) s))])).
  apply patient_snoc; [exact P|]. intros dev p [Q|Q]; [|discriminate Q]. injection Q as <- <-. apply wait_waited.
Qed.
Lemma patient_ungrab d s : patient (gs_log s) -> patient (gs_log (ungrab_device held_keys d s)).
Proof.
  intro P. change (patient (gs_log s ++ [GUngrab (n_dev (gd_node d)) (gs_polls (wait_until_keys_released held_keys (n_dev (gd_node d)) s))])).
  apply patient_snoc; [exact P|]. intros dev p [Q|Q]; [discriminate Q|]. injection Q as <- <-. apply wait_waited.
Qed.
Lemma patient_loop : forall l kept s, patient (gs_log s) -> patient (gs_log (snd (ungrab_loop held_keys l kept s))).
Proof.
  induction l as [|d l IH]; intros kept s P; cbn [ungrab_loop]; [exact P|].
  destruct (gd_disappeared d); [apply (IH kept (ungrab_device held_keys d s)), patient_ungrab, P|apply IH, P].
Qed.
Lemma patient_update w s : patient (gs_log s) -> patient (gs_log (update_scan w s)).
Proof.
  intro P. unfold Grab.update_scan. match goal with |- context [fold_left _ w ?x] => set (s0 := x) end.
  assert (P0 : patient (gs_log s0)) by exact P. clearbody s0. clear P.
  assert (P1 : patient (gs_log (fold_left (fun s n => scan_entry search held_keys n s) w s0))).
  { revert s0 P0. induction w as [|n w IH]; intros s0 P0; [exact P0|]. cbn [fold_left]. apply IH, patient_scan, P0. }
  set (s1 := fold_left _ w s0) in *. clearbody s1. pose proof (patient_loop (gs_devices s1) [] s1 P1) as P2.
  destruct (ungrab_loop held_keys (gs_devices s1) [] s1) as [kept s2]. exact P2.
Qed.

(** ** What is true of the log stays so *)
Section Log.
Variable OK : list gcall -> Prop.
Variable sees : list node -> Prop.
Hypothesis scans : forall w s, sees w -> OK (gs_log s) -> OK (gs_log (update_scan w s)).
Definition logs (y : dsys) : Prop := sees (ds_world y) /\ OK (gs_log (ds_grab y)).
Lemma logs_updated y : logs y -> logs (devices_updated y).
Proof. destruct (updated_parts create_ok y) as (U1 & U2 & U3 & U4). unfold logs. now rewrite U1, U3. Qed.
Lemma logs_update during y : logs y -> (forall w, during = Some w -> sees w) -> logs (update_devices during y).
Proof.
  intros [L1 L2] Du. unfold Grab.update_devices. destruct (gs_changed _); [|now split]. apply logs_updated.
  destruct during as [w|]; cbn [world_may_change]; split; cbn [put_grab ds_world ds_grab world_changes put_grab_begin]; auto.
  - change (OK (gs_log (update_scan w (update_begin monitor_ok (ds_grab y))))). apply scans; auto.
  - change (OK (gs_log (update_scan (ds_world y) (update_begin monitor_ok (ds_grab y))))). apply scans; auto.
Qed.
Definition step_sees (x : dstep) : Prop :=
  match x with DTurn _ (Some w) | DWorld w | DSilent w => sees w | _ => True end.
Lemma logs_step x y : logs y -> step_sees x -> logs (dstep_run x y).
Proof.
  intros L V. destruct x as [r during|e|w|w]; cbn [Grab.dstep_run].
  - unfold Grab.loop_turn. destruct (ds_over y); [exact L|].
    match goal with |- context [read_input_event ?r _] => destruct (read_state r (ds_grab y)) as (b & B); destruct (read_input_event r (ds_grab y)) as [res g] end.
    cbn [snd] in B. subst g. assert (Du : forall w, during = Some w -> sees w) by (intros w ->; exact V).
    destruct res as [| |i e|]; try exact L; [apply logs_update; [exact L|exact Du]|]. destruct (to_key_event e) as [k|]; [|exact L].
    apply logs_update; [|exact Du]. destruct (N.eqb _ _); exact L.
  - exact L.
  - split; [exact V|apply L].
  - split; [exact V|apply L].
Qed.
Lemma logs_run l : forall y, logs y -> Forall step_sees l -> logs (drun l y).
Proof.
  induction l as [|x l IH]; intros y L F; [exact L|]. unfold Grab.drun in *. cbn [fold_left]. apply IH; [|now apply Forall_inv_tail in F].
  apply logs_step; [exact L|]. now apply Forall_inv in F.
Qed.
Lemma logs_session w mice filters during : OK [] -> sees w -> (forall v, during = Some v -> sees v) ->
  logs (session search held_keys monitor_ok create_ok w mice filters during).
Proof.
  intros O V Du. unfold session. apply logs_updated. destruct during as [v|]; cbn [world_may_change]; split;
    cbn [put_grab ds_world ds_grab world_changes]; auto; apply scans; auto.
Qed.
End Log.

(** ** Own devices *)

(** Nothing grabbed is a device which must not be. *)
Definition only_foreign (bad : nat) (l : list gcall) : Prop := forall p, ~ In (GGrab bad p) l.
Definition bad_is_own (bad : nat) (w : list node) : Prop := forall n, In n w -> n_dev n = bad -> own_name (n_name n).
Lemma foreign_update bad w s : bad_is_own bad w -> only_foreign bad (gs_log s) -> only_foreign bad (gs_log (update_scan w s)).
Proof.
  intros B P. unfold Grab.update_scan. match goal with |- context [fold_left _ w ?x] => set (s0 := x) end.
  assert (P0 : only_foreign bad (gs_log s0)) by exact P. clearbody s0. clear P.
  assert (P1 : only_foreign bad (gs_log (fold_left (fun s n => scan_entry search held_keys n s) w s0))).
  { revert s0 P0. induction w as [|n w IH]; intros s0 P0; [exact P0|]. cbn [fold_left]. apply IH; [intros m Hm; apply B; now right|].
    unfold scan_entry. destruct (n_opens n); [|exact P0]. destruct (is_supported_device n && negb (is_virtual_device (n_name n))) eqn:A; [|exact P0].
    destruct (selected _ _ _); [|exact P0]. destruct (existsb _ _); [exact P0|]. unfold grab_device. destruct (n_grabs n); [|exact P0].
    match goal with |- only_foreign bad (gs_log (put_gdevices _ (glog (GGrab ?d ?p) _))) => change (only_foreign bad (gs_log s0 ++ [GGrab d p])) end.
    intros p X. apply in_app_or in X. destruct X as [X|[X|[]]]; [now apply P0 in X|]. injection X as X _.
    apply andb_prop in A. destruct A as [_ A]. assert (V : own_name (n_name n)) by (apply B; [now left|exact X]).
    apply virtual_dec in V. rewrite V in A. discriminate A. }
  set (s1 := fold_left _ w s0) in *. clearbody s1.
  assert (P2 : forall l kept s, only_foreign bad (gs_log s) -> only_foreign bad (gs_log (snd (ungrab_loop held_keys l kept s)))).
  { clear. induction l as [|d l IH]; intros kept s P; cbn [ungrab_loop]; [exact P|].
    destruct (gd_disappeared d); [|apply IH, P]. apply (IH kept (ungrab_device held_keys d s)).
    match goal with |- only_foreign bad (gs_log (ungrab_device _ _ _)) =>
      change (only_foreign bad (gs_log s ++ [GUngrab (n_dev (gd_node d)) (gs_polls (wait_until_keys_released held_keys (n_dev (gd_node d)) s))])) end.
    intros p X. apply in_app_or in X. destruct X as [X|[X|[]]]; [now apply P in X|discriminate X]. }
  specialize (P2 (gs_devices s1) [] s1 P1). destruct (ungrab_loop held_keys (gs_devices s1) [] s1) as [kept s2]. exact P2.
Qed.
End Run.

(** ** The end of a session *)
Lemma ungrab_all_log held_keys l : forall s dev, NoDup (devs l) -> logged s (devs l) ->
  is_grabbed (gs_log (fold_left (fun s d => ungrab_device held_keys d s) l s)) dev = false.
Proof.
  induction l as [|d l IH]; intros s dev ND L.
  - cbn [fold_left]. destruct (is_grabbed (gs_log s) dev) eqn:Q; [|reflexivity]. apply L in Q. destruct Q.
  - cbn [fold_left]. change (devs (d :: l)) with (n_dev (gd_node d) :: devs l) in *. apply NoDup_cons_iff in ND. destruct ND as [N1 N2].
    apply IH; [exact N2|]. intro x.
    change (gs_log (ungrab_device held_keys d s)) with (gs_log s ++ [GUngrab (n_dev (gd_node d)) (gs_polls (wait_until_keys_released held_keys (n_dev (gd_node d)) s))]).
    rewrite is_grabbed_snoc. destruct (Nat.eqb_spec (n_dev (gd_node d)) x) as [<-|Q]; [split; [discriminate|intro X; contradiction]|].
    rewrite (L x). cbn [In]. tauto.
Qed.

(** ** The descriptions are up to date *)
Section Described.
Variable search : text -> text -> bool.
Variable held_keys : nat -> nat -> option (list N).
Variable write_ok create_ok : nat -> bool.
Notation update_devices := (update_devices search held_keys true create_ok).
Notation dstep_run := (dstep_run search held_keys true write_ok create_ok).
Notation drun := (drun search held_keys true write_ok create_ok).
Notation orderly := (orderly search held_keys true write_ok create_ok).

Definition described (y : dsys) : Prop := ds_pending y = false ->
  gs_descs (ds_grab y) = map (describe (ds_world y)) (gs_devices (ds_grab y)).

Lemma described_updated y : gs_descs (ds_grab y) = map (describe (ds_world y)) (gs_devices (ds_grab y)) -> described (devices_updated create_ok y).
Proof. destruct (updated_parts create_ok y) as (U1 & U2 & U3 & U4). unfold described. rewrite U1, U2, U3. auto. Qed.
Lemma described_session w mice filters during : described (session search held_keys true create_ok w mice filters during).
Proof. unfold session. apply described_updated. apply scan_descs. Qed.
Lemma described_update during y : described y -> described (update_devices during y).
Proof. intro D. unfold Grab.update_devices. destruct (gs_changed _); [|exact D]. apply described_updated. apply scan_descs. Qed.
Lemma described_step mice filters x y : settled search mice filters y -> step_orderly x y -> described y -> described (dstep_run x y).
Proof.
  intros S0 O D. destruct x as [r during|e|w|w]; cbn [Grab.dstep_run].
  - unfold Grab.loop_turn. destruct (ds_over y); [exact D|].
    match goal with |- context [read_input_event ?r _] => destruct (read_state r (ds_grab y)) as (b & B); destruct (read_input_event r (ds_grab y)) as [res g] end.
    cbn [snd] in B. subst g. destruct res as [| |i e|]; try exact D; [apply described_update; exact D|].
    destruct (to_key_event e) as [k|]; [|exact D]. apply described_update. destruct (N.eqb _ _); exact D.
  - exact D.
  - intro P. cbn in P. rewrite (se_monitor _ _ _ _ S0) in P. discriminate P.
  - destruct O.
Qed.
Lemma described_run mice filters l : forall y, settled search mice filters y -> orderly l y -> described y -> described (drun l y).
Proof.
  induction l as [|x l IH]; intros y S0 O D; [exact D|]. destruct O as [O1 O2]. unfold Grab.drun in *. cbn [fold_left]. apply IH.
  - now apply settled_step.
  - exact O2.
  - now apply (described_step mice filters).
Qed.

(** Which device an event is read from *)
Lemma read_one : forall l base dev e r, (forall x, sl_read r x = if (x =? dev)%nat then Some (Some e) else None) -> In dev (devs l) ->
  exists i d, nth_error l i = Some d /\ n_dev (gd_node d) = dev /\
    read_devices l base r = match read_conversion (gd_caps d) e with Some e' => REvent (base + i) e' | None => ROverflow end.
Proof.
  induction l as [|d l IH]; intros base dev e r R H; [destruct H|]. cbn [read_devices]. rewrite R.
  destruct (Nat.eqb_spec (n_dev (gd_node d)) dev) as [Q|Q].
  - exists 0%nat, d. rewrite Nat.add_0_r. auto.
  - destruct H as [H|H]; [contradiction|]. destruct (IH (S base) dev e r R H) as (i & d' & A1 & A2 & A3). exists (S i), d'.
    replace (base + S i)%nat with (S base + i)%nat by lia. auto.
Qed.
End Described.
